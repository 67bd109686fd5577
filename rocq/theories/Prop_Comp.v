(** Prop_Comp.v -- properties C33, C34, C35, C42: composition.  C33, C34 and C42 hold for every carrier of numbers. *)
From Verif Require Import Base PyList Dict Num Dense Sparse Matrix PSparse PMatrix PMatOps Scaling Linalg Operation
  Similarity Space Peripheral SpecSpace PShape PDictList PSpace Prop_Space PVals Learner Composition SpecComp PComp.
From Verif Require SpecReal PReal.
Section Any.
Context {N : Num} {E : Ext}.
Local Open Scope string_scope.
Local Open Scope list_scope.
Local Open Scope nat_scope.

(** ** C33: the tuples with an unknown word make no difference; none valid is a ValueError *)
Theorem C33_compose_partial : forall m data a s1 s2, consistent s1 -> consistent s2 -> args_of a s1 s2 -> data <> [] ->
  (filter (usable2 s1 s2) data <> [] -> compose m data a = compose m (filter (usable2 s1 s2) data) a) /\
  (filter (usable2 s1 s2) data = [] -> compose m data a = (m, Err ValueError)).
Proof.
  intros m data a s1 s2 C1 C2 Ha Hd. pose proof (valid_eq2 s1 s2 C1 C2) as Hv. unfold compose, compose_matrix.
  rewrite (args_extract a s1 s2 Ha). destruct (strings_eqb (s_id2col s1) (s_id2col s2)); cbn [bind]; [|split; reflexivity].
  split; intros Hne.
  - rewrite (valid_data_kept data _ _ _ _ Hv Hne). reflexivity.
  - rewrite (valid_data_eq data _ _ _ _ Hv), Hne. destruct data; [congruence|]. reflexivity.
Qed.

Theorem C33_train_partial : forall m data a s1 s2 sp, consistent s1 -> consistent s2 -> consistent sp -> args_of a s1 s2 ->
  data <> [] -> cm_kind m <> Mult ->
  (filter (usable3 s1 s2 sp) data <> [] -> train m data a sp = train m (filter (usable3 s1 s2 sp) data) a sp) /\
  (filter (usable3 s1 s2 sp) data = [] -> train m data a sp = (m, Err ValueError)).
Proof.
  intros m data a s1 s2 sp C1 C2 C3 Ha Hd Hk. pose proof (valid_eq3 s1 s2 sp C1 C2 C3) as Hv.
  assert (K : (filter (usable3 s1 s2 sp) data <> [] -> train_lists data a sp = train_lists (filter (usable3 s1 s2 sp) data) a sp) /\
              (filter (usable3 s1 s2 sp) data = [] -> train_lists data a sp = Err ValueError)).
  { unfold train_lists. rewrite (args_extract a s1 s2 Ha). destruct (strings_eqb (s_id2col s1) (s_id2col s2)); cbn [bind]; [|split; reflexivity].
    split; intros Hne.
    - rewrite (valid_data_kept data _ _ _ _ Hv Hne). reflexivity.
    - rewrite (valid_data_eq data _ _ _ _ Hv), Hne. destruct data; [congruence|]. reflexivity. }
  destruct K as (K1 & K2). unfold train. split; intros Hne.
  - rewrite (K1 Hne). reflexivity.
  - rewrite (K2 Hne). destruct (cm_kind m); try reflexivity. congruence.
Qed.

(** an empty data list is not handled the same way: UnboundLocalError instead of ValueError, for every model and space *)
Theorem C33_refuted : forall m s, compose m [] (One s) = (m, Err UnboundLocalError) /\
  (cm_kind m <> Mult -> forall sp, train m [] (One s) sp = (m, Err UnboundLocalError)).
Proof.
  intros m s. assert (R : strings_eqb (s_id2col s) (s_id2col s) = true).
  { apply strings_eqb_eq. reflexivity. }
  split.
  - unfold compose, compose_matrix, extract_arg_spaces. cbn [bind]. rewrite R. reflexivity.
  - intros Hk sp. unfold train, train_lists, extract_arg_spaces. cbn [bind]. rewrite R. cbn [check bind valid_data_to_lists].
    destruct (cm_kind m); try reflexivity. congruence.
Qed.

(** ** C34 *)
Lemma map_nth_default {A B} (f : A -> B) l i x d : nth_error l i = Some x -> nth i (map f l) d = f x.
Proof. intros H. apply nth_error_nth with (d := d). rewrite nth_error_map, H. reflexivity. Qed.

Lemma compose_matrix_ok k data a s1 s2 : consistent s1 -> consistent s2 -> args_of a s1 s2 -> s_id2col s1 = s_id2col s2 ->
  fits k (m_nc (s_mat s1)) (m_nc (s_mat s2)) -> filter (usable2 s1 s2) data <> [] ->
  exists z t, compose_matrix k data a = Ok (z, map t3 (filter (usable2 s1 s2) data), s1, s2) /\
    vals z t (length (filter (usable2 s1 s2) data)) (width k (m_nc (s_mat s1)))
      (fun i j => gform k (m_nc (s_mat s1)) (m_nc (s_mat s2))
                    (vec s1 (nth i (map t1 (filter (usable2 s1 s2) data)) ""))
                    (vec s2 (nth i (map t2 (filter (usable2 s1 s2) data)) "")) j).
Proof.
  intros C1 C2 Ha Hc Hf Hne. unfold compose_matrix. rewrite (args_extract a s1 s2 Ha), (proj2 (strings_eqb_eq _ _) Hc). cbn [bind].
  rewrite (valid_data_ok data _ _ _ _ (valid_eq2 s1 s2 C1 C2) Hne). cbn [bind]. set (v := filter (usable2 s1 s2) data) in *.
  assert (Hk : forall t, In t v -> known s1 (t1 t) = true /\ known s2 (t2 t) = true).
  { intros t Ht. apply filter_In in Ht. destruct Ht as (_ & Ht). destruct t as [[p q] r]. apply andb_true_iff in Ht. exact Ht. }
  destruct (get_rows_vals s1 (map t1 v) C1) as (u & -> & Vu).
  { destruct v; [congruence|discriminate]. } { intros w Hw. apply in_map_iff in Hw. destruct Hw as (t & <- & Ht). apply Hk, Ht. }
  cbn [bind]. destruct (get_rows_vals s2 (map t2 v) C2) as (w & -> & Vw).
  { destruct v; [congruence|discriminate]. } { intros y Hy. apply in_map_iff in Hy. destruct Hy as (t & <- & Ht). apply Hk, Ht. }
  cbn [bind]. rewrite map_length in Vu, Vw. destruct (resolve2_vals u w _ _ _ _ _ _ _ _ Vu Vw) as (u' & w' & t & -> & Vu' & Vw' & _). cbn [bind].
  destruct (kind_compose_vals k u' w' t _ _ _ _ _ Vu' Vw' Hf) as (z & -> & Vz). cbn [bind]. exists z, t. split; [reflexivity|]. exact Vz.
Qed.

Theorem C34_rows : forall m data a s1 s2 m' s, consistent s1 -> consistent s2 -> args_of a s1 s2 ->
  fits (cm_kind m) (m_nc (s_mat s1)) (m_nc (s_mat s2)) -> compose m data a = (m', Ok s) ->
  consistent s /\ s_id2row s = map snd (filter (usable2 s1 s2) data) /\
  forall i w1 w2 ph, nth_error (filter (usable2 s1 s2) data) i = Some (w1, w2, ph) ->
    exists m1 one, compose m [(w1, w2, ph)] a = (m1, Ok one) /\ s_id2row one = [ph] /\ m_nc (s_mat one) = m_nc (s_mat s) /\
      forall j, j < m_nc (s_mat s) -> ment (s_mat s) i j = ment (s_mat one) 0 j.
Proof.
  intros m data a s1 s2 m' s C1 C2 Ha Hf Hs.
  assert (Hd : data <> []). { intros ->. unfold compose, compose_matrix in Hs. rewrite (args_extract a s1 s2 Ha) in Hs. destruct (strings_eqb _ _); discriminate Hs. }
  assert (Hcol : s_id2col s1 = s_id2col s2).
  { unfold compose, compose_matrix in Hs. rewrite (args_extract a s1 s2 Ha) in Hs. destruct (strings_eqb _ _) eqn:Q; [apply strings_eqb_eq, Q|discriminate Hs]. }
  assert (Hne : filter (usable2 s1 s2) data <> []).
  { intros K. rewrite (proj2 (C33_compose_partial m data a s1 s2 C1 C2 Ha Hd) K) in Hs. discriminate Hs. }
  destruct (compose_matrix_ok (cm_kind m) data a s1 s2 C1 C2 Ha Hcol Hf Hne) as (z & t & Ez & Vz).
  unfold compose in Hs. rewrite Ez in Hs. injection Hs as _ Hs. set (v := filter (usable2 s1 s2) data) in *.
  set (cols := match cm_cols m with Some l => l | None => build_id2column (cm_kind m) s1 s2 end) in *.
  split; [exact (mk_space_consistent _ _ _ None None _ _ _ (vals_wf _ _ _ _ _ Vz) ltac:(constructor) I I Hs)|].
  destruct (mk_space_ok _ _ _ None None _ _ _ I I Hs) as (dr&dc&e&->&Ar&Ac&Lr&Lc&He&_). cbn [s_id2row s_mat].
  split; [reflexivity|]. intros i w1 w2 ph Hi.
  assert (Hu : usable2 s1 s2 (w1, w2, ph) = true). { apply nth_error_In in Hi. apply filter_In in Hi. apply Hi. }
  assert (Hf1 : filter (usable2 s1 s2) [(w1, w2, ph)] = [(w1, w2, ph)]). { cbn [filter]. rewrite Hu. reflexivity. }
  assert (Hne1 : filter (usable2 s1 s2) [(w1, w2, ph)] <> []) by (rewrite Hf1; discriminate).
  destruct (compose_matrix_ok (cm_kind m) [(w1, w2, ph)] a s1 s2 C1 C2 Ha Hcol Hf Hne1) as (z1 & tt1 & Ez1 & Vz1).
  rewrite Hf1 in Ez1, Vz1. cbn [map length t1 t2 t3 fst snd nth] in Ez1, Vz1.
  unfold compose. rewrite Ez1. fold cols.
  destruct (mk_space_total z1 [ph] cols None None [] None) as (one & Ho).
  { repeat constructor. intros []. } { destruct Ac as ((Hn&_)&_). exact Hn. } { rewrite (vals_nr _ _ _ _ _ Vz1). reflexivity. }
  { rewrite (vals_nc _ _ _ _ _ Vz1), <- (vals_nc _ _ _ _ _ Vz). exact Lc. } { exact I. } { exact I. } { exact I. }
  rewrite Ho. exists (CM (cm_kind m) (Some cols)), one. split; [reflexivity|].
  destruct (mk_space_ok _ _ _ None None _ _ _ I I Ho) as (dr1&dc1&e1&->&_). cbn [s_id2row s_mat]. split; [reflexivity|].
  rewrite (vals_nc _ _ _ _ _ Vz1), (vals_nc _ _ _ _ _ Vz). split; [reflexivity|]. intros j Hj.
  assert (Hl : i < length v) by (apply nth_error_Some; congruence).
  rewrite (vals_ent _ _ _ _ _ i j Vz Hl Hj), (vals_ent _ _ _ _ _ 0 j Vz1 ltac:(lia) Hj). cbn beta.
  rewrite (map_nth_default t1 v i _ "" Hi), (map_nth_default t2 v i _ "" Hi). reflexivity.
Qed.

Lemma compose_entry : forall m data a s1 s2 m' s, consistent s1 -> consistent s2 -> args_of a s1 s2 ->
  fits (cm_kind m) (m_nc (s_mat s1)) (m_nc (s_mat s2)) -> compose m data a = (m', Ok s) ->
  m_nc (s_mat s) = width (cm_kind m) (m_nc (s_mat s1)) /\
  forall i w1 w2 ph j, nth_error (filter (usable2 s1 s2) data) i = Some (w1, w2, ph) -> j < m_nc (s_mat s) ->
    ment (s_mat s) i j = gform (cm_kind m) (m_nc (s_mat s1)) (m_nc (s_mat s2)) (vec s1 w1) (vec s2 w2) j.
Proof.
  intros m data a s1 s2 m' s C1 C2 Ha Hf Hs.
  assert (Hd : data <> []). { intros ->. unfold compose, compose_matrix in Hs. rewrite (args_extract a s1 s2 Ha) in Hs. destruct (strings_eqb _ _); discriminate Hs. }
  assert (Hcol : s_id2col s1 = s_id2col s2).
  { unfold compose, compose_matrix in Hs. rewrite (args_extract a s1 s2 Ha) in Hs. destruct (strings_eqb _ _) eqn:Q; [apply strings_eqb_eq, Q|discriminate Hs]. }
  assert (Hne : filter (usable2 s1 s2) data <> []).
  { intros K. rewrite (proj2 (C33_compose_partial m data a s1 s2 C1 C2 Ha Hd) K) in Hs. discriminate Hs. }
  destruct (compose_matrix_ok (cm_kind m) data a s1 s2 C1 C2 Ha Hcol Hf Hne) as (z & t & Ez & Vz).
  unfold compose in Hs. rewrite Ez in Hs. injection Hs as _ Hs. set (v := filter (usable2 s1 s2) data) in *.
  destruct (mk_space_ok _ _ _ None None _ _ _ I I Hs) as (dr&dc&e&->&_). cbn [s_mat]. rewrite (vals_nc _ _ _ _ _ Vz).
  split; [reflexivity|]. intros i w1 w2 ph j Hi Hj. assert (Hl : i < length v) by (apply nth_error_Some; congruence).
  rewrite (vals_ent _ _ _ _ _ i j Vz Hl Hj). cbn beta.
  rewrite (map_nth_default t1 v i _ "" Hi), (map_nth_default t2 v i _ "" Hi). reflexivity.
Qed.

(** composition succeeds exactly when the phrases are distinct; otherwise ValueError *)
Theorem C34_total : forall m data a s1 s2, consistent s1 -> consistent s2 -> args_of a s1 s2 -> s_id2col s1 = s_id2col s2 ->
  fits (cm_kind m) (m_nc (s_mat s1)) (m_nc (s_mat s2)) -> filter (usable2 s1 s2) data <> [] ->
  match cm_cols m with None => True | Some l => NoDup l /\ (l = [] \/ length l = width (cm_kind m) (m_nc (s_mat s1))) end ->
  (NoDup (map snd (filter (usable2 s1 s2) data)) -> exists s, snd (compose m data a) = Ok s) /\
  (~ NoDup (map snd (filter (usable2 s1 s2) data)) -> snd (compose m data a) = Err ValueError).
Proof.
  intros m data a s1 s2 C1 C2 Ha Hcol Hf Hne Hm.
  destruct (compose_matrix_ok (cm_kind m) data a s1 s2 C1 C2 Ha Hcol Hf Hne) as (z & t & Ez & Vz).
  unfold compose. rewrite Ez. cbn [snd]. set (v := filter (usable2 s1 s2) data) in *. split; intros Hn.
  - apply mk_space_total; [exact Hn| |rewrite map_length, (vals_nr _ _ _ _ _ Vz); reflexivity| |exact I|exact I|exact I];
      rewrite ?(vals_nc _ _ _ _ _ Vz); destruct (cm_cols m) as [l|]; try apply Hm.
    + destruct C1 as (_&_&_&_&_&((H&_)&_)). unfold build_id2column. destruct (cm_kind m); try exact H. constructor.
    + pose proof C1 as (_&_&H&_). unfold build_id2column. destruct (cm_kind m); cbn [width]; auto.
  - unfold mk_space. change (map t3 v) with (map snd v). destruct (list2dict (map snd v)) as [d|e] eqn:Q.
    + apply list2dict_ok in Q. destruct Q as (Q & _). contradiction.
    + apply list2dict_err in Q. destruct Q as (-> & _). reflexivity.
Qed.

(** ** C42 *)
(** a model that has neither been trained nor used takes the columns of the argument space *)
Theorem C42_first_partial : forall m data a s1 s2 m' s, args_of a s1 s2 -> cm_cols m = None ->
  (forall ab i L, cm_kind m <> FAdd ab i L) -> compose m data a = (m', Ok s) -> s_id2col s = s_id2col s1.
Proof.
  intros m data a s1 s2 m' s Ha Hm Hk H. unfold compose in H.
  destruct (compose_matrix (cm_kind m) data a) as [[[[c l] x1] x2]|e] eqn:Q; [|discriminate H]. rewrite Hm in H. injection H as _ H.
  assert (Hx : x1 = s1).
  { unfold compose_matrix in Q. rewrite (args_extract a s1 s2 Ha) in Q. destruct (strings_eqb _ _); cbn [bind] in Q; [|discriminate Q].
    apply bind_ok in Q. destruct Q as ([[? ?] ?] & _ & Q). apply bind_ok in Q. destruct Q as (? & _ & Q). apply bind_ok in Q. destruct Q as (? & _ & Q).
    apply bind_ok in Q. destruct Q as ([? ?] & _ & Q). apply bind_ok in Q. destruct Q as (? & _ & Q). injection Q. auto. }
  subst x1. destruct (mk_space_ok _ _ _ None None _ _ _ I I H) as (dr&dc&e&->&_). cbn [s_id2col].
  unfold build_id2column. destruct (cm_kind m) as [| | |ab i L] eqn:Q2; try reflexivity. exfalso. exact (Hk ab i L eq_refl).
Qed.

(** afterwards the columns of the first use (or of the training phrase space) stay, whatever space is given *)
Theorem C42_sticky_partial : forall m l data a m' s, cm_cols m = Some l -> compose m data a = (m', Ok s) ->
  s_id2col s = l /\ cm_cols m' = Some l.
Proof.
  intros m l data a m' s Hm H. unfold compose in H.
  destruct (compose_matrix (cm_kind m) data a) as [[[[c l3] x1] x2]|e] eqn:Q; [|discriminate H]. rewrite Hm in H. injection H as H1 H2.
  subst m'. destruct (mk_space_ok _ _ _ None None _ _ _ I I H2) as (dr&dc&e&->&_). cbn [s_id2col cm_cols]. auto.
Qed.
(** after training, the columns are those of the phrase space *)
Theorem C42_trained_partial : forall m data a sp m1 data2 a2 m2 s, train m data a sp = (m1, Ok tt) -> compose m1 data2 a2 = (m2, Ok s) -> s_id2col s = s_id2col sp.
Proof.
  intros m data a sp m1 data2 a2 m2 s Ht Hc. assert (K : cm_cols m1 = Some (s_id2col sp)).
  { unfold train in Ht. destruct (cm_kind m); repeat match type of Ht with (match ?X with _ => _ end) = _ => destruct X end; try discriminate Ht; injection Ht as <-; reflexivity. }
  exact (proj1 (C42_sticky_partial m1 _ data2 a2 m2 s K Hc)).
Qed.
(** a full additive model given by its matrices has no columns *)
Theorem C42_given_full_additive_partial : forall ab i L data a m' s, compose (CM (FAdd ab i L) None) data a = (m', Ok s) -> s_id2col s = [].
Proof.
  intros ab i L data a m' s H. unfold compose in H. cbn [cm_kind cm_cols] in H.
  destruct (compose_matrix _ data a) as [[[[c l] x1] x2]|e] eqn:Q; [|discriminate H]. injection H as _ H.
  destruct (mk_space_ok _ _ _ None None _ _ _ I I H) as (dr&dc&e&->&_). reflexivity.
Qed.
End Any.

Section Witness.
#[local] Existing Instance QNum.
Context {E : Ext}.
Local Open Scope string_scope.
Local Open Scope list_scope.
Local Open Scope nat_scope.
Definition qm (a b c d : Z) : matrix := MD (DM 2 2 [[fofZ a; fofZ b]; [fofZ c; fofZ d]]).
Definition csp (cols : list string) : space :=
  SP (qm 1 2 3 4) ["car"; "dog"] cols [("car", 0%Z); ("dog", 1%Z)]
     (match cols with [x; y] => [(x, 0%Z); (y, 1%Z)] | _ => [] end) [] [2].
Lemma csp_consistent x y : x <> y -> consistent (csp [x; y]).
Proof.
  intros Hne. eapply (mk_space_consistent (qm 1 2 3 4) ["car"; "dog"] [x; y] None None [] None);
    [cbn; repeat constructor|constructor|exact I|exact I|].
  unfold mk_space, list2dict. cbn. unfold dmem. cbn. destruct (String.eqb_spec y x); [congruence|]. cbn. reflexivity.
Qed.

(** the same untrained model used on a second space with other columns: the result is labelled with the columns of the
    first space *)
Theorem C42_refuted : exists m1 c1 m2 c2 data, consistent (csp ["x"; "y"]) /\ consistent (csp ["p"; "q"]) /\
  compose (mk_wadd None None) data (One (csp ["x"; "y"])) = (m1, Ok c1) /\
  compose m1 data (One (csp ["p"; "q"])) = (m2, Ok c2) /\
  s_id2col (csp ["p"; "q"]) = ["p"; "q"] /\ s_id2col c2 = ["x"; "y"].
Proof.
  do 4 eexists. exists [("car", "dog", "cardog")].
  split; [apply csp_consistent; discriminate|]. split; [apply csp_consistent; discriminate|].
  split; [vm_compute; reflexivity|]. split; [vm_compute; reflexivity|]. split; reflexivity.
Qed.

Example C34_example : exists m' s, consistent (csp ["x"; "y"]) /\ args_of (One (csp ["x"; "y"])) (csp ["x"; "y"]) (csp ["x"; "y"]) /\
  fits (cm_kind mk_mult) 2 2 /\
  filter (usable2 (csp ["x"; "y"]) (csp ["x"; "y"])) [("car", "dog", "a"); ("cow", "dog", "b"); ("dog", "dog", "c")]
    = [("car", "dog", "a"); ("dog", "dog", "c")] /\
  compose mk_mult [("car", "dog", "a"); ("cow", "dog", "b"); ("dog", "dog", "c")] (One (csp ["x"; "y"])) = (m', Ok s) /\
  s_id2row s = ["a"; "c"] /\ s_mat s = qm 3 8 9 16.
Proof.
  do 2 eexists. split; [apply csp_consistent; discriminate|]. split; [left; auto|]. split; [reflexivity|].
  split; [reflexivity|]. split; [vm_compute; reflexivity|]. split; [reflexivity|]. vm_compute. reflexivity.
Qed.
End Witness.

(** ** C35: the formulas, over exact reals.  [u], [v] are the stored vectors of the two words of the tuple. *)
Section Formulas.
Import Reals Lra SpecReal PReal.
#[local] Existing Instance RNum.
Context {E : @Ext RNum}.
Local Open Scope string_scope.
Local Open Scope list_scope.
Local Open Scope R_scope.
Local Open Scope nat_scope.

Theorem C35_weighted_additive : forall m alpha beta data a s1 s2 m' s, cm_kind m = WAdd alpha beta ->
  consistent s1 -> consistent s2 -> args_of a s1 s2 -> m_nc (s_mat s1) = m_nc (s_mat s2) -> compose m data a = (m', Ok s) ->
  m_nc (s_mat s) = m_nc (s_mat s1) /\
  forall i w1 w2 ph j, nth_error (filter (usable2 s1 s2) data) i = Some (w1, w2, ph) -> j < m_nc (s_mat s1) ->
    ment (s_mat s) i j = (alpha * vec s1 w1 j + beta * vec s2 w2 j)%R.
Proof.
  intros m al be data a s1 s2 m' s Hk C1 C2 Ha Hn Hs.
  destruct (compose_entry m data a s1 s2 m' s C1 C2 Ha) as (Hc & He); [rewrite Hk; exact Hn|exact Hs|].
  rewrite Hk in Hc, He. cbn [width] in Hc. split; [exact Hc|]. intros i w1 w2 ph j Hi Hj. rewrite (He i w1 w2 ph j Hi ltac:(lia)).
  cbn [gform]. toR. ring.
Qed.

Theorem C35_multiplicative : forall m data a s1 s2 m' s, cm_kind m = Mult ->
  consistent s1 -> consistent s2 -> args_of a s1 s2 -> m_nc (s_mat s1) = m_nc (s_mat s2) -> compose m data a = (m', Ok s) ->
  m_nc (s_mat s) = m_nc (s_mat s1) /\
  forall i w1 w2 ph j, nth_error (filter (usable2 s1 s2) data) i = Some (w1, w2, ph) -> j < m_nc (s_mat s1) ->
    ment (s_mat s) i j = (vec s1 w1 j * vec s2 w2 j)%R.
Proof.
  intros m data a s1 s2 m' s Hk C1 C2 Ha Hn Hs.
  destruct (compose_entry m data a s1 s2 m' s C1 C2 Ha) as (Hc & He); [rewrite Hk; exact Hn|exact Hs|].
  rewrite Hk in Hc, He. cbn [width] in Hc. split; [exact Hc|]. intros i w1 w2 ph j Hi Hj. rewrite (He i w1 w2 ph j Hi ltac:(lia)).
  reflexivity.
Qed.

Lemma sq_sqrt_sum n (u : nat -> R) : fsq (fsqrt (sumn n (fun q => fmul (u q) (u q)))) = dot n u u.
Proof.
  unfold fsq. rewrite sumn_rsum. change (fsqrt (rsum n (fun i => fmul (u i) (u i)))) with (norm n u).
  change (fmul (norm n u) (norm n u)) with (norm n u * norm n u)%R. apply norm_sq.
Qed.

Theorem C35_dilation : forall m lambda data a s1 s2 m' s, cm_kind m = Dil lambda ->
  consistent s1 -> consistent s2 -> args_of a s1 s2 -> m_nc (s_mat s1) = m_nc (s_mat s2) -> compose m data a = (m', Ok s) ->
  m_nc (s_mat s) = m_nc (s_mat s1) /\
  forall i w1 w2 ph j, nth_error (filter (usable2 s1 s2) data) i = Some (w1, w2, ph) -> j < m_nc (s_mat s1) ->
    let n := m_nc (s_mat s1) in let u := vec s1 w1 in let v := vec s2 w2 in
    ment (s_mat s) i j = (dot n u u * v j + (lambda - 1) * dot n u v * u j)%R.
Proof.
  intros m la data a s1 s2 m' s Hk C1 C2 Ha Hn Hs.
  destruct (compose_entry m data a s1 s2 m' s C1 C2 Ha) as (Hc & He); [rewrite Hk; exact Hn|exact Hs|].
  rewrite Hk in Hc, He. cbn [width] in Hc. split; [exact Hc|]. intros i w1 w2 ph j Hi Hj. rewrite (He i w1 w2 ph j Hi ltac:(lia)).
  cbn [gform]. rewrite sq_sqrt_sum. cbv zeta. set (X := sumn _ _). assert (EX : X = dot (m_nc (s_mat s1)) (vec s1 w1) (vec s2 w2)) by apply sumn_rsum. rewrite EX. toR. ring.
Qed.

(** A and B are the stored transposes; [if icpt] the last row of B_t is the intercept *)
Theorem C35_full_additive : forall m At Bt icpt L data a s1 s2 m' s, cm_kind m = FAdd (Some (At, Bt)) icpt L ->
  consistent s1 -> consistent s2 -> args_of a s1 s2 -> fits (cm_kind m) (m_nc (s_mat s1)) (m_nc (s_mat s2)) -> compose m data a = (m', Ok s) ->
  m_nc (s_mat s) = m_nc At /\
  forall i w1 w2 ph j, nth_error (filter (usable2 s1 s2) data) i = Some (w1, w2, ph) -> j < m_nc At ->
    let n1 := m_nc (s_mat s1) in let n2 := m_nc (s_mat s2) in let u := vec s1 w1 in let v := vec s2 w2 in
    ment (s_mat s) i j = (rsum n1 (fun k => ment At k j * u k) + rsum n2 (fun k => ment Bt k j * v k)
                          + (if icpt then ment Bt n2 j else 0))%R.
Proof.
  intros m At Bt icpt L data a s1 s2 m' s Hk C1 C2 Ha Hf Hs.
  destruct (compose_entry m data a s1 s2 m' s C1 C2 Ha) as (Hc & He); [exact Hf|exact Hs|].
  rewrite Hk in Hc, He. cbn [width] in Hc. split; [exact Hc|]. intros i w1 w2 ph j Hi Hj. rewrite (He i w1 w2 ph j Hi ltac:(lia)).
  cbn [gform]. cbv zeta. rewrite !sumn_rsum. change fadd with Rplus. rewrite Rplus_assoc. apply f_equal2.
  - apply rsum_ext. intros. toR. ring.
  - destruct icpt; [rewrite rsum_app; cbn [rsum]; rewrite Nat.add_0_r|rewrite Rplus_0_r].
    + apply f_equal2.
      * apply rsum_ext. intros k Hk'. unfold padv. cbn [andb]. destruct (Nat.eqb_spec k (m_nc (s_mat s2))); [lia|]. toR. ring.
      * unfold padv. rewrite Nat.eqb_refl. cbn [andb]. toR. ring.
    + apply rsum_ext. intros. unfold padv. cbn [andb]. toR. ring.
Qed.

(** the constructors: parameters given by the user are the ones used *)
Theorem C35_full_additive_given : forall A B L data a s1 s2 m' s, mwf A -> mwf B -> m_nr A = m_nr B ->
  m_nc A = m_nc (s_mat s1) -> m_nc B = m_nc (s_mat s2) ->
  consistent s1 -> consistent s2 -> args_of a s1 s2 -> compose (mk_fadd (Some (A, B)) L) data a = (m', Ok s) ->
  m_nc (s_mat s) = m_nr A /\
  forall i w1 w2 ph j, nth_error (filter (usable2 s1 s2) data) i = Some (w1, w2, ph) -> j < m_nr A ->
    ment (s_mat s) i j = (rsum (m_nc A) (fun k => ment A j k * vec s1 w1 k) + rsum (m_nc B) (fun k => ment B j k * vec s2 w2 k))%R.
Proof.
  intros A B L data a s1 s2 m' s WA WB Hr HA HB C1 C2 Ha Hs.
  pose proof (vals_transpose A _ _ _ _ (vals_self A WA)) as VA.
  pose proof (vals_transpose _ _ _ _ _ (vals_conv (type_of A) B _ _ _ _ (vals_self B WB))) as VB.
  destruct (C35_full_additive (mk_fadd (Some (A, B)) L) (m_transpose A) (m_transpose (conv (type_of A) B)) false None data a s1 s2 m' s) as (Hc & He);
    [reflexivity|assumption|assumption|assumption| |assumption|].
  { cbn [mk_fadd to_compatible cm_kind fits]. split; [exact (vals_wf _ _ _ _ _ VA)|]. split; [exact (vals_wf _ _ _ _ _ VB)|].
    rewrite (vals_nr _ _ _ _ _ VA), (vals_nr _ _ _ _ _ VB), (vals_nc _ _ _ _ _ VA), (vals_nc _ _ _ _ _ VB). auto. }
  rewrite (vals_nc _ _ _ _ _ VA) in Hc, He. split; [exact Hc|]. intros i w1 w2 ph j Hi Hj. rewrite (He i w1 w2 ph j Hi Hj). cbv zeta.
  rewrite Rplus_0_r, <- HA, <- HB. apply f_equal2; apply rsum_ext; intros k Hk.
  - rewrite (vals_ent _ _ _ _ _ k j VA Hk Hj). reflexivity.
  - rewrite (vals_ent _ _ _ _ _ k j VB Hk ltac:(lia)). reflexivity.
Qed.
Theorem C35_weighted_additive_given : forall al be, 
  cm_kind (mk_wadd None None) = WAdd (1/2)%R (1/2)%R /\ cm_kind (mk_wadd (Some al) None) = WAdd al (1 - al)%R /\
  cm_kind (mk_wadd (Some al) (Some be)) = WAdd al be /\ cm_kind (mk_wadd None (Some be)) = WAdd (1/2)%R be /\
  cm_kind (mk_dil None) = Dil 2%R /\ cm_kind (mk_dil (Some al)) = Dil al.
Proof. intros. repeat split. Qed.
End Formulas.
