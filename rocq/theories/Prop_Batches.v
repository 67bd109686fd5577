(** Prop_Batches.v -- property C88: composing batch after batch and stacking the results gives what composing everything at once
    gives.  Holds for every carrier of numbers, so also in floating point. *)
From Coq Require Import Reals Lra.
From Verif Require Import SpecReal PReal Prop_Periph.
From Verif Require Prop_Train.
From Verif Require Import Base PyList Dict Num Dense Sparse Matrix PSparse PMatrix PMatOps Scaling Linalg Operation
  Similarity Space Peripheral SpecSpace PShape PDictList PSpace Prop_Space PVals Learner Composition SpecComp PComp Prop_Comp
  PReshape LexFun PLexFun Prop_LexFun.
Section Any.
Context {N : Num} {E : Ext}.
Local Open Scope string_scope.
Local Open Scope list_scope.
Local Open Scope nat_scope.

(** ** specification *)
(** equal up to the class of the matrix *)
Record same_content (s s' : space) : Prop := {
  sc_rows : s_id2row s' = s_id2row s;
  sc_cols : s_id2col s' = s_id2col s;
  sc_shape : s_eshape s' = s_eshape s;
  sc_ops : s_ops s' = s_ops s;
  sc_nr : m_nr (s_mat s') = m_nr (s_mat s);
  sc_nc : m_nc (s_mat s') = m_nc (s_mat s);
  sc_ent : forall i j, i < m_nr (s_mat s) -> j < m_nc (s_mat s) -> ment (s_mat s') i j = ment (s_mat s) i j }.
(** compose the next batch, stack it under what is there, go on *)
Fixpoint continue_batches (m : cmodel) (bs : list (list tuple3)) (a : arg_spaces) (acc : space) : res space :=
  match bs with
  | [] => Ok acc
  | b :: bs => match compose m b a with
               | (m', Ok s) => match space_vstack acc s with Ok acc' => continue_batches m' bs a acc' | Err e => Err e end
               | (_, Err e) => Err e
               end
  end.
Definition compose_in_batches (m : cmodel) (b : list tuple3) (bs : list (list tuple3)) (a : arg_spaces) : res space :=
  match compose m b a with (m', Ok s) => continue_batches m' bs a s | (_, Err e) => Err e end.

(** the same for any way of composing a batch *)
Fixpoint stack_batches (f : list tuple3 -> res space) (bs : list (list tuple3)) (acc : space) : res space :=
  match bs with
  | [] => Ok acc
  | b :: bs => match f b with
               | Ok s => match space_vstack acc s with Ok acc' => stack_batches f bs acc' | Err e => Err e end
               | Err e => Err e
               end
  end.
(** the same result, up to the class of the matrix, or the same exception *)
Definition same_content_outcome (x y : res space) : Prop :=
  match x, y with Ok s, Ok s' => same_content s s' | Err e, Err e' => e = e' | _, _ => False end.

(** ** proof *)
Lemma nth_error_lt {A} (l : list A) i x : nth_error l i = Some x -> i < length l.
Proof. intros H. apply nth_error_Some. congruence. Qed.
Lemma vstack_entry s1 s2 s : consistent s1 -> consistent s2 -> space_vstack s1 s2 = Ok s ->
  forall i j, i < m_nr (s_mat s) -> j < m_nc (s_mat s) -> ment (s_mat s) i j =
     if i <? m_nr (s_mat s1) then ment (s_mat s1) i j else ment (s_mat s2) (i - m_nr (s_mat s1)) j.
Proof.
  intros C1 C2 H. destruct (space_vstack_ok _ _ _ C1 C2 H) as (m&d&Es&Ha&H1&H2&Wm&Dm&Hc). rewrite Es. cbn [s_mat].
  assert (Hnr : m_nr m = m_nr (s_mat s1) + m_nr (s_mat s2)) by (rewrite <- to_dense_nr, Dm; cbn; rewrite !to_dense_nr; reflexivity).
  assert (Hnc : m_nc m = m_nc (s_mat s1)) by (rewrite <- to_dense_nc, Dm; cbn; apply to_dense_nc).
  intros i j Hi Hj. rewrite <- dent_to_dense by assumption. rewrite Dm. unfold d_vstack. rewrite dent_tab by (rewrite ?to_dense_nr, ?to_dense_nc; lia).
  rewrite to_dense_nr. destruct (Nat.ltb_spec i (m_nr (s_mat s1))); apply dent_to_dense; lia.
Qed.
Lemma NoDup_app_parts {A} (l l' : list A) : NoDup (l ++ l') -> NoDup l /\ NoDup l' /\ forall x, In x l -> ~ In x l'.
Proof.
  induction l as [|x l IH]; cbn; intros H; [split; [constructor|split; [exact H|intros ? []]]|].
  inversion H as [|? ? Hx Hl]; subst. destruct (IH Hl) as (A1 & A2 & A3). rewrite in_app_iff in Hx. split; [constructor; tauto|]. split; [exact A2|].
  intros y [<-|Hy]; [tauto|apply A3, Hy].
Qed.
Lemma mk_space_err c r cl es e : mk_space c r cl None None [] es = Err e -> e = ValueError.
Proof.
  unfold mk_space, assert_shape_consistent. destruct (list2dict r) as [d|e'] eqn:Q; [|apply list2dict_err in Q; cbn [bind]; intuition congruence].
  cbn [bind]. destruct (list2dict cl) as [d'|e'] eqn:Q'; [|apply list2dict_err in Q'; cbn [bind]; intuition congruence].
  cbn [bind]. destruct (_ && _); cbn [check bind]; [|congruence]. destruct (negb _); cbn [check bind]; [|congruence].
  destruct es as [es|]; [|cbn [bind]; congruence]. destruct (Nat.eqb _ _); cbn [check bind]; congruence.
Qed.
Section Run.
Variables (u : tuple3 -> bool) (g : tuple3 -> nat -> F) (wd : nat) (cols : list string).
Definition labels (d : list tuple3) : list string := map snd (filter u d).
Record holds (d : list tuple3) (s : space) : Prop := {
  h_cons : consistent s;
  h_pos : positional_rows s;
  h_rows : s_id2row s = labels d;
  h_cols : s_id2col s = cols;
  h_nc : m_nc (s_mat s) = wd;
  h_shape : s_eshape s = [wd];
  h_ops : s_ops s = [];
  h_ent : forall i t j, nth_error (filter u d) i = Some t -> j < wd -> ment (s_mat s) i j = g t j }.
Lemma holds_nr d s : holds d s -> m_nr (s_mat s) = length (filter u d).
Proof. intros H. pose proof (h_cons _ _ H) as (_&L&_). rewrite <- L, (h_rows _ _ H). apply map_length. Qed.
Lemma holds_same d s s' : holds d s -> holds d s' -> same_content s s'.
Proof.
  intros H H'. pose proof (holds_nr _ _ H) as R. pose proof (holds_nr _ _ H') as R'.
  destruct H, H'. split; try congruence. intros i j Hi Hj. rewrite R in Hi.
  destruct (nth_error (filter u d) i) as [t|] eqn:Q; [|apply nth_error_None in Q; lia].
  rewrite (h_ent1 i t j Q) by congruence. symmetry. apply (h_ent0 i t j Q). congruence.
Qed.
Lemma labels_app d d' : labels (d ++ d') = labels d ++ labels d'.
Proof. unfold labels. rewrite filter_app, map_app. reflexivity. Qed.
Lemma holds_vstack d d' s s' r : holds d s -> holds d' s' -> space_vstack s s' = Ok r -> holds (d ++ d') r.
Proof.
  intros H H' V. pose proof (holds_nr _ _ H) as Rn. pose proof (holds_nr _ _ H') as Rn'. destruct H as [Hc Hp Hr Hl Hn Hs Ho He], H' as [Hc' Hp' Hr' Hl' Hn' Hs' Ho' He'].
  pose proof (vstack_entry _ _ _ Hc Hc' V) as X. destruct (C04_vstack_vectors _ _ _ Hc Hc' V) as (R1&L1&_&O1&K1&N1&_).
  destruct (space_vstack_ok _ _ _ Hc Hc' V) as (m0&d0&Es&Ea&_&_&_&_&_).
  pose proof Hc as (_&_&_&Ci&Cd&_). pose proof K1 as (_&LK&_).
  split; try congruence.
  - destruct (add_items_positional _ _ _ _ _ Cd Hp (mutually_inverse_length _ _ Ci) Ea) as (Q&_). rewrite Es. exact Q.
  - rewrite R1, Hr, Hr', labels_app. reflexivity.
  - transitivity [m_nc (s_mat r)]; [rewrite Es; reflexivity|]. congruence.
  - intros i t j Hi Hj. rewrite filter_app in Hi.
    assert (Li : i < m_nr (s_mat r)).
    { rewrite <- LK, R1, Hr, Hr', <- labels_app. unfold labels. rewrite map_length, filter_app. exact (nth_error_lt _ _ _ Hi). }
    rewrite (X i j Li) by congruence. destruct (Nat.ltb_spec i (m_nr (s_mat s))) as [Hlt|Hge].
    + apply (He i t j); [|exact Hj]. rewrite nth_error_app1 in Hi by lia. exact Hi.
    + apply (He' _ t j); [|congruence]. rewrite nth_error_app2 in Hi by lia. rewrite Rn. exact Hi.
Qed.
(** each batch is composed, or its phrases are not distinct *)
Definition composes (f : list tuple3 -> res space) (d : list tuple3) : Prop :=
  (exists s, f d = Ok s /\ holds d s) \/ (f d = Err ValueError /\ ~ NoDup (labels d)).
Lemma stack_spec f : forall bs d s, holds d s -> Forall (composes f) bs ->
  (exists s', stack_batches f bs s = Ok s' /\ holds (d ++ concat bs) s') \/
  (stack_batches f bs s = Err ValueError /\ ~ NoDup (labels (d ++ concat bs))).
Proof.
  induction bs as [|b bs IH]; intros d s H Hb; cbn [stack_batches concat].
  - left. exists s. rewrite app_nil_r. auto.
  - inversion Hb as [|? ? Hb1 Hb2]; subst x l. rewrite app_assoc. destruct Hb1 as [(sb & -> & Hsb)|(-> & Nb)].
    + destruct (space_vstack s sb) as [s'|e] eqn:V.
      * apply IH; [|exact Hb2]. exact (holds_vstack _ _ _ _ _ H Hsb V).
      * right. destruct (C04_vstack s sb (h_cons _ _ H) (h_pos _ _ H) (h_cons _ _ Hsb)) as (I1 & E1).
        rewrite (E1 e V). split; [reflexivity|]. rewrite labels_app, labels_app. intros K. apply NoDup_app_parts in K. destruct K as (K & _). apply NoDup_app_parts in K. destruct K as (_ & _ & K).
        destruct (proj2 I1) as (s' & V'); [|congruence]. rewrite (h_nc _ _ H), (h_nc _ _ Hsb), (h_cols _ _ H), (h_cols _ _ Hsb), (h_rows _ _ H), (h_rows _ _ Hsb). auto.
    + right. split; [reflexivity|]. intros K. apply Nb. rewrite labels_app, labels_app in K. apply NoDup_app_parts in K. destruct K as (K & _). apply NoDup_app_parts in K. tauto.
Qed.
Lemma whole_spec f b bs : Forall (composes f) (b :: bs) -> composes f (concat (b :: bs)) ->
  same_content_outcome (f (concat (b :: bs))) (match f b with Ok s => stack_batches f bs s | Err e => Err e end).
Proof.
  intros Hb H. inversion Hb as [|? ? Hb1 Hb2]; subst x l. cbn [concat] in *. destruct H as [(s & -> & H)|(-> & Nd)], Hb1 as [(s' & -> & H')|(-> & Nd')]; cbn [same_content_outcome].
  - destruct (stack_spec f bs b s' H' Hb2) as [(r & -> & Hr)|(_ & K)]; [exact (holds_same _ _ _ H Hr)|].
    exfalso. apply K. rewrite <- (h_rows _ _ H). pose proof (h_cons _ _ H) as (_&_&_&(Q&_)&_). exact Q.
  - apply Nd'. pose proof (h_cons _ _ H) as (_&_&_&(Q&_)&_). rewrite (h_rows _ _ H), labels_app in Q. apply NoDup_app_parts in Q. tauto.
  - destruct (stack_spec f bs b s' H' Hb2) as [(r & -> & Hr)|(-> & K)]; [|reflexivity].
    apply Nd. rewrite <- (h_rows _ _ Hr). pose proof (h_cons _ _ Hr) as (_&_&_&(Q&_)&_). exact Q.
  - reflexivity.
Qed.
End Run.

Section Compose.
Variables (k : ckind) (cols : list string) (a : arg_spaces) (s1 s2 : space).
Hypotheses (C1 : consistent s1) (C2 : consistent s2) (Ha : args_of a s1 s2) (Hcol : s_id2col s1 = s_id2col s2)
  (Hf : fits k (m_nc (s_mat s1)) (m_nc (s_mat s2))).
Let u := usable2 s1 s2.
Let g (t : tuple3) := gform k (m_nc (s_mat s1)) (m_nc (s_mat s2)) (vec s1 (t1 t)) (vec s2 (t2 t)).
Let wd := width k (m_nc (s_mat s1)).
Lemma compose_step m d : cm_kind m = k -> match cm_cols m with Some l => l | None => build_id2column k s1 s2 end = cols ->
  filter u d <> [] -> fst (compose m d a) = CM k (Some cols) /\ snd (compose m d a) = snd (compose (CM k (Some cols)) d a).
Proof.
  intros Hk Hc Hne. destruct (compose_matrix_ok k d a s1 s2 C1 C2 Ha Hcol Hf Hne) as (z & t & Ez & Vz).
  unfold compose. cbn [cm_kind cm_cols]. rewrite Hk, Ez, Hc. auto.
Qed.
Lemma compose_cases d : NoDup cols -> cols = [] \/ length cols = wd -> filter u d <> [] ->
  composes u g wd cols (fun d => snd (compose (CM k (Some cols)) d a)) d.
Proof.
  intros Nc Lc Hne. destruct (compose_matrix_ok k d a s1 s2 C1 C2 Ha Hcol Hf Hne) as (z & t & Ez & Vz). unfold composes.
  unfold compose. cbn [cm_kind cm_cols]. rewrite Ez. cbn [snd]. change (map t3 (filter (usable2 s1 s2) d)) with (labels u d).
  destruct (mk_space z (labels u d) cols None None [] None) as [s|e] eqn:Q.
  - left. pose proof (mk_space_consistent _ _ _ None None _ _ _ (vals_wf _ _ _ _ _ Vz) ltac:(constructor) I I Q) as Cs.
    destruct (mk_space_ok _ _ _ None None _ _ _ I I Q) as (dr&dc&e&->&Ar&_&_&_&_&He'). unfold acc in Ar.
    eexists. split; [reflexivity|]. split; cbn [s_mat s_id2row s_id2col s_eshape s_ops s_row2id]; try reflexivity; try assumption.
    + unfold positional_rows. cbn [s_id2row s_row2id]. apply Ar.
    + apply (vals_nc _ _ _ _ _ Vz).
    + rewrite He'. f_equal. apply (vals_nc _ _ _ _ _ Vz).
    + intros i x j Hi Hj. rewrite (vals_ent _ _ _ _ _ i j Vz (nth_error_lt _ _ _ Hi) Hj). cbn beta. fold u.
      rewrite (map_nth_default t1 _ i _ "" Hi), (map_nth_default t2 _ i _ "" Hi). reflexivity.
  - right. rewrite (mk_space_err _ _ _ _ _ Q). split; [reflexivity|]. intros Nr.
    destruct (mk_space_total z (labels u d) cols None None [] None) as (s & Hs); try exact I; try assumption.
    + unfold labels. rewrite map_length, (vals_nr _ _ _ _ _ Vz). reflexivity.
    + rewrite (vals_nc _ _ _ _ _ Vz). exact Lc.
    + congruence.
Qed.
(** labels that cannot be used: every composition fails the same way *)
Lemma compose_bad_cols d : ~ (NoDup cols /\ (cols = [] \/ length cols = wd)) -> filter u d <> [] -> snd (compose (CM k (Some cols)) d a) = Err ValueError.
Proof.
  intros Hn Hne. destruct (compose_matrix_ok k d a s1 s2 C1 C2 Ha Hcol Hf Hne) as (z & t & Ez & Vz).
  unfold compose. cbn [cm_kind cm_cols]. rewrite Ez. cbn [snd]. destruct (mk_space z _ cols None None [] None) as [s|e] eqn:Q; [|rewrite (mk_space_err _ _ _ _ _ Q); reflexivity].
  exfalso. apply Hn. destruct (mk_space_ok _ _ _ None None _ _ _ I I Q) as (dr&dc&e&->&_&((Nc&_)&_)&_&Lc&_). rewrite (vals_nc _ _ _ _ _ Vz) in Lc. auto.
Qed.
Lemma continue_stack : forall bs acc, Forall (fun b => filter u b <> []) bs ->
  continue_batches (CM k (Some cols)) bs a acc = stack_batches (fun d => snd (compose (CM k (Some cols)) d a)) bs acc.
Proof.
  induction bs as [|b bs IH]; intros acc0 Hb; [reflexivity|]. inversion Hb as [|? ? Hb1 Hb2]; subst x l. cbn [continue_batches stack_batches].
  destruct (compose_step (CM k (Some cols)) b eq_refl eq_refl Hb1) as (H & _). destruct (compose (CM k (Some cols)) b a) as [m' [s|e]]; cbn [fst snd] in *; [|reflexivity].
  subst m'. destruct (space_vstack acc0 s); [apply IH, Hb2|reflexivity].
Qed.
End Compose.

(** ** C88 *)
(** every model but LexicalFunction; each batch has a usable pair (a batch without one is an error of its own, C33) *)
Theorem C88_compose : forall m a s1 s2 b bs, consistent s1 -> consistent s2 -> args_of a s1 s2 -> s_id2col s1 = s_id2col s2 ->
  fits (cm_kind m) (m_nc (s_mat s1)) (m_nc (s_mat s2)) -> Forall (fun d => filter (usable2 s1 s2) d <> []) (b :: bs) ->
  same_content_outcome (snd (compose m (concat (b :: bs)) a)) (compose_in_batches m b bs a).
Proof.
  intros m a s1 s2 b bs C1 C2 Ha Hcol Hf Hb. inversion Hb as [|? ? Hb1 Hb2]; subst x l. unfold compose_in_batches.
  set (cols := match cm_cols m with Some l => l | None => build_id2column (cm_kind m) s1 s2 end).
  assert (Hn : filter (usable2 s1 s2) (concat (b :: bs)) <> []).
  { cbn [concat]. rewrite filter_app. intros K. apply app_eq_nil in K. tauto. }
  destruct (compose_step (cm_kind m) cols a s1 s2 C1 C2 Ha Hcol Hf m _ eq_refl eq_refl Hn) as (_ & ->).
  destruct (compose_step (cm_kind m) cols a s1 s2 C1 C2 Ha Hcol Hf m _ eq_refl eq_refl Hb1) as (F1 & F2).
  assert (EQ : match compose m b a with (m', Ok s) => continue_batches m' bs a s | (_, Err e) => Err e end =
     match snd (compose (CM (cm_kind m) (Some cols)) b a) with Ok s => stack_batches (fun d => snd (compose (CM (cm_kind m) (Some cols)) d a)) bs s | Err e => Err e end).
  { rewrite <- F2. destruct (compose m b a) as [m' [s|e]]; cbn [fst snd] in *; [|reflexivity]. subst m'. apply (continue_stack (cm_kind m) cols a s1 s2); assumption. }
  rewrite EQ.
  assert (D : (NoDup cols /\ (cols = [] \/ length cols = width (cm_kind m) (m_nc (s_mat s1)))) \/ ~ (NoDup cols /\ (cols = [] \/ length cols = width (cm_kind m) (m_nc (s_mat s1))))).
  { destruct (ListDec.NoDup_dec string_dec cols) as [?|?]; [|tauto]. destruct cols; [tauto|]. destruct (Nat.eq_dec (length (s :: cols)) (width (cm_kind m) (m_nc (s_mat s1)))); [tauto|].
    right. intros (_ & [K|K]); [discriminate|contradiction]. }
  destruct D as [(Nc & Lc)|Hbad].
  - apply (whole_spec (usable2 s1 s2) (fun t => gform (cm_kind m) (m_nc (s_mat s1)) (m_nc (s_mat s2)) (vec s1 (t1 t)) (vec s2 (t2 t))) (width (cm_kind m) (m_nc (s_mat s1))) cols (fun d => snd (compose (CM (cm_kind m) (Some cols)) d a))).
    + revert Hb. apply Forall_impl. intros d Hd. apply compose_cases; assumption.
    + apply compose_cases; assumption.
  - rewrite (compose_bad_cols (cm_kind m) cols a s1 s2 C1 C2 Ha Hcol Hf _ Hbad Hn), (compose_bad_cols (cm_kind m) cols a s1 s2 C1 C2 Ha Hcol Hf _ Hbad Hb1). reflexivity.
Qed.
End Any.

(** LexicalFunction, with functions from vectors to vectors *)
Section Lexical.
#[local] Existing Instance RNum.
Context {E : @Ext RNum}.
Local Open Scope string_scope.
Local Open Scope list_scope.
Local Open Scope nat_scope.
Lemma lf_matrix : forall m fs data arg sh, consistent fs -> consistent arg -> in_range fs -> lf_fs m = Some fs ->
  s_eshape fs = sh ++ [domain (m_nc (s_mat arg)) (lf_icpt m)] ->
  sh <> [] \/ (type_of (s_mat fs) = TDense /\ type_of (s_mat arg) = TDense) -> filter (usable2 fs arg) data <> [] ->
  exists z t, lf_compose m data arg = mk_space z (map t3 (filter (usable2 fs arg) data)) (lf_cols m) None None [] (Some sh) /\
    vals z t (length (filter (usable2 fs arg) data)) (size sh) (fun i r => apply_fun (m_nc (s_mat arg)) (lf_icpt m)
      (fmatrix fs (t1 (nth i (filter (usable2 fs arg) data) ("", "", ""))) (domain (m_nc (s_mat arg)) (lf_icpt m))) (vec arg (t2 (nth i (filter (usable2 fs arg) data) ("", "", "")))) r).
Proof.
  intros m fs data arg sh C1 C2 HZ Hfs Hsh Hd Hne. unfold lf_compose. rewrite Hfs.
  rewrite (valid_data_ok data _ _ _ _ (valid_eq2 fs arg C1 C2) Hne). cbn [bind].
  assert (HU : forall t, In t (filter (usable2 fs arg) data) -> usable2 fs arg t = true) by (intros t Ht; apply filter_In in Ht; tauto).
  set (w := filter (usable2 fs arg) data) in *. clearbody w.
  set (ps := combine (map t1 w) (map t2 w)).
  assert (HN : ~ (sh = [] /\ common_type (type_of (s_mat fs)) (type_of (s_mat arg)) (1 * m_nc (s_mat fs)) (1 * m_nc (s_mat arg)) = TSparse)).
  { intros [K1 K2]. destruct Hd as [Hd|[D1 D2]]; [congruence|]. rewrite D1, D2 in K2. discriminate. }
  assert (HM : exists vs, mapM (fun p => lf_compose1 (lf_icpt m) fs arg (fst p) (snd p)) ps = Ok vs).
  { destruct (mapM (fun p => lf_compose1 (lf_icpt m) fs arg (fst p) (snd p)) ps) as [vs|e] eqn:Em; [eauto|exfalso].
    apply mapM_err in Em. destruct Em as ([a b] & Hin & He). cbn [fst snd] in He.
    assert (Hab : exists t, In t w /\ t1 t = a /\ t2 t = b).
    { unfold ps in Hin. clear - Hin. induction w as [|t w IH]; [destruct Hin|]. destruct Hin as [K|K]; [injection K as <- <-; exists t; cbn; auto|].
      destruct (IH K) as (t' & ? & ? & ?). exists t'. cbn. auto. }
    destruct Hab as (t & Ht & <- & <-). specialize (HU t Ht). destruct t as [[a b] c]. unfold usable2 in HU. apply andb_true_iff in HU. cbn in He.
    destruct (lf_compose1_value (lf_icpt m) fs arg a b sh _ C1 C2 (proj1 HU) (proj2 HU) HZ Hsh) as (_ & _ & T3).
    destruct (T3 HN eq_refl) as (v & Ev & _). rewrite Ev in He. discriminate. }
  destruct HM as (vs & Evs). rewrite Evs. cbn [bind].
  destruct (compose_vs (lf_icpt m) fs arg w vs C1 C2 HZ Hne HU Evs) as (sh' & Hsh' & _ & HLv & Hnth).
  rewrite Hsh in Hsh'. apply app_inj_tail in Hsh'. destruct Hsh' as [<- _].
  set (fn := fun i r => apply_fun (m_nc (s_mat arg)) (lf_icpt m) (fmatrix fs (t1 (nth i w ("", "", ""))) (domain (m_nc (s_mat arg)) (lf_icpt m))) (vec arg (t2 (nth i w ("", "", "")))) r).
  assert (Hv0 : vs <> []) by (intros ->; destruct w; [congruence|discriminate]).
  destruct (nary_vals (common_type (type_of (s_mat fs)) (type_of (s_mat arg)) (1 * m_nc (s_mat fs)) (1 * m_nc (s_mat arg))) (size sh) vs fn Hv0 Hnth) as (z & Ez & Vz).
  assert (ET : last (map type_of vs) TDense = common_type (type_of (s_mat fs)) (type_of (s_mat arg)) (1 * m_nc (s_mat fs)) (1 * m_nc (s_mat arg))).
  { destruct vs as [|v vs _] using rev_ind; [destruct w; [congruence|discriminate]|]. rewrite map_app. cbn [map]. rewrite last_last.
    apply (vals_type v _ 1 (size sh) _ (Hnth (length vs) v ltac:(rewrite nth_error_app2 by lia; rewrite Nat.sub_diag; reflexivity))). }
  rewrite ET, Ez. cbn [bind]. rewrite Hsh, removelast_last.
  exists z, (common_type (type_of (s_mat fs)) (type_of (s_mat arg)) (1 * m_nc (s_mat fs)) (1 * m_nc (s_mat arg))).
  split; [reflexivity|]. rewrite <- HLv. exact Vz.
Qed.
Lemma lf_cases m fs arg q d : consistent fs -> consistent arg -> in_range fs -> lf_fs m = Some fs ->
  s_eshape fs = [q; domain (m_nc (s_mat arg)) (lf_icpt m)] -> NoDup (lf_cols m) -> lf_cols m = [] \/ length (lf_cols m) = q -> filter (usable2 fs arg) d <> [] ->
  composes (usable2 fs arg) (fun t => apply_fun (m_nc (s_mat arg)) (lf_icpt m) (fmatrix fs (t1 t) (domain (m_nc (s_mat arg)) (lf_icpt m))) (vec arg (t2 t))) q (lf_cols m)
    (fun d => lf_compose m d arg) d.
Proof.
  intros C1 C2 HZ Hfs Hsh Nc Lc Hne. destruct (lf_matrix m fs d arg [q] C1 C2 HZ Hfs Hsh ltac:(left; discriminate) Hne) as (z & t & Ez & Vz).
  assert (Eq : size [q] = q) by (cbn; lia). rewrite Eq in Vz. unfold composes. rewrite Ez. change (map t3 (filter (usable2 fs arg) d)) with (labels (usable2 fs arg) d).
  destruct (mk_space z (labels (usable2 fs arg) d) (lf_cols m) None None [] (Some [q])) as [s|e] eqn:Q.
  - left. pose proof (mk_space_consistent _ _ _ None None _ _ _ (vals_wf _ _ _ _ _ Vz) ltac:(constructor) I I Q) as Cs.
    destruct (mk_space_ok _ _ _ None None _ _ _ I I Q) as (dr&dc&e&->&Ar&_&_&_&_&He'). unfold acc in Ar.
    eexists. split; [reflexivity|]. split; cbn [s_mat s_id2row s_id2col s_eshape s_ops s_row2id]; try reflexivity; try assumption.
    + unfold positional_rows. cbn [s_id2row s_row2id]. apply Ar.
    + apply (vals_nc _ _ _ _ _ Vz).
    + intros i x j Hi Hj. rewrite (vals_ent _ _ _ _ _ i j Vz (nth_error_lt _ _ _ Hi) Hj). cbn beta.
      assert (EN : nth i (filter (usable2 fs arg) d) ("", "", "") = x) by (apply nth_error_nth, Hi). rewrite EN. reflexivity.
  - right. rewrite (mk_space_err _ _ _ _ _ Q). split; [reflexivity|]. intros Nr.
    destruct (mk_space_total z (labels (usable2 fs arg) d) (lf_cols m) None None [] (Some [q])) as (s & Hs); try exact I; try assumption.
    + unfold labels. rewrite map_length, (vals_nr _ _ _ _ _ Vz). reflexivity.
    + rewrite (vals_nc _ _ _ _ _ Vz). exact Lc.
    + cbn beta iota. rewrite (vals_nc _ _ _ _ _ Vz), size_prod. exact Eq.
    + congruence.
Qed.
Theorem C88_lexical : forall m fs arg q b bs, consistent fs -> consistent arg -> in_range fs -> lf_fs m = Some fs ->
  s_eshape fs = [q; domain (m_nc (s_mat arg)) (lf_icpt m)] -> NoDup (lf_cols m) -> lf_cols m = [] \/ length (lf_cols m) = q ->
  Forall (fun d => filter (usable2 fs arg) d <> []) (b :: bs) ->
  same_content_outcome (lf_compose m (concat (b :: bs)) arg)
    (match lf_compose m b arg with Ok s => stack_batches (fun d => lf_compose m d arg) bs s | Err e => Err e end).
Proof.
  intros m fs arg q b bs C1 C2 HZ Hfs Hsh Nc Lc Hb.
  apply (whole_spec (usable2 fs arg) (fun t => apply_fun (m_nc (s_mat arg)) (lf_icpt m) (fmatrix fs (t1 t) (domain (m_nc (s_mat arg)) (lf_icpt m))) (vec arg (t2 t))) q (lf_cols m)
    (fun d => lf_compose m d arg) b bs).
  - revert Hb. apply Forall_impl. intros d Hd. exact (lf_cases m fs arg q d C1 C2 HZ Hfs Hsh Nc Lc Hd).
  - apply lf_cases; try assumption. inversion Hb as [|? ? Hb1 Hb2]; subst x l. cbn [concat]. rewrite filter_app. intros K. apply app_eq_nil in K. tauto.
Qed.
Example C88_lexical_example : exists s, let m := LF (Some ex_fs) false (mk_lstsq None) [] 1 in
  match lf_compose m [("f", "b", "f b"); ("f", "zz", "p")] Prop_Train.ex_arg with Ok s => stack_batches (fun d => lf_compose m d Prop_Train.ex_arg) [[("f", "a", "f a")]] s | Err e => Err e end = Ok s /\
  s_id2row s = ["f b"; "f a"] /\ ment (s_mat s) 0 1 = 4%R /\ ment (s_mat s) 1 0 = 1%R.
Proof.
  destruct C41_example as (s0 & H0 & R0 & S0 & E0 & E1). set (m := LF (Some ex_fs) false (mk_lstsq None) [] 1) in *. intros.
  assert (HZ : in_range ex_fs) by (unfold in_range; cbn; lia).
  pose proof (C88_lexical m ex_fs Prop_Train.ex_arg 2 [("f", "b", "f b"); ("f", "zz", "p")] [[("f", "a", "f a")]] ex_fs_consistent Prop_Train.ex_arg_consistent HZ eq_refl eq_refl
    ltac:(constructor) ltac:(left; reflexivity) ltac:(repeat constructor; discriminate)) as H.
  change (concat [[("f", "b", "f b"); ("f", "zz", "p")]; [("f", "a", "f a")]]) with [("f", "b", "f b"); ("f", "zz", "p"); ("f", "a", "f a")] in H.
  rewrite H0 in H. destruct (match lf_compose m _ Prop_Train.ex_arg with Ok _ => _ | Err _ => _ end) as [s|e] eqn:Q; [|contradiction]. cbn [same_content_outcome] in H.
  exists s. cbv zeta. split; [exact Q|]. pose proof (sc_nr _ _ H). pose proof (sc_nc _ _ H).
  assert (D : m_nr (s_mat s0) = 2 /\ m_nc (s_mat s0) = 2).
  { destruct (C41_compose m ex_fs _ Prop_Train.ex_arg s0 ex_fs_consistent Prop_Train.ex_arg_consistent HZ eq_refl H0) as (C & _ & Hn & _). pose proof C as (_&L&_). rewrite R0 in L. rewrite Hn, S0. split; [symmetry; exact L|reflexivity]. }
  split; [rewrite (sc_rows _ _ H); exact R0|]. rewrite !(sc_ent _ _ H) by lia. auto.
Qed.
End Lexical.

Section Witness.
#[local] Existing Instance QNum.
Context {E : Ext}.
Local Open Scope string_scope.
Local Open Scope list_scope.
Local Open Scope nat_scope.
Definition batch1 : list tuple3 := [("car", "dog", "car dog"); ("car", "cow", "car cow")].
Definition batch2 : list tuple3 := [("dog", "dog", "dog dog")].
Definition batch3 : list tuple3 := [("dog", "car", "dog car"); ("car", "car", "car dog")].
Definition ex_m : cmodel := mk_wadd (Some (fofZ 2)) (Some (fofZ 3)).
(** two batches; with the third one a phrase is there twice, and both ways fail *)
Example C88_example : exists s s', snd (compose ex_m (batch1 ++ batch2) (One (csp ["x"; "y"]))) = Ok s /\
  compose_in_batches ex_m batch1 [batch2] (One (csp ["x"; "y"])) = Ok s' /\ s_id2row s' = ["car dog"; "dog dog"] /\ s_id2col s' = ["x"; "y"] /\
  ment (s_mat s') 0 0 = fofZ 11 /\ ment (s_mat s') 1 1 = fofZ 20 /\ same_content s s' /\
  snd (compose ex_m (concat [batch1; batch2; batch3]) (One (csp ["x"; "y"]))) = Err ValueError /\
  compose_in_batches ex_m batch1 [batch2; batch3] (One (csp ["x"; "y"])) = Err ValueError /\
  consistent (csp ["x"; "y"]) /\ Forall (fun d => filter (usable2 (csp ["x"; "y"]) (csp ["x"; "y"])) d <> []) [batch1; batch2; batch3].
Proof.
  assert (Cs : consistent (csp ["x"; "y"])) by (apply csp_consistent; discriminate).
  assert (F3 : Forall (fun d => filter (usable2 (csp ["x"; "y"]) (csp ["x"; "y"])) d <> []) [batch1; batch2; batch3]) by (repeat constructor; discriminate).
  assert (F2 : Forall (fun d => filter (usable2 (csp ["x"; "y"]) (csp ["x"; "y"])) d <> []) [batch1; batch2]) by (repeat constructor; discriminate).
  pose proof (C88_compose ex_m (One (csp ["x"; "y"])) _ _ batch1 [batch2] Cs Cs ltac:(left; auto) eq_refl eq_refl F2) as H.
  pose proof (C88_compose ex_m (One (csp ["x"; "y"])) _ _ batch1 [batch2; batch3] Cs Cs ltac:(left; auto) eq_refl eq_refl F3) as H'.
  change (concat [batch1; batch2]) with (batch1 ++ batch2) in H.
  destruct (snd (compose ex_m (batch1 ++ batch2) (One (csp ["x"; "y"])))) as [s|e] eqn:Q; [|exfalso; revert Q; vm_compute; discriminate].
  destruct (compose_in_batches ex_m batch1 [batch2] (One (csp ["x"; "y"]))) as [s'|e] eqn:Q'; [|contradiction].
  exists s, s'. split; [reflexivity|]. split; [reflexivity|].
  assert (V : match compose_in_batches ex_m batch1 [batch2] (One (csp ["x"; "y"])) with Err _ => False
     | Ok s' => s_id2row s' = ["car dog"; "dog dog"] /\ s_id2col s' = ["x"; "y"] /\ ment (s_mat s') 0 0 = fofZ 11 /\ ment (s_mat s') 1 1 = fofZ 20 end) by (vm_compute; auto).
  rewrite Q' in V. destruct V as (V1 & V2 & V3 & V4). do 5 (split; [assumption|]).
  destruct (snd (compose ex_m (concat [batch1; batch2; batch3]) (One (csp ["x"; "y"])))) as [s3|e3] eqn:Q3; [exfalso; revert Q3; vm_compute; discriminate|].
  assert (e3 = ValueError) by (revert Q3; vm_compute; congruence). subst e3.
  destruct (compose_in_batches ex_m batch1 [batch2; batch3] (One (csp ["x"; "y"]))) as [s4|e4]; [contradiction|]. cbn [same_content_outcome] in H'. subst e4. auto.
Qed.
End Witness.
