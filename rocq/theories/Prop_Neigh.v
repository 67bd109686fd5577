(** Prop_Neigh.v -- properties C09 and C10. *)
From Coq Require Import Reals Lra Psatz Permutation Sorted.
From Verif Require Import Base PyList Dict Num SpecReal Dense Sparse Matrix PSparse PMatrix PMatOps PShape PReal PSort Scaling Linalg Operation
  Similarity Space Peripheral SpecSpace PDictList PSpace Prop_Space Prop_Sim.
#[local] Existing Instance RNum.
Open Scope R_scope.
Section WithExt.
Context {E : @Ext RNum}.

Definition searched (s : space) (space2 : option space) : space := match space2 with None => s | Some x => x end.

Lemma get_row_vec s w p : consistent s -> nth_error (s_id2row s) p = Some w ->
  exists v, get_row s w = Ok v /\ row_vec v (m_nc (s_mat s)) /\ type_of v = type_of (s_mat s) /\
            forall j, (j < m_nc (s_mat s))%nat -> ment v 0 j = ment (s_mat s) p j.
Proof.
  intros Hc Hp. destruct (C03_get_row s w p Hc Hp) as (v & E1 & W & T & R1 & C1 & Ee).
  exists v. split; [exact E1|]. split; [split; [exact W|split; assumption]|]. split; assumption.
Qed.

Lemma row_missing s w : consistent s -> ~ In w (s_id2row s) -> get_row s w = Err KeyError.
Proof. intros Hc H. apply (proj1 (C03_get_row_missing s w Hc)), H. Qed.

Lemma resolve2_rows v1 v2 n : row_vec v1 n -> row_vec v2 n -> exists u1 u2, resolve2 v1 v2 (Some TDense) = Ok (u1, u2) /\
  row_vec u1 n /\ row_vec u2 n /\ (forall j, (j < n)%nat -> ment u1 0 j = ment v1 0 j) /\ (forall j, (j < n)%nat -> ment u2 0 j = ment v2 0 j).
Proof.
  intros H1 H2. unfold resolve2, resolve_type_conflict. destruct (type_conflict [v1; v2]); cbn [map bind].
  - destruct (row_vec_conv TDense v1 n H1), (row_vec_conv TDense v2 n H2). eauto 10.
  - eauto 10.
Qed.

Lemma get_sim_rows s s2 w1 w2 p q n sim : consistent s -> consistent (searched s s2) ->
  nth_error (s_id2row s) p = Some w1 -> nth_error (s_id2row (searched s s2)) q = Some w2 ->
  m_nc (s_mat s) = n -> m_nc (s_mat (searched s s2)) = n ->
  get_sim s w1 w2 sim s2 = Ok (sim_spec sim n (ment (s_mat s) p) (ment (s_mat (searched s s2)) q)).
Proof.
  intros Hc Hc2 H1 H2 N1 N2. unfold get_sim.
  destruct (get_row_vec s w1 p Hc H1) as (v1 & E1 & R1 & _ & X1). rewrite E1. cbn [is_key_error bind].
  destruct (get_row_vec (searched s s2) w2 q Hc2 H2) as (v2 & E2 & R2 & _ & X2).
  unfold searched in *. rewrite E2. cbn [is_key_error bind]. rewrite N1 in R1, X1. rewrite N2 in R2, X2.
  destruct (resolve2_rows v1 v2 n R1 R2) as (u1 & u2 & -> & U1 & U2 & Y1 & Y2). cbn [bind].
  rewrite (sim_get_row sim u1 u2 n U1 U2). apply (f_equal (@Ok R)).
  apply sim_spec_ext; intros j Hj; [rewrite Y1, X1|rewrite Y2, X2]; auto.
Qed.

(** ** C10 *)
Theorem C10_get_sim_missing : forall s w1 w2 sim space2,
  consistent s -> consistent (searched s space2) ->
  ~ In w1 (s_id2row s) \/ ~ In w2 (s_id2row (searched s space2)) ->
  get_sim s w1 w2 sim space2 = Ok 0.
Proof.
  intros s w1 w2 sim s2 Hc Hc2 H. unfold get_sim.
  destruct (in_dec string_dec w1 (s_id2row s)) as [I1|I1].
  - apply In_nth_error in I1. destruct I1 as (p & Hp).
    destruct (get_row_vec s w1 p Hc Hp) as (v1 & E1 & _). rewrite E1. cbn [is_key_error bind].
    destruct H as [H|H]; [apply nth_error_In in Hp; contradiction|].
    unfold searched in *. rewrite (row_missing _ w2 Hc2 H). reflexivity.
  - rewrite (row_missing s w1 Hc I1). reflexivity.
Qed.

(** both words present and rows of equal length: the similarity of the two rows, for every mixture of matrix classes *)
Theorem C10_get_sim_present : forall s w1 w2 sim space2 p q,
  consistent s -> consistent (searched s space2) ->
  nth_error (s_id2row s) p = Some w1 -> nth_error (s_id2row (searched s space2)) q = Some w2 ->
  m_nc (s_mat s) = m_nc (s_mat (searched s space2)) ->
  get_sim s w1 w2 sim space2 = Ok (sim_spec sim (m_nc (s_mat s)) (ment (s_mat s) p) (ment (s_mat (searched s space2)) q)).
Proof. intros. eapply get_sim_rows; eauto. Qed.

(** rows of different lengths: ValueError *)
Theorem C10_get_sim_mismatch : forall s w1 w2 sim space2,
  consistent s -> consistent (searched s space2) ->
  In w1 (s_id2row s) -> In w2 (s_id2row (searched s space2)) ->
  m_nc (s_mat s) <> m_nc (s_mat (searched s space2)) ->
  get_sim s w1 w2 sim space2 = Err ValueError.
Proof.
  intros s w1 w2 sim s2 Hc Hc2 I1 I2 Hne. apply In_nth_error in I1, I2. destruct I1 as (p & H1), I2 as (q & H2). unfold get_sim.
  destruct (get_row_vec s w1 p Hc H1) as (v1 & E1 & R1 & _ & X1). rewrite E1. cbn [is_key_error bind].
  destruct (get_row_vec (searched s s2) w2 q Hc2 H2) as (v2 & E2 & R2 & _ & X2).
  unfold searched in *. rewrite E2. cbn [is_key_error bind].
  unfold resolve2, resolve_type_conflict. destruct (type_conflict [v1; v2]); cbn [map bind].
  - destruct (row_vec_conv TDense v1 _ R1), (row_vec_conv TDense v2 _ R2). eapply sim_get_mismatch; eauto.
  - eapply sim_get_mismatch; eauto.
Qed.

Theorem C10_get_sims : forall s sim space2 pairs l, get_sims s pairs sim space2 = Ok l ->
  length l = length pairs /\
  forall i w1 w2, nth_error pairs i = Some (w1, w2) -> exists c, nth_error l i = Some c /\ get_sim s w1 w2 sim space2 = Ok c.
Proof.
  intros s sim s2 pairs l H. unfold get_sims in H. split; [exact (mapM_ok_length _ _ _ H)|].
  intros i w1 w2 Hi. assert (Hl : (i < length pairs)%nat) by (apply nth_error_Some; congruence).
  pose proof (mapM_ok_length _ _ _ H) as Hn.
  pose proof (mapM_ok_nth _ _ _ (w1, w2) 0 H i Hl) as K. rewrite (nth_error_nth _ _ _ Hi) in K. cbn [fst snd] in K.
  exists (nth i l 0). split; [apply nth_error_nth'; lia|exact K].
Qed.
Theorem C10_get_sims_total : forall s sim space2 pairs,
  consistent s -> consistent (searched s space2) -> m_nc (s_mat s) = m_nc (s_mat (searched s space2)) ->
  exists l, get_sims s pairs sim space2 = Ok l.
Proof.
  intros s sim s2 pairs Hc Hc2 Hn. unfold get_sims. induction pairs as [|[w1 w2] ps IH]; [exists []; reflexivity|].
  cbn [mapM fst snd].
  assert (K : exists c, get_sim s w1 w2 sim s2 = Ok c).
  { destruct (in_dec string_dec w1 (s_id2row s)) as [I1|I1]; [|eexists; apply C10_get_sim_missing; auto].
    destruct (in_dec string_dec w2 (s_id2row (searched s s2))) as [I2|I2]; [|eexists; apply C10_get_sim_missing; auto].
    apply In_nth_error in I1, I2. destruct I1 as (p & H1), I2 as (q & H2).
    eexists. eapply C10_get_sim_present; eauto. }
  destruct K as (c & ->). destruct IH as (l & ->). cbn [bind]. eauto.
Qed.

(** ** C09 *)
(** [l] is the ranking of the words of [rows] (in row order) by the similarity [score], cut at [k] *)
Record top_k (rows : list string) (score : nat -> R) (k : nat) (l : list (string * R)) : Prop := {
  tk_length : length l = Nat.min k (length rows);
  tk_distinct : NoDup (map fst l);
  tk_score : forall x c, In (x, c) l -> exists q, nth_error rows q = Some x /\ c = score q;
  tk_order : forall a b x c y d, (a < b)%nat -> nth_error l a = Some (x, c) -> nth_error l b = Some (y, d) ->
     d <= c /\ (c = d -> forall p q, nth_error rows p = Some x -> nth_error rows q = Some y -> (p < q)%nat);
  tk_omitted : forall q y x c, nth_error rows q = Some y -> ~ In y (map fst l) -> In (x, c) l ->
     score q <= c /\ (score q = c -> forall p, nth_error rows p = Some x -> (p < q)%nat) }.

Lemma NoDup_nth_error_inj {A} (l : list A) i j x : NoDup l -> nth_error l i = Some x -> nth_error l j = Some x -> i = j.
Proof.
  intros Hn Hi Hj. apply (proj1 (NoDup_nth_error l) Hn); [apply nth_error_Some; congruence|congruence].
Qed.

Lemma ranking_top_k rows (score : nat -> R) norms (k : nat) :
  length norms = length rows -> (forall i, (i < length rows)%nat -> nth i norms 0 = score i) -> NoDup rows ->
  top_k rows score k
    (map (fun a => let i := nth a (sorted_permutation norms) O in (nth i rows EmptyString, score i)) (seq 0 (Nat.min k (length rows)))).
Proof.
  intros Hlen Hsc Hnd. set (perm := sorted_permutation norms). set (n := length rows) in *. set (m := Nat.min k n).
  set (g := fun a => let i := nth a perm O in (nth i rows EmptyString, score i)).
  assert (Hpl : length perm = n) by (unfold perm; rewrite sorted_permutation_length; exact Hlen).
  assert (Hlt : forall a, (a < n)%nat -> (nth a perm O < n)%nat).
  { intros a Ha. rewrite <- Hlen. apply sorted_permutation_In. apply nth_In. fold perm. lia. }
  assert (Hne : forall a, (a < n)%nat -> nth_error rows (nth a perm O) = Some (nth (nth a perm O) rows EmptyString)).
  { intros a Ha. apply nth_error_nth'. apply Hlt, Ha. }
  assert (Hnth : forall a p, nth_error (map g (seq 0 m)) a = Some p -> (a < m)%nat /\ p = g a).
  { intros a p H. assert (Ha : (a < m)%nat). { assert (a < length (map g (seq 0 m)))%nat by (apply nth_error_Some; congruence). rewrite map_length, seq_length in H0. exact H0. }
    split; [exact Ha|]. rewrite (nth_error_nth' _ (g O)) in H by (rewrite map_length, seq_length; exact Ha).
    inversion H. rewrite map_nth, seq_nth by exact Ha. reflexivity. }
  assert (Hord : forall a b, (a < b < n)%nat -> score (nth b perm O) <= score (nth a perm O) /\
             (score (nth a perm O) = score (nth b perm O) -> (nth a perm O < nth b perm O)%nat)).
  { intros a b Hab. pose proof (sorted_permutation_order norms a b) as K. cbn zeta in K. fold perm in K.
    rewrite !Hsc in K by (apply Hlt; lia). apply K. lia. }
  split.
  - rewrite map_length, seq_length. reflexivity.
  - rewrite map_map. cbn [g fst].
    assert (Hinj : forall l, (forall a, In a l -> (a < n)%nat) -> NoDup l -> NoDup (map (fun a => nth (nth a perm O) rows EmptyString) l)).
    { induction l as [|a l IH]; intros Hl Hd; cbn; [constructor|]. inversion Hd as [|? ? Hni Hd']; subst.
      constructor; [|apply IH; [intros; apply Hl; right; assumption|assumption]].
      intros Hin. apply in_map_iff in Hin. destruct Hin as (b & Hb & Hbl).
      assert (Ha : (a < n)%nat) by (apply Hl; left; reflexivity). assert (Hb' : (b < n)%nat) by (apply Hl; right; assumption).
      pose proof (Hne a Ha) as K1. pose proof (Hne b Hb') as K2. rewrite Hb in K2.
      pose proof (NoDup_nth_error_inj _ _ _ _ Hnd K1 K2) as K.
      assert (a = b); [|subst; contradiction].
      apply (proj1 (NoDup_nth perm O) (sorted_permutation_NoDup norms)); lia. }
    apply Hinj; [|apply seq_NoDup]. intros a Ha. apply in_seq in Ha. unfold m in *. lia.
  - intros x c Hin. apply in_map_iff in Hin. destruct Hin as (a & Ha & Hs). apply in_seq in Hs. unfold g in Ha. inversion Ha; subst.
    exists (nth a perm O). split; [|reflexivity]. apply Hne. unfold m in *. lia.
  - intros a b x c y d Hab Ha Hb. apply Hnth in Ha. apply Hnth in Hb. destruct Ha as (La & Ea), Hb as (Lb & Eb).
    unfold g in Ea, Eb. inversion Ea; subst x c. inversion Eb; subst y d.
    assert (Hb' : (b < n)%nat) by (unfold m in *; lia).
    destruct (Hord a b ltac:(lia)) as (K1 & K2). split; [exact K1|]. intros He p q Hp Hq.
    rewrite (NoDup_nth_error_inj _ _ _ _ Hnd Hp (Hne a ltac:(lia))), (NoDup_nth_error_inj _ _ _ _ Hnd Hq (Hne b Hb')).
    apply K2, He.
  - intros q y x c Hq Hni Hin. apply in_map_iff in Hin. destruct Hin as (a & Ha & Hs). apply in_seq in Hs. unfold g in Ha. inversion Ha; subst x c.
    assert (Hqn : (q < n)%nat) by (apply nth_error_Some; congruence).
    destruct (sorted_permutation_pos norms q) as (b & Hb & Eb); [change (q < length norms)%nat; rewrite Hlen; exact Hqn|]. change (b < @length R norms)%nat in Hb. fold perm in Eb.
    assert (Hmb : (m <= b)%nat).
    { destruct (le_lt_dec m b) as [|Hlt']; [assumption|]. exfalso. apply Hni. rewrite map_map. apply in_map_iff. exists b.
      split; [|apply in_seq; lia]. unfold g. cbn [fst]. rewrite Eb. apply nth_error_nth. exact Hq. }
    destruct (Hord a b ltac:(unfold m in *; lia)) as (K1 & K2). rewrite Eb in K1, K2. split; [exact K1|].
    intros He p Hp. rewrite (NoDup_nth_error_inj _ _ _ _ Hnd Hp (Hne a ltac:(unfold m in *; lia))). apply K2. symmetry. exact He.
Qed.

Theorem C09_neighbours : forall s w k sim space2,
  consistent s -> consistent (searched s space2) -> In w (s_id2row s) ->
  m_nc (s_mat s) = m_nc (s_mat (searched s space2)) ->
  exists l score, get_neighbours s w k sim space2 = Ok l /\
    top_k (s_id2row (searched s space2)) score (Z.to_nat k) l /\
    (forall q x, nth_error (s_id2row (searched s space2)) q = Some x -> get_sim s w x sim space2 = Ok (score q)).
Proof.
  intros s w k sim s2 Hc Hc2 Hin Hn. apply In_nth_error in Hin. destruct Hin as (p & Hp).
  set (S2 := searched s s2) in *. set (n := m_nc (s_mat s)).
  exists (map (fun a => let i := nth a (sorted_permutation (map (fun q => sim_spec sim n (ment (s_mat s) p) (ment (s_mat S2) q)) (seq 0 (m_nr (s_mat S2))))) O in
            (nth i (s_id2row S2) EmptyString, sim_spec sim n (ment (s_mat s) p) (ment (s_mat S2) i)))
          (seq 0 (Nat.min (Z.to_nat k) (length (s_id2row S2))))).
  exists (fun q => sim_spec sim n (ment (s_mat s) p) (ment (s_mat S2) q)).
  pose proof Hc2 as (W2 & L2 & _ & (Nd & _) & _).
  split; [|split].
  - unfold get_neighbours. destruct (get_row_vec s w p Hc Hp) as (v & Ev & Rv & Tv & Xv). rewrite Ev. cbn [bind].
    fold n in Rv, Xv.
    assert (Hv' : exists v', match s2 with None => v | Some x => conv (type_of (s_mat x)) v end = v' /\ row_vec v' n /\
                     forall j, (j < n)%nat -> ment v' 0 j = ment (s_mat s) p j).
    { destruct s2 as [x|].
      - destruct (row_vec_conv (type_of (s_mat x)) v n Rv) as (Rc & Xc). eexists. split; [reflexivity|]. split; [exact Rc|].
        intros j Hj. rewrite Xc, Xv by assumption. reflexivity.
      - exists v. auto. }
    destruct Hv' as (v' & -> & Rv' & Xv'). change (match s2 with None => s | Some x => x end) with S2.
    destruct (sims_to_matrix_value sim v' (s_mat S2) n Rv' W2 (eq_sym Hn)) as (z & -> & (Wz & Tz & Rz & Cz) & Ez). cbn [bind].
    assert (Hnorm : m_sum1 z = map (fun q => sim_spec sim n (ment (s_mat s) p) (ment (s_mat S2) q)) (seq 0 (m_nr (s_mat S2)))).
    { apply list_eq_nth with (d := 0).
      - rewrite map_length, seq_length, m_sum1_length. exact Rz.
      - intros i Hi. rewrite m_sum1_length, Rz in Hi. rewrite nth_m_sum1_R by lia. rewrite nth_map_seq by assumption. rewrite Cz. cbn [rsum].
        rewrite Rplus_0_l. rewrite Ez by assumption. apply sim_spec_ext; [exact Xv'|reflexivity]. }
    rewrite Hnorm. set (norms := map _ _).
    assert (Hnl : length norms = length (s_id2row S2)) by (unfold norms; rewrite map_length, seq_length; congruence).
    replace (Z.to_nat (Z.min k (Z.of_nat (length (s_id2row S2))))) with (Nat.min (Z.to_nat k) (length (s_id2row S2))) by lia.
    apply mapM_all_ok. intros a Ha. apply in_seq in Ha.
    assert (Hal : (a < length (s_id2row S2))%nat) by lia.
    assert (Hil : (nth a (sorted_permutation norms) O < length (s_id2row S2))%nat).
    { rewrite <- Hnl. apply sorted_permutation_In. apply nth_In. rewrite sorted_permutation_length. change (a < length norms)%nat. rewrite Hnl. exact Hal. }
    rewrite (nth_error_nth' _ O) by (rewrite sorted_permutation_length; change (a < length norms)%nat; rewrite Hnl; exact Hal).
    rewrite (nth_error_nth' _ EmptyString) by exact Hil. cbn zeta. unfold m_get.
    rewrite Ez by lia. rewrite (sim_spec_ext sim n (ment v' 0) (ment (s_mat s) p) _ _ Xv' (fun i _ => eq_refl)). reflexivity.
  - apply ranking_top_k; [rewrite map_length, seq_length; congruence| |exact Nd].
    intros i Hi. rewrite nth_map_seq by lia. reflexivity.
  - intros q x Hq. eapply get_sim_rows; eauto.
Qed.

Theorem C09_missing : forall s w k sim space2, consistent s -> ~ In w (s_id2row s) ->
  get_neighbours s w k sim space2 = Err KeyError.
Proof. intros. unfold get_neighbours. rewrite row_missing by assumption. reflexivity. Qed.
Example C09_example : consistent sp22 /\ consistent (searched sp22 (Some (space_to_sparse sp22))) /\
  In "dog"%string (s_id2row sp22) /\ m_nc (s_mat sp22) = m_nc (s_mat (searched sp22 (Some (space_to_sparse sp22)))).
Proof.
  split; [apply sp22_consistent|]. split; [apply to_type_consistent, sp22_consistent|]. split; [right; left; reflexivity|reflexivity].
Qed.
Example C10_example : ~ In "cow"%string (s_id2row sp22) /\ nth_error (s_id2row sp22) 1 = Some "dog"%string.
Proof. split; [intros [H|[H|[]]]; discriminate|reflexivity]. Qed.
End WithExt.
