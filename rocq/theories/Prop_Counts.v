(** Prop_Counts.v -- property C73: multiplying all counts by a positive constant. *)
From Coq Require Import Reals Lra Psatz Permutation Sorted.
From Verif Require Import Base PyList Dict Num SpecReal Dense Sparse Matrix PSparse PMatrix PMatOps PShape PVals PReal PPos PSort Scaling Linalg Operation
  Similarity Space Peripheral SpecSpace PDictList PSpace Prop_Space Prop_Scaling Prop_Sim Prop_Neigh PMoved Prop_Periph PCols Prop_Order.
#[local] Existing Instance RNum.
Open Scope R_scope.
Open Scope nat_scope.

(** ** matrices *)
(** the entries of [m2] are [c] times those of [m1] *)
Record times (c : R) (m1 m2 : matrix) : Prop := {
  ti_wf1 : mwf m1; ti_wf2 : mwf m2; ti_nr : m_nr m2 = m_nr m1; ti_nc : m_nc m2 = m_nc m1;
  ti_ent : forall i j, i < m_nr m1 -> j < m_nc m1 -> ment m2 i j = (c * ment m1 i j)%R }.
Section Times.
Variables (c : R) (m1 m2 : @matrix RNum).
Hypothesis H : times c m1 m2.
Hypothesis Hc : (0 < c)%R.
Lemma times_row_sum i : i < m_nr m1 -> row_sum m2 i = (c * row_sum m1 i)%R.
Proof. intros Hi. unfold row_sum. rewrite (ti_nc _ _ _ H), <- rsum_scal_l. apply rsum_ext. intros j Hj. apply H; assumption. Qed.
Lemma times_col_sum j : j < m_nc m1 -> col_sum m2 j = (c * col_sum m1 j)%R.
Proof. intros Hj. unfold col_sum. rewrite (ti_nr _ _ _ H), <- rsum_scal_l. apply rsum_ext. intros i Hi. apply H; assumption. Qed.
Lemma times_total : total m2 = (c * total m1)%R.
Proof.
  unfold total. rewrite (ti_nr _ _ _ H), (ti_nc _ _ _ H), <- rsum_scal_l. apply rsum_ext. intros i Hi. rewrite <- rsum_scal_l. apply rsum_ext. intros j Hj. apply H; assumption.
Qed.
Lemma times_row_norm i : i < m_nr m1 -> norm (m_nc m2) (ment m2 i) = (c * norm (m_nc m1) (ment m1 i))%R.
Proof.
  intros Hi. rewrite (ti_nc _ _ _ H). rewrite (norm_ext _ _ (fun j => (c * ment m1 i j)%R)) by (intros j Hj; apply H; assumption). rewrite norm_scal, Rabs_pos_eq by lra. reflexivity.
Qed.
Lemma times_col_norm j : j < m_nc m1 -> norm (m_nr m2) (fun i => ment m2 i j) = (c * norm (m_nr m1) (fun i => ment m1 i j))%R.
Proof.
  intros Hj. rewrite (ti_nr _ _ _ H). rewrite (norm_ext _ _ (fun i => (c * ment m1 i j)%R)) by (intros i Hi; apply H; assumption). rewrite norm_scal, Rabs_pos_eq by lra. reflexivity.
Qed.
Lemma times_frobenius : frobenius m2 = (c * frobenius m1)%R.
Proof.
  unfold frobenius. rewrite (ti_nr _ _ _ H), (ti_nc _ _ _ H).
  rewrite (rsum_ext (m_nr m1) _ (fun i => ((c * c) * rsum (m_nc m1) (fun j => ment m1 i j * ment m1 i j))%R)).
  - rewrite rsum_scal_l, sqrt_mult_alt by nra. rewrite sqrt_square by lra. reflexivity.
  - intros i Hi. rewrite <- rsum_scal_l. apply rsum_ext. intros j Hj. rewrite (ti_ent _ _ _ H) by assumption. ring.
Qed.
Lemma times_row_size k i : i < m_nr m1 -> row_size k m2 i = (c * row_size k m1 i)%R.
Proof. destruct k; [apply times_row_sum|apply times_row_norm]. Qed.
Lemma times_size k : size k m2 = (c * size k m1)%R.
Proof. destruct k; [apply times_total|apply times_frobenius]. Qed.
Lemma times_col_score k j : j < m_nc m1 -> col_score k m2 j = (c * col_score k m1 j)%R.
Proof. destruct k; [apply times_col_sum|apply times_col_norm]. Qed.
Lemma times_nonneg : non_negative m2 <-> non_negative m1.
Proof.
  unfold non_negative. rewrite (ti_nr _ _ _ H), (ti_nc _ _ _ H). split; intros K i j Hi Hj; specialize (K i j Hi Hj); rewrite (ti_ent _ _ _ H) in * by assumption; nra.
Qed.
Lemma times_zero x : (c * x = 0)%R <-> x = 0%R.
Proof. split; [intros K; nra|intros ->; lra]. Qed.
Lemma times_epmi i j : i < m_nr m1 -> j < m_nc m1 -> epmi_entry m2 i j = epmi_entry m1 i j.
Proof.
  intros Hi Hj. unfold epmi_entry. rewrite (times_row_sum i Hi), (times_col_sum j Hj), times_total, (ti_ent _ _ _ H) by assumption.
  destruct (Req_EM_T (c * row_sum m1 i) 0) as [A|A], (Req_EM_T (row_sum m1 i) 0) as [B|B]; try (exfalso; rewrite times_zero in A; contradiction); [reflexivity|].
  destruct (Req_EM_T (c * col_sum m1 j) 0) as [A'|A'], (Req_EM_T (col_sum m1 j) 0) as [B'|B']; try (exfalso; rewrite times_zero in A'; contradiction); [reflexivity|].
  field. repeat split; try assumption; lra.
Qed.
End Times.

(** outcome of a scaling on proportional matrices: the factor of the results *)
Definition factor_after (s : scaling) (c : R) : R := match s with Plmi => c | _ => 1%R end.
Definition homogeneous (s : scaling) : Prop := s <> Plog.
Theorem C73_scaling : forall s c m1 m2, times c m1 m2 -> (0 < c)%R -> homogeneous s ->
  match scaling_apply s m1 None, scaling_apply s m2 None with
  | Ok z1, Ok z2 => times (factor_after s c) z1 z2 \/ (times c z1 z2 /\ exists k, s = Norm k /\ size k m1 = 0%R)
  | Err e, Err e' => e = e'
  | _, _ => False end.
Proof.
  intros s c m1 m2 H Hc Hs. pose proof (ti_wf1 _ _ _ H) as W1. pose proof (ti_wf2 _ _ _ H) as W2.
  assert (Hneg : In s [Epmi; Ppmi; Plmi] -> (non_negative m1 /\ non_negative m2) \/ (scaling_apply s m1 None = Err ValueError /\ scaling_apply s m2 None = Err ValueError)).
  { intros Hin. destruct (assert_positive_iff m1 W1) as (I1 & [D1|D1]).
    - left. assert (N1 : non_negative m1) by (exact (proj1 I1 D1)). split; [exact N1|]. apply (times_nonneg c m1 m2 H Hc), N1.
    - right. assert (D2 : m_assert_positive m2 = Err ValueError).
      { destruct (assert_positive_iff m2 W2) as (I2 & [D2|D2]); [|exact D2]. exfalso. assert (N1 : non_negative m1) by (apply (times_nonneg c m1 m2 H Hc); exact (proj1 I2 D2)). apply I1 in N1. congruence. }
      assert (e1 : epmi_apply m1 None = Err ValueError) by (unfold epmi_apply; rewrite D1; reflexivity).
      assert (e2 : epmi_apply m2 None = Err ValueError) by (unfold epmi_apply; rewrite D2; reflexivity).
      destruct Hin as [<-|[<-|[<-|[]]]]; cbn [scaling_apply]; unfold plmi_apply, ppmi_apply; rewrite e1, e2; auto. }
  assert (T : forall z1 z2 f1 f2 d, result_of m1 z1 f1 -> result_of m2 z2 f2 -> (forall i j, i < m_nr m1 -> j < m_nc m1 -> f2 i j = (d * f1 i j)%R) -> times d z1 z2).
  { intros z1 z2 f1 f2 d (A1&_&A2&A3&A4) (B1&_&B2&B3&B4) K. rewrite (ti_nr _ _ _ H) in B2, B4. rewrite (ti_nc _ _ _ H) in B3, B4.
    split; try assumption; try congruence. rewrite A2, A3. intros i j Hi Hj. rewrite A4, B4 by assumption. apply K; assumption. }
  destruct s as [| | | |k|k].
  - destruct (Hneg ltac:(left; reflexivity)) as [(N1 & N2)|(-> & ->)]; [|reflexivity].
    destruct (C15_epmi m1 W1 N1) as (z1 & -> & R1). destruct (C15_epmi m2 W2 N2) as (z2 & -> & R2). left. apply (T _ _ _ _ _ R1 R2).
    intros i j Hi Hj. cbn [factor_after]. rewrite (times_epmi c m1 m2 H Hc i j Hi Hj). lra.
  - destruct (Hneg ltac:(right; left; reflexivity)) as [(N1 & N2)|(-> & ->)]; [|reflexivity].
    destruct (C16_ppmi m1 W1 N1) as (z1 & -> & R1 & _). destruct (C16_ppmi m2 W2 N2) as (z2 & -> & R2 & _). left. apply (T _ _ _ _ _ R1 R2).
    intros i j Hi Hj. cbn [factor_after]. unfold ppmi_entry. rewrite (times_epmi c m1 m2 H Hc i j Hi Hj). lra.
  - destruct (Hneg ltac:(right; right; left; reflexivity)) as [(N1 & N2)|(-> & ->)]; [|reflexivity].
    destruct (C16_plmi m1 W1 N1) as (z1 & -> & R1 & _). destruct (C16_plmi m2 W2 N2) as (z2 & -> & R2 & _). left. apply (T _ _ _ _ _ R1 R2).
    intros i j Hi Hj. cbn [factor_after]. unfold ppmi_entry. rewrite (times_epmi c m1 m2 H Hc i j Hi Hj), (ti_ent _ _ _ H) by assumption. ring.
  - contradiction Hs. reflexivity.
  - destruct (C18_row_normalization k m1 W1) as (z1 & -> & R1 & _). destruct (C18_row_normalization k m2 W2) as (z2 & -> & R2 & _). left. apply (T _ _ _ _ _ R1 R2).
    intros i j Hi Hj. cbn [factor_after]. rewrite (times_row_size c m1 m2 H Hc k i Hi), (ti_ent _ _ _ H) by assumption.
    destruct (Req_EM_T (c * row_size k m1 i) 0) as [A|A], (Req_EM_T (row_size k m1 i) 0) as [B|B]; try (exfalso; rewrite (times_zero c Hc) in A; contradiction); [lra|].
    field. split; [assumption|lra].
  - destruct (C19_normalization k m1 W1) as (z1 & -> & P1 & Q1). destruct (C19_normalization k m2 W2) as (z2 & -> & P2 & Q2).
    pose proof (times_size c m1 m2 H Hc k) as Es. destruct (Req_EM_T (size k m1) 0) as [E0|E0].
    + right. rewrite Q1 by exact E0. rewrite Q2 by (rewrite Es, E0; lra). split; [exact H|]. exists k. auto.
    + left. assert (E2 : size k m2 <> 0%R) by (rewrite Es; intros K; exact (E0 (proj1 (times_zero c Hc _) K))).
      apply (T _ _ _ _ _ (proj1 (P1 E0)) (proj1 (P2 E2))).
      intros i j Hi Hj. cbn [factor_after]. rewrite Es, (ti_ent _ _ _ H) by assumption. field. split; [assumption|lra].
Qed.

(** ** feature selection: the same columns are kept *)
Lemma best_columns_unique n k sc1 sc2 l1 l2 c : (0 < c)%R -> (forall j, j < n -> sc2 j = (c * sc1 j)%R) ->
  best_columns n k sc1 l1 -> best_columns n k sc2 l2 -> l2 = l1.
Proof.
  intros Hc Hs B1 B2. set (lt := fun u v => (sc1 v < sc1 u)%R \/ (sc1 u = sc1 v /\ u < v)).
  assert (Irr : forall u, ~ lt u u) by (unfold lt; intros u [K|(_&K)]; [lra|lia]).
  assert (Neg : forall u v z, lt u v -> lt u z \/ lt z v).
  { unfold lt. intros u v z Hl. destruct (Rtotal_order (sc1 u) (sc1 z)) as [K|[K|K]]; [|destruct (le_lt_dec z u)|left; left; lra].
    - right. left. destruct Hl as [Hl|(Hl&_)]; lra.
    - right. destruct Hl as [Hl|(Hl&Hp)]; [left; lra|right; split; [lra|lia]].
    - left. right. auto. }
  assert (R1 : forall i u, nth_error l1 i = Some u -> u < n) by (intros i u Hu; apply B1; apply nth_error_In in Hu; exact Hu).
  assert (R2 : forall i u, nth_error l2 i = Some u -> u < n) by (intros i u Hu; apply B2; apply nth_error_In in Hu; exact Hu).
  assert (O1 : forall i j u v, i < j -> nth_error l1 i = Some u -> nth_error l1 j = Some v -> ~ lt v u).
  { intros i j u v Hij Hu Hv. pose proof (nth_error_lt _ _ _ Hv) as Lv. destruct (bc_order _ _ _ _ B1 i j ltac:(lia)) as (K1 & K2).
    rewrite (nth_error_nth _ _ 0 Hu), (nth_error_nth _ _ 0 Hv) in K1, K2. unfold lt. intros [K|(K&K')]; [lra|]. specialize (K2 (eq_sym K)). lia. }
  assert (O2 : forall i j u v, i < j -> nth_error l2 i = Some u -> nth_error l2 j = Some v -> ~ lt v u).
  { intros i j u v Hij Hu Hv. pose proof (nth_error_lt _ _ _ Hv) as Lv. destruct (bc_order _ _ _ _ B2 i j ltac:(lia)) as (K1 & K2).
    rewrite (nth_error_nth _ _ 0 Hu), (nth_error_nth _ _ 0 Hv), (Hs u (R2 _ _ Hu)), (Hs v (R2 _ _ Hv)) in K1, K2. unfold lt. intros [K|(K&K')]; [nra|]. rewrite K in K2. specialize (K2 eq_refl). lia. }
  assert (D1 : forall u v, In u l2 -> ~ In u l1 -> In v l1 -> ~ lt u v).
  { intros u v Hu Hn Hv. destruct (bc_dropped _ _ _ _ B1 u v (bc_range _ _ _ _ B2 u Hu) Hn Hv) as (K1 & K2). unfold lt. intros [K|(K&K')]; [lra|]. specialize (K2 K). lia. }
  assert (D2 : forall u v, In u l1 -> ~ In u l2 -> In v l2 -> ~ lt u v).
  { intros u v Hu Hn Hv. pose proof (bc_range _ _ _ _ B1 u Hu) as Ru. pose proof (bc_range _ _ _ _ B2 v Hv) as Rv. destruct (bc_dropped _ _ _ _ B2 u v Ru Hn Hv) as (K1 & K2).
    rewrite (Hs u Ru), (Hs v Rv) in K1, K2. unfold lt. intros [K|(K&K')]; [nra|]. rewrite K in K2. specialize (K2 eq_refl). lia. }
  apply nth_error_ext; [rewrite (bc_length _ _ _ _ B1), (bc_length _ _ _ _ B2); reflexivity|].
  intros a x y Ha Hb.
  assert (U1 : ~ lt x y) by (apply (ranking_unique Nat.eq_dec lt l1 l2 a x y Irr Neg (bc_distinct _ _ _ _ B1) O1 O2 D2 Ha Hb)).
  assert (U2 : ~ lt y x) by (apply (ranking_unique Nat.eq_dec lt l2 l1 a y x Irr Neg (bc_distinct _ _ _ _ B2) O2 O1 D1 Hb Ha)).
  unfold lt in U1, U2. destruct (Rtotal_order (sc1 x) (sc1 y)) as [K|[K|K]]; [exfalso; apply U2; left; lra| |exfalso; apply U1; left; lra].
  destruct (Nat.lt_trichotomy x y) as [Q|[Q|Q]]; [exfalso; apply U1; auto|congruence|exfalso; apply U2; auto].
Qed.
Theorem C73_selection : forall c crit k m1 m2, times c m1 m2 -> (0 < c)%R -> 0 < k ->
  exists z1 z2 sel, topfs_apply crit k m1 = Ok (z1, sel) /\ topfs_apply crit k m2 = Ok (z2, sel) /\ times c z1 z2.
Proof.
  intros c crit k m1 m2 H Hc Hk. pose proof (ti_wf1 _ _ _ H) as W1. pose proof (ti_wf2 _ _ _ H) as W2.
  destruct (C20_selection crit k m1 W1 Hk) as (z1 & l1 & E1 & B1 & X1 & _ & R1 & N1 & V1). destruct (C20_selection crit k m2 W2 Hk) as (z2 & l2 & E2 & B2 & X2 & _ & R2 & N2 & V2).
  rewrite (ti_nc _ _ _ H) in B2.
  assert (l2 = l1) as -> by (eapply (best_columns_unique _ _ _ _ _ _ c Hc); [|exact B1|exact B2]; intros j Hj; apply (times_col_score c m1 m2 H Hc crit j Hj)).
  exists z1, z2, l1. split; [exact E1|]. split; [exact E2|]. split; try assumption; [rewrite R1, R2; apply H|congruence|].
  rewrite R1, N1. intros i j Hi Hj. rewrite V1, V2 by (try rewrite (ti_nr _ _ _ H); assumption). apply H; [exact Hi|]. apply B1, nth_In, Hj.
Qed.

(** ** spaces *)
Section Spaces.
Context {E : @Ext RNum}.
(** the same words and columns, and every vector of [s2] is [c] times the vector of the same word in [s1] *)
Record proportional (c : R) (s1 s2 : space) : Prop := {
  pr_ok1 : consistent s1; pr_ok2 : consistent s2; pr_rows : s_id2row s2 = s_id2row s1; pr_cols : s_id2col s2 = s_id2col s1;
  pr_shape : s_eshape s2 = s_eshape s1; pr_mat : times c (s_mat s1) (s_mat s2) }.

Lemma apply_scale s sc a : consistent s -> scaling_apply sc (s_mat s) None = Ok a ->
  exists s', space_apply s (TScale sc) = Ok s' /\ consistent s' /\ s_mat s' = a /\ s_id2row s' = s_id2row s /\ s_id2col s' = s_id2col s /\ s_eshape s' = [m_nc a].
Proof.
  intros C Ea. pose proof C as (W&L&Q&Ir&D&J&Fd&_). pose proof (scaling_has _ _ _ _ _ _ _ (has_self _ W) Ea) as (Wa&_&Ra&Ca).
  assert (X : exists s', space_apply s (TScale sc) = Ok s').
  { unfold space_apply. cbn [create_operation op_apply]. rewrite Ea. cbn [bind]. apply mk_space_total; try assumption; try (apply Ir); try (apply J); try exact I; [congruence|rewrite Ca; exact Q|auto|auto]. }
  destruct X as (s' & X). exists s'. split; [exact X|]. destruct (space_apply_ok s (TScale sc) s' C I X) as (m&o&o0&ic&ci&Ho&E1&_&(-> & _)&_&_&C').
  cbn [create_operation op_apply] in Ho. rewrite Ea in Ho. cbn [bind] in Ho. assert (a = m) as <- by congruence. subst s'. cbn. auto.
Qed.
Lemma apply_scale_err s sc e : scaling_apply sc (s_mat s) None = Err e -> space_apply s (TScale sc) = Err e.
Proof. intros Ea. unfold space_apply. cbn [create_operation op_apply]. rewrite Ea. reflexivity. Qed.
(** the outcome of a feature selection, apart from the matrix, depends only on the selected columns *)
Definition fs_labels (s : space) (sel : list nat) : res (list string) :=
  let* _ := assert_1dim_element s in
  if match s_id2col s with [] => true | _ => false end then Ok [] else let* l := select_labels (s_id2col s) sel in let* _ := list2dict l in Ok l.
Lemma apply_fs s c k a sel : consistent s -> 0 < k -> topfs_apply c k (s_mat s) = Ok (a, sel) ->
  match fs_labels s sel with
  | Ok l => exists s', space_apply s (TFS c k) = Ok s' /\ consistent s' /\ s_mat s' = a /\ s_id2row s' = s_id2row s /\ s_id2col s' = l /\ s_eshape s' = [m_nc a]
  | Err e => space_apply s (TFS c k) = Err e end.
Proof.
  intros C Hk Ea. pose proof C as (W&L&Q&Ir&D&J&Fd&_). destruct (C20_selection c k (s_mat s) W Hk) as (a' & l' & Ea' & _ & Wa & _ & Ra & Ca & _).
  assert (a' = a) by congruence. assert (l' = sel) by congruence. subst a' l'.
  assert (G : forall s', space_apply s (TFS c k) = Ok s' -> consistent s' /\ s_eshape s' = [m_nc (s_mat s')] /\ s_id2row s' = s_id2row s).
  { intros s' X. destruct (space_apply_ok s (TFS c k) s' C Hk X) as (m&o&o0&ic&ci&Ho&E1&_&_&_&_&C'). split; [exact C'|]. rewrite E1. auto. }
  unfold fs_labels. destruct (assert_1dim_element s) as [[]|e] eqn:A1; cbn [bind].
  2: { unfold space_apply. cbn [create_operation op_apply]. rewrite Ea. cbn [bind]. rewrite A1. reflexivity. }
  destruct (s_id2col s) as [|c0 cs] eqn:Ec.
  - assert (X : exists s', space_apply s (TFS c k) = Ok s' /\ s_mat s' = a /\ s_id2col s' = []).
    { assert (X : exists s', space_apply s (TFS c k) = Ok s').
      { unfold space_apply. cbn [create_operation op_apply]. rewrite Ea. cbn [bind]. rewrite A1, Ec. cbn [bind]. apply mk_space_total; [apply Ir|constructor|congruence|auto|auto|split; [constructor|apply mutually_inverse_nil]|exact I]. }
      destruct X as (s' & X). exists s'. split; [exact X|]. unfold space_apply in X. cbn [create_operation op_apply] in X. rewrite Ea in X. cbn [bind] in X. rewrite A1, Ec in X. cbn [bind] in X. apply mk_space_fields in X. tauto. }
    destruct X as (s' & X & M & Co). exists s'. destruct (G s' X) as (G1 & G2 & G3). rewrite M in G2. auto 10.
  - rewrite <- Ec. destruct (select_labels (s_id2col s) sel) as [ic|e] eqn:Es; cbn [bind].
    2: { unfold space_apply. cbn [create_operation op_apply]. rewrite Ea. cbn [bind]. rewrite A1, Ec. cbn [bind]. rewrite <- Ec, Es. reflexivity. }
    destruct (list2dict ic) as [dc|e] eqn:Ed; cbn [bind].
    2: { unfold space_apply. cbn [create_operation op_apply]. rewrite Ea. cbn [bind]. rewrite A1, Ec. cbn [bind]. rewrite <- Ec, Es. cbn [bind]. rewrite Ed. reflexivity. }
    destruct (list2dict_inverse _ _ Ed) as (Id & Wd & _). destruct (select_labels_ok _ _ _ Es) as (Ls & _).
    assert (X : exists s', space_apply s (TFS c k) = Ok s' /\ s_mat s' = a /\ s_id2col s' = ic).
    { assert (X : exists s', space_apply s (TFS c k) = Ok s').
      { unfold space_apply. cbn [create_operation op_apply]. rewrite Ea. cbn [bind]. rewrite A1, Ec. cbn [bind]. rewrite <- Ec, Es. cbn [bind]. rewrite Ed. cbn [bind]. apply mk_space_total; [apply Ir|apply Id|congruence|right; congruence|auto|auto|exact I]. }
      destruct X as (s' & X). exists s'. split; [exact X|]. unfold space_apply in X. cbn [create_operation op_apply] in X. rewrite Ea in X. cbn [bind] in X. rewrite A1, Ec in X. cbn [bind] in X. rewrite <- Ec, Es in X. cbn [bind] in X. rewrite Ed in X. cbn [bind] in X. apply mk_space_fields in X. tauto. }
    destruct X as (s' & X & M & Co). exists s'. destruct (G s' X) as (G1 & G2 & G3). rewrite M in G2. auto 10.
Qed.

(** scalings other than the pointwise logarithm, and feature selection *)
Definition scale_free (t : transformation) : Prop := match t with TScale Plog => False | TDim _ _ => False | _ => True end.
(** the same exception, or results whose vectors differ by one positive factor *)
Definition proportional_outcome (x y : res space) : Prop :=
  match x, y with Ok a, Ok b => exists d, (0 < d)%R /\ proportional d a b | Err e, Err e' => e = e' | _, _ => False end.

Theorem C73_apply : forall c s1 s2 t, (0 < c)%R -> proportional c s1 s2 -> tr_ok t -> scale_free t ->
  proportional_outcome (space_apply s1 t) (space_apply s2 t).
Proof.
  intros c s1 s2 t Hc H Ht Hf. pose proof (pr_ok1 _ _ _ H) as C1. pose proof (pr_ok2 _ _ _ H) as C2. pose proof (pr_mat _ _ _ H) as M.
  destruct t as [sc|d k|cr k]; [|contradiction|].
  - assert (Hh : homogeneous sc) by (intros ->; exact Hf). pose proof (C73_scaling sc c _ _ M Hc Hh) as S.
    destruct (scaling_apply sc (s_mat s1) None) as [a|e] eqn:Ea, (scaling_apply sc (s_mat s2) None) as [b|e'] eqn:Eb; try contradiction.
    + destruct (apply_scale s1 sc a C1 Ea) as (s1' & -> & D1 & M1 & R1 & L1 & Q1). destruct (apply_scale s2 sc b C2 Eb) as (s2' & -> & D2 & M2 & R2 & L2 & Q2). cbn [proportional_outcome].
      assert (T : exists d, (0 < d)%R /\ times d a b).
      { destruct S as [S|(S & _)]; [exists (factor_after sc c)|exists c]; (split; [|exact S]); [|exact Hc]. destruct sc; cbn [factor_after]; lra. }
      destruct T as (d & Hd & T). exists d. split; [exact Hd|]. split; try assumption; rewrite ?R1, ?R2, ?L1, ?L2, ?Q1, ?Q2, ?M1, ?M2; try apply H; [|exact T]. f_equal. apply T.
    + rewrite (apply_scale_err _ _ _ Ea), (apply_scale_err _ _ _ Eb). exact S.
  - cbn in Ht. destruct (C73_selection c cr k _ _ M Hc Ht) as (a & b & sel & Ea & Eb & T).
    pose proof (apply_fs s1 cr k a sel C1 Ht Ea) as X1. pose proof (apply_fs s2 cr k b sel C2 Ht Eb) as X2.
    assert (A : fs_labels s2 sel = fs_labels s1 sel) by (unfold fs_labels, assert_1dim_element; rewrite (pr_shape _ _ _ H), (pr_cols _ _ _ H); reflexivity).
    rewrite A in X2. destruct (fs_labels s1 sel) as [l|e]; [|rewrite X1, X2; reflexivity].
    destruct X1 as (s1' & -> & D1 & M1 & R1 & L1 & Q1), X2 as (s2' & -> & D2 & M2 & R2 & L2 & Q2). exists c. split; [exact Hc|].
    split; try assumption; rewrite ?R1, ?R2, ?L1, ?L2, ?Q1, ?Q2, ?M1, ?M2; try apply H; try reflexivity; [|exact T]. f_equal. apply T.
Qed.
Theorem C73_apply_all : forall ts c s1 s2, (0 < c)%R -> proportional c s1 s2 -> Forall tr_ok ts -> Forall scale_free ts ->
  proportional_outcome (apply_all s1 ts) (apply_all s2 ts).
Proof.
  induction ts as [|t ts IH]; intros c s1 s2 Hc H Ht Hf; cbn [apply_all]; [exists c; auto|].
  inversion Ht; subst. inversion Hf; subst. pose proof (C73_apply c s1 s2 t Hc H ltac:(assumption) ltac:(assumption)) as K.
  destruct (space_apply s1 t), (space_apply s2 t); cbn [proportional_outcome bind] in *; try contradiction; [|exact K].
  destruct K as (d & Hd & K). apply (IH d); assumption.
Qed.
(** after one of the association scores or a row normalization the vectors are the same, not just proportional *)
Theorem C73_exact : forall c s1 s2 sc z1 z2, (0 < c)%R -> proportional c s1 s2 -> sc = Epmi \/ sc = Ppmi \/ (exists k, sc = RowNorm k) ->
  space_apply s1 (TScale sc) = Ok z1 -> space_apply s2 (TScale sc) = Ok z2 -> proportional 1 z1 z2.
Proof.
  intros c s1 s2 sc z1 z2 Hc H Hs E1 E2. pose proof (pr_ok1 _ _ _ H) as C1. pose proof (pr_ok2 _ _ _ H) as C2. pose proof (pr_mat _ _ _ H) as M.
  assert (Hh : homogeneous sc) by (intros ->; destruct Hs as [K|[K|(k & K)]]; discriminate).
  pose proof (C73_scaling sc c _ _ M Hc Hh) as S.
  destruct (scaling_apply sc (s_mat s1) None) as [a|e] eqn:Ea; [|rewrite (apply_scale_err _ _ _ Ea) in E1; discriminate].
  destruct (scaling_apply sc (s_mat s2) None) as [b|e'] eqn:Eb; [|contradiction].
  destruct (apply_scale s1 sc a C1 Ea) as (s1' & X1 & D1 & M1 & R1 & L1 & Q1). destruct (apply_scale s2 sc b C2 Eb) as (s2' & X2 & D2 & M2 & R2 & L2 & Q2).
  assert (s1' = z1) by congruence. assert (s2' = z2) by congruence. subst s1' s2'.
  assert (T : times 1 a b).
  { destruct S as [S|(S & k & -> & _)]; [|exfalso; destruct Hs as [K|[K|(k' & K)]]; discriminate]. destruct Hs as [->|[->|(k & ->)]]; exact S. }
  split; try assumption; rewrite ?R1, ?R2, ?L1, ?L2, ?Q1, ?Q2, ?M1, ?M2; try apply H; [|exact T]. f_equal. apply T.
Qed.

(** ** cosine similarities and cosine neighbours do not change *)
Lemma cosine_scal n a b u v u' v' : (0 < a)%R -> (0 < b)%R -> (forall j, j < n -> u' j = (a * u j)%R) -> (forall j, j < n -> v' j = (b * v j)%R) ->
  cosine n u' v' = cosine n u v.
Proof.
  intros Ha Hb Hu Hv. unfold cosine.
  rewrite (norm_ext n u' (fun j => (a * u j)%R) Hu), (norm_ext n v' (fun j => (b * v j)%R) Hv), !norm_scal, !Rabs_pos_eq by lra.
  rewrite (dot_ext n u' (fun j => (a * u j)%R) v' (fun j => (b * v j)%R) Hu Hv), dot_scal_l.
  assert (Ed : dot n u (fun j => (b * v j)%R) = (b * dot n u v)%R) by (unfold dot; rewrite <- rsum_scal_l; apply rsum_ext; intros; ring). rewrite Ed.
  destruct (Req_EM_T (a * norm n u) 0) as [A|A], (Req_EM_T (norm n u) 0) as [B|B]; try (exfalso; rewrite (times_zero a Ha) in A; contradiction); [reflexivity|].
  destruct (Req_EM_T (b * norm n v) 0) as [A'|A'], (Req_EM_T (norm n v) 0) as [B'|B']; try (exfalso; rewrite (times_zero b Hb) in A'; contradiction); [reflexivity|].
  field. repeat split; try assumption; lra.
Qed.
(** the searched spaces (space2) are both absent, or proportional *)
Definition proportional_opt (d : R) (o1 o2 : option space) : Prop :=
  match o1, o2 with None, None => True | Some a, Some b => proportional d a b | _, _ => False end.
Lemma prop_searched c d s1 s2 o1 o2 : (0 < c)%R -> (0 < d)%R -> proportional c s1 s2 -> proportional_opt d o1 o2 ->
  exists e, (0 < e)%R /\ proportional e (searched s1 o1) (searched s2 o2).
Proof. intros Hc Hd H K. destruct o1, o2; cbn in *; try contradiction; eauto. Qed.
Theorem C73_get_sim : forall c d s1 s2 o1 o2 w1 w2, (0 < c)%R -> (0 < d)%R -> proportional c s1 s2 -> proportional_opt d o1 o2 ->
  get_sim s2 w1 w2 Cos o2 = get_sim s1 w1 w2 Cos o1.
Proof.
  intros c d s1 s2 o1 o2 w1 w2 Hc Hd H K. destruct (prop_searched c d s1 s2 o1 o2 Hc Hd H K) as (e & He & KS).
  pose proof (pr_ok1 _ _ _ H) as C1. pose proof (pr_ok2 _ _ _ H) as C2. pose proof (pr_ok1 _ _ _ KS) as D1. pose proof (pr_ok2 _ _ _ KS) as D2.
  pose proof (ti_nc _ _ _ (pr_mat _ _ _ H)) as N1. pose proof (ti_nc _ _ _ (pr_mat _ _ _ KS)) as N2.
  destruct (in_dec string_dec w1 (s_id2row s1)) as [I1|I1].
  2: { rewrite !C10_get_sim_missing; auto. left. rewrite (pr_rows _ _ _ H). exact I1. }
  destruct (in_dec string_dec w2 (s_id2row (searched s1 o1))) as [I2|I2].
  2: { rewrite !C10_get_sim_missing; auto. right. rewrite (pr_rows _ _ _ KS). exact I2. }
  destruct (Nat.eq_dec (m_nc (s_mat s1)) (m_nc (s_mat (searched s1 o1)))) as [En|En].
  2: { rewrite !C10_get_sim_mismatch; auto; [rewrite (pr_rows _ _ _ H); exact I1|rewrite (pr_rows _ _ _ KS); exact I2|congruence]. }
  apply In_nth_error in I1, I2. destruct I1 as (p & Hp), I2 as (q & Hq).
  rewrite (get_sim_rows s1 o1 w1 w2 p q (m_nc (s_mat s1)) Cos C1 D1 Hp Hq eq_refl (eq_sym En)).
  rewrite (get_sim_rows s2 o2 w1 w2 p q (m_nc (s_mat s1)) Cos C2 D2); [|rewrite (pr_rows _ _ _ H); exact Hp|rewrite (pr_rows _ _ _ KS); exact Hq|exact N1|congruence].
  f_equal. cbn [sim_spec]. pose proof C1 as (_&L1&_). pose proof D1 as (_&L2&_). pose proof (nth_error_lt _ _ _ Hp). pose proof (nth_error_lt _ _ _ Hq).
  apply (cosine_scal _ c e _ _ _ _ Hc He); intros j Hj; [apply (pr_mat _ _ _ H)|apply (pr_mat _ _ _ KS)]; lia.
Qed.
Theorem C73_neighbours : forall c d s1 s2 o1 o2 w k, (0 < c)%R -> (0 < d)%R -> proportional c s1 s2 -> proportional_opt d o1 o2 ->
  In w (s_id2row s1) -> m_nc (s_mat s1) = m_nc (s_mat (searched s1 o1)) ->
  exists l, get_neighbours s1 w k Cos o1 = Ok l /\ get_neighbours s2 w k Cos o2 = Ok l.
Proof.
  intros c d s1 s2 o1 o2 w k Hc Hd H K Hw Hn. destruct (prop_searched c d s1 s2 o1 o2 Hc Hd H K) as (e & He & KS).
  pose proof (pr_ok1 _ _ _ H) as C1. pose proof (pr_ok2 _ _ _ H) as C2. pose proof (pr_ok1 _ _ _ KS) as D1. pose proof (pr_ok2 _ _ _ KS) as D2.
  destruct (C09_neighbours s1 w k Cos o1 C1 D1 Hw Hn) as (l1 & sc1 & E1 & T1 & G1).
  destruct (C09_neighbours s2 w k Cos o2 C2 D2) as (l2 & sc2 & E2 & T2 & G2); [rewrite (pr_rows _ _ _ H); exact Hw|rewrite (ti_nc _ _ _ (pr_mat _ _ _ H)), (ti_nc _ _ _ (pr_mat _ _ _ KS)); exact Hn|].
  exists l1. split; [exact E1|]. rewrite E2. f_equal.
  pose proof D1 as (_&_&_&(N1&_)&_).
  pose proof (pr_rows _ _ _ KS) as Er. rewrite Er in T2, G2.
  assert (S : forall x p q, nth_error (s_id2row (searched s1 o1)) p = Some x -> nth_error (s_id2row (searched s1 o1)) q = Some x -> sc1 p = sc2 q).
  { intros x p q Hp Hq. pose proof (G1 _ _ Hp) as Q1. pose proof (G2 _ _ Hq) as Q2. rewrite (C73_get_sim c d s1 s2 o1 o2 w x Hc Hd H K) in Q2. congruence. }
  apply nth_error_ext; [exact (eq_trans (tk_length _ _ _ _ T2) (eq_sym (tk_length _ _ _ _ T1)))|].
  intros a [x u] [y v] Ha Hb. rewrite (rank_le _ _ _ _ _ _ _ _ T1 T2 N1 (fun w => iff_refl _) S a x u y v Ha Hb). f_equal. symmetry.
  exact (rank_same _ _ _ _ _ _ _ _ T1 T2 N1 (fun w => iff_refl _) S eq_refl a x u y v Ha Hb).
Qed.
(** a whole run: build, transform, compare *)
Theorem C73_pipeline : forall ts c s1 s2 z1, (0 < c)%R -> proportional c s1 s2 -> Forall tr_ok ts -> Forall scale_free ts -> apply_all s1 ts = Ok z1 ->
  exists z2, apply_all s2 ts = Ok z2 /\
    (forall w1 w2, get_sim z2 w1 w2 Cos None = get_sim z1 w1 w2 Cos None) /\
    (forall w k, In w (s_id2row z1) -> get_neighbours z2 w k Cos None = get_neighbours z1 w k Cos None).
Proof.
  intros ts c s1 s2 z1 Hc H Ht Hf E1. pose proof (C73_apply_all ts c s1 s2 Hc H Ht Hf) as K. rewrite E1 in K.
  destruct (apply_all s2 ts) as [z2|e]; [|contradiction]. destruct K as (d & Hd & K). exists z2. split; [reflexivity|]. split.
  - intros w1 w2. apply (C73_get_sim d d z1 z2 None None w1 w2 Hd Hd K I).
  - intros w k Hw. destruct (C73_neighbours d d z1 z2 None None w k Hd Hd K I Hw eq_refl) as (l & -> & ->). reflexivity.
Qed.

(** ** a concrete pair: the counts of sp22 doubled *)
Definition m_double : @matrix RNum := MD (@DM RNum 2 2 [[2; 0]; [0; 2]])%R.
Lemma m_double_wf : mwf m_double.  Proof. repeat split; cbn; try lia; repeat constructor. Qed.
Definition sp_double : space := SP m_double ["car"; "dog"]%string ["x"; "y"]%string [("car", 0%Z); ("dog", 1%Z)]%string [("x", 0%Z); ("y", 1%Z)]%string [] [2].
Example C73_example : proportional 2 sp22 sp_double /\ Forall tr_ok [TScale Ppmi; TFS CSum 1; TScale (RowNorm CLength)] /\
  Forall scale_free [TScale Ppmi; TFS CSum 1; TScale (RowNorm CLength)].
Proof.
  assert (C2 : consistent sp_double).
  { eapply (mk_space_consistent m_double ["car"; "dog"]%string ["x"; "y"]%string None None [] None); [apply m_double_wf|constructor|exact I|exact I|reflexivity]. }
  split; [|split; repeat constructor].
  split; try assumption; try reflexivity; [apply sp22_consistent|]. split; [apply m22_wf|apply m_double_wf|reflexivity|reflexivity|].
  intros i j Hi Hj. assert (Hi' : i < 2) by exact Hi. assert (Hj' : j < 2) by exact Hj. destruct i as [|[|i]]; [| |lia]; (destruct j as [|[|j]]; [| |lia]); cbn; lra.
Qed.
(** the exclusion of the pointwise logarithm is necessary: it changes cosines when the counts are doubled *)
Theorem C73_plog_excluded : ~ (forall c s1 s2 z1 z2 w1 w2, (0 < c)%R -> proportional c s1 s2 ->
  space_apply s1 (TScale Plog) = Ok z1 -> space_apply s2 (TScale Plog) = Ok z2 -> get_sim z2 w1 w2 Cos None = get_sim z1 w1 w2 Cos None).
Proof.
  intros A. destruct C73_example as (P & _). pose proof (pr_ok1 _ _ _ P) as C1. pose proof (pr_ok2 _ _ _ P) as C2.
  destruct (C17_plog _ m22_wf) as (a & Ea & (_&_&Ra&Na&Va) & _). destruct (C17_plog _ m_double_wf) as (b & Eb & (_&_&Rb&Nb&Vb) & _).
  destruct (apply_scale sp22 Plog a C1 Ea) as (z1 & X1 & D1 & M1 & R1 & _). destruct (apply_scale sp_double Plog b C2 Eb) as (z2 & X2 & D2 & M2 & R2 & _).
  specialize (A 2%R _ _ z1 z2 "car"%string "car"%string ltac:(lra) P X1 X2).
  rewrite (get_sim_rows z1 None _ _ 0 0 2 Cos D1 D1) in A by (cbn [searched]; rewrite ?R1, ?M1; try exact Na; reflexivity).
  rewrite (get_sim_rows z2 None _ _ 0 0 2 Cos D2 D2) in A by (cbn [searched]; rewrite ?R2, ?M2; try exact Nb; reflexivity).
  cbn [searched] in A. rewrite M1, M2 in A. injection A as A. cbn [sim_spec] in A.
  assert (La : forall j, j < 2 -> ment a 0 j = 0%R).
  { intros j Hj. rewrite Va by (cbn; lia). destruct j as [|[|j]]; [| |lia]; cbn; destruct (Rle_dec _ _); try reflexivity; [apply ln_1|exfalso; lra]. }
  assert (Lb : forall j, j < 2 -> ment b 0 j = (ln 2 * (if j =? 0 then 1 else 0))%R).
  { intros j Hj. rewrite Vb by (cbn; lia). destruct j as [|[|j]]; [| |lia]; cbn; destruct (Rle_dec _ _); try lra. }
  assert (L2 : (0 < ln 2)%R) by (rewrite <- ln_1; apply ln_increasing; lra).
  rewrite (cosine_scal 2 (ln 2) (ln 2) (fun j => if j =? 0 then 1%R else 0%R) (fun j => if j =? 0 then 1%R else 0%R) _ _ L2 L2 Lb Lb) in A.
  unfold cosine in A. rewrite (norm_ext 2 (ment a 0) (fun _ => 0%R) La) in A.
  assert (N0 : norm 2 (fun _ => 0%R) = 0%R) by (apply norm_zero; reflexivity). rewrite N0 in A.
  assert (N1 : norm 2 (fun j => if j =? 0 then 1%R else 0%R) = 1%R).
  { unfold norm, dot. cbn. replace (0 + 1 * 1 + 0 * 0)%R with (1 * 1)%R by ring. apply sqrt_square. lra. }
  rewrite N1 in A. destruct (Req_EM_T 1 0); [lra|]. destruct (Req_EM_T 0 0); [|contradiction].
  unfold dot in A. cbn in A. lra.
Qed.
End Spaces.
