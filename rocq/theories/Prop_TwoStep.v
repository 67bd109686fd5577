(** Prop_TwoStep.v -- C93: selecting the best columns in two steps gives what selecting them in one step gives. *)
From Coq Require Import Reals Lra Permutation Sorted.
From Verif Require Import Base PyList Dict Num SpecReal Dense Sparse Matrix PSparse PMatrix PMatOps PShape PVals PReal PPos PSort Scaling Linalg Operation
  Similarity Space Peripheral SpecSpace PDictList PSpace Prop_Space Prop_Scaling Prop_Sim Prop_Neigh PMoved Prop_Periph PCols Prop_Order Prop_Counts Prop_Rowwise.
#[local] Existing Instance RNum.
Open Scope R_scope.
Open Scope nat_scope.

(** ** selections *)
Lemma firstn_best_columns n k k' sc sel : k <= k' -> best_columns n k' sc sel -> best_columns n k sc (firstn k sel).
Proof.
  intros Hk B. pose proof (bc_length _ _ _ _ B) as L.
  assert (Lf : length (firstn k sel) = Nat.min k n) by (rewrite firstn_length, L; lia).
  assert (Nf : forall a, a < length (firstn k sel) -> nth a (firstn k sel) 0 = nth a sel 0).
  { intros a Ha. rewrite <- (firstn_skipn k sel) at 2. rewrite app_nth1 by exact Ha. reflexivity. }
  assert (If : forall j, In j (firstn k sel) -> In j sel) by (intros j Hj; rewrite <- (firstn_skipn k sel); apply in_app_iff; auto).
  constructor.
  - exact Lf.
  - pose proof (bc_distinct _ _ _ _ B) as D. rewrite <- (firstn_skipn k sel) in D. exact (NoDup_app_l _ _ D).
  - intros j Hj. apply (bc_range _ _ _ _ B), If, Hj.
  - intros a b Hab. rewrite !Nf by lia. apply (bc_order _ _ _ _ B). rewrite firstn_length in Hab. lia.
  - intros q j Hq Hn Hj. destruct (in_dec Nat.eq_dec q sel) as [Hs|Hs]; [|apply (bc_dropped _ _ _ _ B); auto].
    apply (In_nth _ _ 0) in Hj. destruct Hj as (a & Ha & <-). rewrite Nf by exact Ha. apply (In_nth _ _ 0) in Hs. destruct Hs as (b & Hb & <-).
    assert (K : k <= b). { destruct (le_lt_dec k b) as [X|X]; [exact X|]. exfalso. apply Hn. rewrite <- (Nf b) by (rewrite firstn_length; lia). apply nth_In. rewrite firstn_length. lia. }
    destruct (bc_order _ _ _ _ B a b) as (O1 & O2); [rewrite firstn_length in Ha; lia|]. split; [exact O1|]. intros X. apply O2. symmetry. exact X.
Qed.
Lemma sorted_best n k k' sc sel : best_columns n k' sc sel -> best_columns (length sel) k (fun a => sc (nth a sel 0)) (seq 0 (Nat.min k (length sel))).
Proof.
  intros B. constructor.
  - apply seq_length.
  - apply seq_NoDup.
  - intros j Hj. apply in_seq in Hj. lia.
  - intros a b Hab. rewrite seq_length in Hab. rewrite !seq_nth by lia. cbn [Nat.add]. destruct (bc_order _ _ _ _ B a b) as (O1 & _); [lia|]. split; [exact O1|intros _; lia].
  - intros q j Hq Hn Hj. apply in_seq in Hj. assert (Nat.min k (length sel) <= q) by (destruct (le_lt_dec (Nat.min k (length sel)) q) as [X|X]; [exact X|]; exfalso; apply Hn, in_seq; lia).
    destruct (bc_order _ _ _ _ B j q) as (O1 & _); [lia|]. split; [exact O1|intros _; lia].
Qed.
Lemma best_unique n k sc sc' l l' : (forall j, j < n -> sc' j = sc j) -> best_columns n k sc l -> best_columns n k sc' l' -> l' = l.
Proof. intros H. apply (best_columns_unique n k sc sc' l l' 1); [lra|]. intros j Hj. rewrite H by exact Hj. lra. Qed.
Lemma select_two_steps c k k' m : mwf m -> 0 < k -> 0 < k' -> exists z1 sel1 z2 z3 sel3,
  topfs_apply c k' m = Ok (z1, sel1) /\ topfs_apply c k z1 = Ok (z2, seq 0 (Nat.min k (length sel1))) /\ topfs_apply c (Nat.min k k') m = Ok (z3, sel3) /\ sel3 = firstn k sel1 /\
  type_of z3 = type_of z2 /\ m_nr z3 = m_nr z2 /\ m_nc z3 = m_nc z2 /\ (forall i j, i < m_nr z2 -> j < m_nc z2 -> ment z3 i j = ment z2 i j) /\ Forall (fun j => j < m_nc m) sel1 /\ NoDup sel1 /\
  mwf z1 /\ m_nc z1 = length sel1 /\ m_nc z2 = Nat.min k (length sel1).
Proof.
  intros W Hk Hk'. destruct (C20_selection c k' m W Hk') as (z1 & sel1 & E1 & B1 & W1 & T1 & R1 & C1 & V1).
  destruct (C20_selection c k z1 W1 Hk) as (z2 & sel2 & E2 & B2 & W2 & T2 & R2 & C2 & V2).
  destruct (C20_selection c (Nat.min k k') m W) as (z3 & sel3 & E3 & B3 & W3 & T3 & R3 & C3 & V3); [lia|].
  assert (S2 : sel2 = seq 0 (Nat.min k (length sel1))).
  { rewrite C1 in B2. refine (best_unique _ _ _ _ _ _ _ (sorted_best _ _ _ _ _ B1) B2). intros a Ha. unfold col_score.
    destruct c; [unfold col_sum; rewrite R1; apply rsum_ext|unfold norm; f_equal; rewrite R1; apply dot_ext]; intros i Hi; apply V1; assumption. }
  assert (S3 : sel3 = firstn k sel1).
  { replace (firstn k sel1) with (firstn (Nat.min k k') sel1).
    - refine (best_unique _ _ _ _ _ _ (fun _ _ => eq_refl) (firstn_best_columns _ _ k' _ _ _ B1) B3). lia.
    - destruct (le_lt_dec k k'); [rewrite Nat.min_l by lia; reflexivity|]. pose proof (bc_length _ _ _ _ B1). rewrite !firstn_all2 by lia. reflexivity. }
  subst sel2. exists z1, sel1, z2, z3, sel3. rewrite seq_length in C2.
  assert (L3 : length sel3 = Nat.min k (length sel1)) by (rewrite S3; apply firstn_length).
  repeat split; try assumption; try congruence.
  - intros i j Hi Hj. rewrite C2 in Hj. rewrite V3, V2, seq_nth, V1; try (rewrite ?seq_length; lia); try congruence; try lia.
    cbn [Nat.add]. f_equal. rewrite S3. rewrite <- (firstn_skipn k sel1) at 2. rewrite app_nth1 by (rewrite firstn_length; lia). reflexivity.
  - apply Forall_forall. apply (bc_range _ _ _ _ B1).
  - apply (bc_distinct _ _ _ _ B1).
Qed.

Section WithExt.
Context {E : @Ext RNum}.
Lemma labels_selected s sel : consistent s -> length (s_eshape s) <= 1 -> Forall (fun j => j < m_nc (s_mat s)) sel -> NoDup sel -> sel <> [] ->
  exists l, fs_labels s sel = Ok l /\ (s_id2col s = [] -> l = []) /\
    (s_id2col s <> [] -> l <> [] /\ length l = length sel /\ forall i, i < length sel -> nth_error l i = nth_error (s_id2col s) (nth i sel 0)).
Proof.
  intros C He Hf Hn Hne. pose proof C as (W&L&Q&Ir&D&J&Fd&_). unfold fs_labels. assert (A : assert_1dim_element s = Ok tt) by (unfold assert_1dim_element; destruct (Nat.ltb_spec 1 (length (s_eshape s))); [lia|reflexivity]).
  rewrite A. cbn [bind]. destruct (s_id2col s) as [|c0 cs] eqn:Ec; [exists []; split; [reflexivity|]; split; [auto|congruence]|]. destruct Q as [Q|Q]; [congruence|]. rewrite <- Ec in *.
  assert (X : exists l, select_labels (s_id2col s) sel = Ok l).
  { unfold select_labels. clear Hn Hne. induction sel as [|j sel IH]; cbn [mapM]; [eauto|]. inversion Hf as [|? ? Hj Hf']; subst. destruct (IH Hf') as (l & El). rewrite El.
    destruct (nth_error (s_id2col s) j) as [x|] eqn:Ex; [cbn [bind]; eauto|]. apply nth_error_None in Ex. change (@F RNum) with R in *. lia. }
  destruct X as (l & El). rewrite El. cbn [bind]. destruct (select_labels_ok _ _ _ El) as (Ll & Hl).
  assert (Nl : NoDup l).
  { apply NoDup_nth_error. intros i j Hi Hij. assert (Hj : j < length l) by (apply nth_error_Some; rewrite <- Hij; apply nth_error_Some; exact Hi). rewrite Ll in Hi, Hj.
    rewrite !Hl in Hij by assumption. assert (Xi : nth i sel 0 < length (s_id2col s)). { rewrite Forall_forall in Hf. change (@F RNum) with R in *. pose proof (Hf _ (nth_In sel 0 Hi)). lia. }
    pose proof J as (Nd & _). pose proof (proj1 (NoDup_nth_error _) Nd _ _ Xi Hij) as Y. exact (proj1 (NoDup_nth sel 0) Hn i j Hi Hj Y). }
  destruct (list2dict l) as [d|e] eqn:Ed; [|apply list2dict_err in Ed; tauto]. cbn [bind]. exists l. split; [reflexivity|]. split; [congruence|].
  intros _. split; [intros ->; destruct sel; [congruence|discriminate]|]. auto.
Qed.

(** ** C93 *)
Theorem C93_two_steps : forall s c k k', consistent s -> length (s_eshape s) <= 1 -> 0 < k -> 0 < k' ->
  exists s1 s2 s3, space_apply s (TFS c k') = Ok s1 /\ space_apply s1 (TFS c k) = Ok s2 /\ space_apply s (TFS c (Nat.min k k')) = Ok s3 /\
    same_table s2 s3 /\ type_of (s_mat s3) = type_of (s_mat s2) /\ m_nr (s_mat s3) = m_nr (s_mat s2).
Proof.
  intros s c k k' C He Hk Hk'. pose proof C as (W&L&Q&Ir&D&J&Fd&_).
  destruct (select_two_steps c k k' (s_mat s) W Hk Hk') as (z1 & sel1 & z2 & z3 & sel3 & E1 & E2 & E3 & S3 & T & R & N & V & Fs & Nd & W1 & C1 & C2).
  assert (P1 : 0 < length sel1) by (rewrite <- C1; apply (mwf_pos z1 W1)).
  assert (Ne1 : sel1 <> []) by (intros K; rewrite K in P1; cbn in P1; lia).
  destruct (labels_selected s sel1 C He Fs Nd Ne1) as (l1 & El1 & A1 & B1). pose proof (apply_fs s c k' z1 sel1 C Hk' E1) as X1. rewrite El1 in X1. destruct X1 as (s1 & X1 & C1' & M1 & R1 & L1 & H1).
  destruct (labels_selected s1 (seq 0 (Nat.min k (length sel1)))) as (l2 & El2 & A2 & B2); [exact C1'|rewrite H1; cbn; lia|rewrite M1, C1; apply Forall_forall; intros j Hj; apply in_seq in Hj; lia|apply seq_NoDup|intros K; apply (f_equal (@length nat)) in K; rewrite seq_length in K; cbn in K; lia|].
  rewrite <- M1 in E2. pose proof (apply_fs s1 c k z2 _ C1' Hk E2) as X2. rewrite El2 in X2. destruct X2 as (s2 & X2 & C2' & M2 & R2 & L2 & H2).
  assert (Sub : forall j, In j sel3 -> In j sel1) by (intros j Hj; rewrite S3 in Hj; rewrite <- (firstn_skipn k sel1); apply in_app_iff; auto).
  assert (N3 : NoDup sel3) by (rewrite S3; rewrite <- (firstn_skipn k sel1) in Nd; exact (NoDup_app_l _ _ Nd)).
  assert (L3 : length sel3 = Nat.min k (length sel1)) by (rewrite S3; apply firstn_length).
  destruct (labels_selected s sel3) as (l3 & El3 & A3 & B3); [exact C|exact He|apply Forall_forall; rewrite Forall_forall in Fs; auto|exact N3|intros K; rewrite K in L3; cbn in L3; lia|].
  pose proof (apply_fs s c (Nat.min k k') z3 sel3 C ltac:(lia) E3) as X3. rewrite El3 in X3. destruct X3 as (s3 & X3 & C3' & M3 & R3 & L3' & H3).
  exists s1, s2, s3. split; [exact X1|]. split; [exact X2|]. split; [exact X3|]. rewrite M2, M3. split; [|split; [exact T|exact R]].
  constructor; rewrite ?M2, ?M3; try congruence; try exact V. rewrite L2, L3'. destruct (list_eq_dec string_dec (s_id2col s) []) as [Z|Z].
  - rewrite (A3 Z). rewrite (A1 Z) in L1. rewrite (A2 L1). reflexivity.
  - destruct (B1 Z) as (Z1 & Y1 & G1). rewrite <- L1 in Z1. destruct (B2 Z1) as (Z2 & Y2 & G2). destruct (B3 Z) as (Z3 & Y3 & G3). rewrite seq_length in Y2, G2.
    apply nth_error_ext; [congruence|]. intros a x y Hx Hy. pose proof (nth_error_lt _ _ _ Hx) as La. rewrite Y2 in La. rewrite G2 in Hx by exact La. rewrite seq_nth in Hx by exact La. cbn [Nat.add] in Hx.
    rewrite L1, G1 in Hx by lia. rewrite G3 in Hy by lia. assert (X : nth a sel3 0 = nth a sel1 0) by (rewrite S3; rewrite <- (firstn_skipn k sel1) at 2; rewrite app_nth1 by (rewrite firstn_length; lia); reflexivity).
    congruence.
Qed.
(** in particular, selecting again as many columns changes nothing *)
Theorem C93_again : forall s c k s1, consistent s -> length (s_eshape s) <= 1 -> 0 < k -> space_apply s (TFS c k) = Ok s1 ->
  exists s2, space_apply s1 (TFS c k) = Ok s2 /\ same_table s2 s1.
Proof.
  intros s c k s1 C He Hk H. destruct (C93_two_steps s c k k C He Hk Hk) as (s1' & s2 & s3 & X1 & X2 & X3 & T & _). rewrite Nat.min_id in X3.
  assert (s1' = s1) by congruence. assert (s3 = s1) by congruence. subst. eauto.
Qed.
(** the same for vectors projected into the reduced space later (PeripheralSpace): through two selections or one *)
Lemma applied_ops s c k s' : space_apply s (TFS c k) = Ok s' -> exists z sel, topfs_apply c k (s_mat s) = Ok (z, sel) /\ s_ops s' = s_ops s ++ [OpFS c k (Some sel) (Some (s_id2col s))].
Proof.
  intros H. unfold space_apply in H. cbn [create_operation op_apply] in H. destruct (topfs_apply c k (s_mat s)) as [[z sel]|e] eqn:Ez; [|discriminate]. cbn [bind] in H.
  exists z, sel. split; [reflexivity|]. destruct (assert_1dim_element s) as [[]|]; [|discriminate]. cbn [bind] in H.
  destruct (s_id2col s) as [|c0 cs] eqn:Ec.
  - cbn [bind] in H. apply mk_space_fields in H. destruct H as (_&_&_&H&_). rewrite H. cbn [op_set_original]. reflexivity.
  - destruct (select_labels _ sel) as [ic|]; [|discriminate]. cbn [bind] in H. destruct (list2dict ic) as [dc|]; [|discriminate]. cbn [bind] in H. apply mk_space_fields in H. destruct H as (_&_&_&H&_). rewrite H. reflexivity.
Qed.
Theorem C93_peripheral : forall s c k k' s1 s2 s3 m words p2, consistent s -> built s -> length (s_eshape s) <= 1 -> 0 < k -> 0 < k' -> mwf m ->
  space_apply s (TFS c k') = Ok s1 -> space_apply s1 (TFS c k) = Ok s2 -> space_apply s (TFS c (Nat.min k k')) = Ok s3 ->
  mk_peripheral s2 m words None = Ok p2 -> exists p3, mk_peripheral s3 m words None = Ok p3 /\ same_table p2 p3.
Proof.
  intros s c k k' s1 s2 s3 m words p2 C B He Hk Hk' W X1 X2 X3 P. pose proof (built_stable _ B) as S.
  destruct (C93_two_steps s c k k' C He Hk Hk') as (s1' & s2' & s3' & Y1 & Y2 & Y3 & T & _).
  assert (s1' = s1) by congruence. subst s1'. assert (s2' = s2) by congruence. subst s2'. assert (s3' = s3) by congruence. subst s3'.
  pose proof (apply_stable _ _ _ S X1) as S1. pose proof (apply_stable _ _ _ S1 X2) as S2. pose proof (apply_stable _ _ _ S X3) as S3.
  destruct (select_two_steps c k k' (s_mat s) (proj1 C) Hk Hk') as (z1 & sel1 & z2 & z3 & sel3 & E1 & E2 & E3 & F3 & _ & _ & _ & _ & _ & _ & _ & C1 & _).
  destruct (applied_ops _ _ _ _ X1) as (y1 & l1 & G1 & O1). destruct (applied_ops _ _ _ _ X2) as (y2 & l2 & G2 & O2). destruct (applied_ops _ _ _ _ X3) as (y3 & l3 & G3 & O3).
  assert (l1 = sel1) by congruence. assert (l3 = sel3) by congruence. subst l1 l3.
  assert (M1 : s_mat s1 = z1).
  { destruct (space_apply_ok s (TFS c k') s1 C Hk' X1) as (mm&o&o0&ic&ci&Ho&Es&_). rewrite Es. cbn [s_mat]. cbn [create_operation op_apply] in Ho. rewrite E1 in Ho. cbn [bind] in Ho. congruence. }
  rewrite M1 in G2. assert (l2 = seq 0 (Nat.min k (length sel1))) by congruence. subst l2.
  apply (mk_peripheral_iff s2 m words p2 S2) in P. destruct P as (ND & z & Pz & Lz & Fz & ->).
  rewrite O2, O1, <- app_assoc, project_all_app in Pz. destruct (project_all (s_ops s) m) as [m'|e] eqn:Pm; [|discriminate]. cbn [bind app project_all op_project] in Pz.
  destruct (project_wf s m m' C S W Pm) as (Wm & _).
  destruct (m_get_cols m' sel1) as [q1|e] eqn:Q1; [|discriminate]. cbn [bind] in Pz. destruct (m_get_cols q1 _) as [q2|e] eqn:Q2; [|discriminate]. cbn [bind] in Pz.
  assert (q2 = z) by congruence. subst q2.
  destruct (m_get_cols_ok _ _ _ Wm Q1) as (R1 & N1 & _). destruct (vals_get_cols m' _ _ _ _ sel1 (vals_self m' Wm) R1 N1) as (q1' & Q1' & V1). assert (q1' = q1) by congruence. subst q1'.
  assert (N2 : 0 < Nat.min k (length sel1)) by lia.
  destruct (vals_get_cols q1 _ _ _ _ (seq 0 (Nat.min k (length sel1))) V1) as (z' & Q2' & V2); [apply Forall_forall; intros j Hj; apply in_seq in Hj; lia|rewrite seq_length; exact N2|].
  assert (z' = z) by congruence. subst z'.
  assert (R3 : Forall (fun j => j < m_nc m') sel3) by (rewrite F3; rewrite <- (firstn_skipn k sel1) in R1; apply Forall_app in R1; apply R1).
  assert (L3 : length sel3 = Nat.min k (length sel1)) by (rewrite F3; apply firstn_length).
  destruct (vals_get_cols m' _ _ _ _ sel3 (vals_self m' Wm) R3) as (q3 & Q3 & V3); [lia|].
  assert (P3 : project_all (s_ops s3) m = Ok q3).
  { rewrite O3, project_all_app, Pm. cbn [bind project_all op_project]. rewrite Q3. reflexivity. }
  rewrite seq_length in V2. pose proof (vals_nr _ _ _ _ _ V2) as A2. pose proof (vals_nc _ _ _ _ _ V2) as B2. pose proof (vals_nr _ _ _ _ _ V3) as A3. pose proof (vals_nc _ _ _ _ _ V3) as B3.
  assert (Fit : fits s3 q3).
  { unfold fits in *. rewrite B3, L3, (st_cols _ _ T). rewrite B2 in Fz. destruct (space_apply_ok s1 (TFS c k) s2) as (mm&o&o0&ic&ci&_&_&_&_&_&_&C2'); [|exact Hk|exact X2|].
    { destruct (space_apply_ok s (TFS c k') s1 C Hk' X1) as (?&?&?&?&?&?&?&?&?&?&?&C1'). exact C1'. }
    destruct (space_apply_ok s (TFS c (Nat.min k k')) s3 C ltac:(cbn; lia) X3) as (?&?&?&?&?&?&?&?&?&?&?&C3').
    assert (Len : length (s_col2id s3) = length (s_col2id s2)).
    { pose proof C2' as (_&_&_&_&_&J2&_). pose proof C3' as (_&_&_&_&_&J3&_). pose proof (mutually_inverse_length _ _ J2) as K2. pose proof (mutually_inverse_length _ _ J3) as K3. rewrite K2, K3, (st_cols _ _ T). reflexivity. }
    rewrite Len. exact Fz. }
  exists (SP q3 words (s_id2col s3) (numbered words) (s_col2id s3) (s_ops s3) [m_nc q3]). split.
  - apply (mk_peripheral_iff s3 m words _ S3). split; [exact ND|]. exists q3. split; [exact P3|]. split; [congruence|]. split; [exact Fit|reflexivity].
  - constructor; cbn [s_id2row s_id2col s_eshape s_mat]; [reflexivity|apply (st_cols _ _ T)|congruence|congruence|].
    intros i j Hi Hj. rewrite A2 in Hi. rewrite B2 in Hj. rewrite (vals_ent _ _ _ _ _ i j V3) by lia. rewrite (vals_ent _ _ _ _ _ i j V2) by lia. cbv beta. rewrite seq_nth by lia. cbn [Nat.add].
    f_equal. rewrite F3. rewrite <- (firstn_skipn k sel1) at 2. rewrite app_nth1 by (rewrite firstn_length; lia). reflexivity.
Qed.
(** a concrete case: of two columns, keep both (ordered by their sum), then the better one *)
Example C93_example : exists s1 s2 s3, consistent sp22 /\ s_id2col sp22 <> [] /\ space_apply sp22 (TFS CSum 2) = Ok s1 /\ space_apply s1 (TFS CSum 1) = Ok s2 /\ space_apply sp22 (TFS CSum 1) = Ok s3 /\
  same_table s2 s3 /\ length (s_id2col s2) = 1.
Proof.
  destruct (C93_two_steps sp22 CSum 1 2 sp22_consistent) as (s1 & s2 & s3 & X1 & X2 & X3 & T & _); [cbn; lia|lia|lia|]. change (Nat.min 1 2) with 1 in X3.
  exists s1, s2, s3. split; [exact sp22_consistent|]. split; [discriminate|]. split; [exact X1|]. split; [exact X2|]. split; [exact X3|]. split; [exact T|].
  rewrite <- (st_cols _ _ T). destruct (C20_labels sp22 CSum 1 s3 sp22_consistent) as (_ & Y & _); [lia|discriminate|exact X3|]. exact Y.
Qed.
End WithExt.
