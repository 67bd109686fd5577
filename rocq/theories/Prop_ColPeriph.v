(** Prop_ColPeriph.v -- property C104, continued: peripheral spaces. *)
From Coq Require Import Reals Lra Psatz Permutation Sorted.
From Verif Require Import Base PyList Dict Num SpecReal Dense Sparse Matrix PSparse PMatrix PMatOps PShape PVals PReal PPos PSort Scaling Linalg Operation
  Similarity Space Peripheral SpecSpace PDictList PSpace Prop_Space Prop_Scaling PProj Prop_Periph PCols Prop_Order Prop_Counts PMoved Prop_Transpose Prop_ColOrder Prop_ColOrder2.
#[local] Existing Instance RNum.
Local Open Scope R_scope.
Local Open Scope string_scope.
Local Open Scope list_scope.
Local Open Scope nat_scope.
Section Spaces.
Context {E : @Ext RNum}.

(** what the two cores remember of a transformation: column j of the first was column [p j] of the second, of c columns; it is [q j] afterwards, of c' columns *)
Definition op_turned (p : nat -> nat) (c : nat) (o1 o2 : operation) (q : nat -> nat) (c' : nat) : Prop :=
  match o1, o2 with
  | OpScale s1 st1, OpScale s2 st2 => s1 = s2 /\ q = p /\ c' = c /\
      match s1 with
      | Epmi | Ppmi | Plmi => exists l1 l2, st1 = Some (SCol l1) /\ st2 = Some (SCol l2) /\ length l1 = c /\ length l2 = c /\ forall j, j < c -> nth (p j) l2 0%R = nth j l1 0%R
      | Norm _ => exists x, st1 = Some (SScal x) /\ st2 = Some (SScal x)
      | _ => True end
  | OpFS _ _ (Some l1) _, OpFS _ _ (Some l2) _ => c' = length l1 /\ length l2 = length l1 /\ 0 < length l1 /\ (forall j, In j l1 -> j < c) /\ (forall j, In j l2 -> j < c) /\
      (forall j, j < c' -> q j < c' /\ nth (q j) l2 0 = p (nth j l1 0)) /\ (forall j k, j < c' -> k < c' -> q j = q k -> j = k)
  | _, _ => False end.
Inductive ops_turned : (nat -> nat) -> nat -> list operation -> list operation -> (nat -> nat) -> nat -> Prop :=
| OT_nil p c : ops_turned p c [] [] p c
| OT_cons p c o1 o2 q c' l1 l2 p' c'' : op_turned p c o1 o2 q c' -> ops_turned q c' l1 l2 p' c'' -> ops_turned p c (o1 :: l1) (o2 :: l2) p' c''.

Lemma turn_sum0 p m1 m2 j : turned p m1 m2 -> j < m_nc m1 -> nth (p j) (m_sum0 m2) 0%R = nth j (m_sum0 m1) 0%R.
Proof.
  intros T Hj. pose proof (nth_m_sum0_R m2 (p j) ltac:(rewrite (tu_nc _ _ _ T); apply T, Hj)) as A. pose proof (nth_m_sum0_R m1 j Hj) as B. cbv beta in A, B.
  refine (eq_trans A (eq_trans _ (eq_sym B))). exact (turn_col_sum p m1 m2 T j Hj).
Qed.
(** one step *)
Lemma record_step s1 s2 p t a1 a2 : same_table s1 s2 -> turned p (s_mat s1) (s_mat s2) -> (forall j, j < m_nc (s_mat s1) -> nth_error (s_id2col s2) (p j) = nth_error (s_id2col s1) j) ->
  tr_ok t -> column_free t -> (match t with TFS c k => clear_cut c k (s_mat s1) | _ => True end) -> space_apply s1 t = Ok a1 -> space_apply s2 t = Ok a2 ->
  exists o1 o2 q, s_ops a1 = s_ops s1 ++ [o1] /\ s_ops a2 = s_ops s2 ++ [o2] /\ op_turned p (m_nc (s_mat s1)) o1 o2 q (m_nc (s_mat a1)) /\ same_table a1 a2 /\ turned q (s_mat a1) (s_mat a2) /\
    (forall j, j < m_nc (s_mat a1) -> nth_error (s_id2col a2) (q j) = nth_error (s_id2col a1) j).
Proof.
  intros H T K Ht Hf Hc E1 E2. pose proof (st_ok1 _ _ H) as C1. pose proof (st_ok2 _ _ H) as C2.
  assert (ST : same_table a1 a2).
  { assert (Q : same_tables (space_apply s1 t) (space_apply s2 t)) by (destruct t as [sc|d k|c k]; [apply C104_scale, H|contradiction|apply C104_select; assumption]). rewrite E1, E2 in Q. exact Q. }
  destruct (space_apply_ok _ _ _ C1 Ht E1) as (z1 & o1 & b1 & ic1 & ci1 & A1 & Es1 & Eo1 & L1 & _). destruct (space_apply_ok _ _ _ C2 Ht E2) as (z2 & o2 & b2 & ic2 & ci2 & A2 & Es2 & Eo2 & L2 & _).
  exists o1, o2. destruct t as [sc|d k|c k]; [|contradiction|]; cbn [create_operation op_apply] in A1, A2.
  - exists p. pose proof (turn_scaling p _ _ T sc) as S. destruct (scaling_apply sc (s_mat s1) None) as [w1|] eqn:W1; [|discriminate]. destruct (scaling_apply sc (s_mat s2) None) as [w2|] eqn:W2; [|discriminate]. cbn [bind] in A1, A2.
    assert (w1 = z1) by congruence. assert (w2 = z2) by congruence. subst w1 w2.
    assert (B1 : b1 = OpScale sc (if uses_column_stats sc then Some (get_column_stats sc (s_mat s1)) else None)) by congruence. assert (B2 : b2 = OpScale sc (if uses_column_stats sc then Some (get_column_stats sc (s_mat s2)) else None)) by congruence.
    destruct L1 as (-> & ->), L2 as (-> & ->). subst a1 a2. cbn [s_ops s_mat s_id2col] in *.
    assert (Nc : m_nc z1 = m_nc (s_mat s1)).
    { pose proof (labelled_width _ (st_ok1 _ _ ST) (st_labelled _ _ ST)) as Q. cbn [s_mat s_id2col] in Q. rewrite Q. symmetry. apply labelled_width; [exact C1|apply H]. }
    split; [reflexivity|]. split; [reflexivity|]. split; [|split; [exact ST|split; [exact S|rewrite Nc; exact K]]]. rewrite Eo1, Eo2, B1, B2. cbn [op_turned]. split; [reflexivity|]. split; [reflexivity|]. split; [exact Nc|].
    destruct sc as [| | | |cr|cr]; cbn [uses_column_stats get_column_stats]; try exact Logic.I.
    1-3: exists (m_sum0 (s_mat s1)), (m_sum0 (s_mat s2)); split; [reflexivity|]; split; [reflexivity|]; split; [apply m_sum0_length|]; split; [rewrite m_sum0_length; apply T|]; intros j Hj; apply turn_sum0; assumption.
    destruct cr.
    + exists (m_sum (s_mat s1)). split; [reflexivity|]. do 2 f_equal. refine (eq_trans (m_sum_R _) (eq_trans _ (eq_sym (m_sum_R _)))). exact (turn_total p _ _ T).
    + exists (m_norm (s_mat s1)). split; [reflexivity|]. do 2 f_equal. refine (eq_trans (m_norm_R _ (tu_wf2 _ _ _ T)) (eq_trans _ (eq_sym (m_norm_R _ (tu_wf1 _ _ _ T))))). exact (turn_size p _ _ T CLength).
  - destruct (same_turned a1 a2 ST) as (q & Tq & Kq). exists q. destruct (C20_selection c k (s_mat s1) (tu_wf1 _ _ _ T) Ht) as (w1 & l1 & F1 & B1 & _ & _ & _ & N1 & _). destruct (C20_selection c k (s_mat s2) (tu_wf2 _ _ _ T) Ht) as (w2 & l2 & F2 & B2 & _ & _ & _ & N2 & _).
    rewrite F1 in A1. rewrite F2 in A2. cbn [bind] in A1, A2. assert (w1 = z1) by congruence. assert (w2 = z2) by congruence. subst w1 w2.
    assert (G1 : b1 = OpFS c k (Some l1) None) by congruence. assert (G2 : b2 = OpFS c k (Some l2) None) by congruence. subst b1 b2. cbn [op_set_original] in Eo1, Eo2.
    assert (EA1 : s_ops a1 = s_ops s1 ++ [o1] /\ s_mat a1 = z1 /\ s_id2col a1 = ic1) by (subst a1; auto). assert (EA2 : s_ops a2 = s_ops s2 ++ [o2] /\ s_mat a2 = z2 /\ s_id2col a2 = ic2) by (subst a2; auto).
    destruct EA1 as (-> & M1 & I1), EA2 as (-> & M2 & I2). split; [reflexivity|]. split; [reflexivity|]. split; [|auto]. subst o1 o2. cbn [op_turned]. rewrite M1, N1.
    assert (Len : length l2 = length l1) by (rewrite (bc_length _ _ _ _ B1), (bc_length _ _ _ _ B2), (tu_nc _ _ _ T); reflexivity).
    assert (X : m_nc (s_mat a1) = length l1) by congruence.
    split; [reflexivity|]. split; [exact Len|]. split; [rewrite <- N1, <- M1; apply mwf_pos; apply Tq|]. split; [apply B1|]. split; [rewrite <- (tu_nc _ _ _ T); apply B2|]. split.
    + intros j Hj. rewrite <- X in Hj |- *. split; [apply Tq, Hj|].
      assert (Sel : forall s l ic ci, consistent s -> s_id2col s <> [] -> length (s_eshape s) <= 1 /\ ((s_id2col s = [] /\ ic = [] /\ ci = []) \/ s_id2col s <> [] /\ exists sel, (exists c0 k0, @OpFS RNum c k (Some l) None = OpFS c0 k0 (Some sel) None) /\ select_labels (s_id2col s) sel = Ok ic /\ list2dict ic = Ok ci) ->
        forall a, a < length l -> nth_error ic a = nth_error (s_id2col s) (nth a l 0)).
      { intros s l ic ci Cs Ne (_ & [(Q & _)|(_ & sel & (c0 & k0 & Q) & S1 & _)]) a Ha; [contradiction|]. assert (sel = l) by congruence. subst sel. unfold select_labels in S1. clear - S1 Ha. revert ic a S1 Ha.
        induction l as [|x l IH]; intros ic a S1 Ha; [cbn in Ha; lia|]. cbn [mapM] in S1. apply bind_ok in S1. destruct S1 as (y & Sy & S1). apply bind_ok in S1. destruct S1 as (ys & Sys & S1). assert (ic = y :: ys) by congruence. subst ic.
        destruct a as [|a]; cbn [nth nth_error]; [destruct (nth_error (s_id2col s) x); congruence|]. apply IH; [exact Sys|cbn in Ha; lia]. }
      pose proof (Sel s1 l1 ic1 ci1 C1 (st_labelled _ _ H) L1) as Q1. pose proof (Sel s2 l2 ic2 ci2 C2 (st_labelled _ _ (table_back _ _ H)) L2) as Q2.
      assert (Hq : q j < length l2) by (rewrite Len, <- X; apply Tq, Hj). assert (Hj' : j < length l1) by (rewrite <- X; exact Hj).
      specialize (Kq j Hj). rewrite I1, I2, Q1, Q2 in Kq by assumption. pose proof (bc_range _ _ _ _ B1 _ (nth_In l1 0 Hj')) as R1. rewrite <- (K _ R1) in Kq.
      pose proof C2 as (_&_&_&_&_&(N2'&_)&_). apply (proj1 (NoDup_nth_error _) N2'); [|exact Kq]. rewrite <- (labelled_width _ C2) by apply (st_labelled _ _ (table_back _ _ H)). apply (bc_range _ _ _ _ B2), nth_In, Hq.
    + rewrite <- X. apply Tq.
Qed.

(** the recorded operations, for a list of transformations *)
Lemma record_all : forall ts s1 s2 p a1 a2, same_table s1 s2 -> turned p (s_mat s1) (s_mat s2) -> (forall j, j < m_nc (s_mat s1) -> nth_error (s_id2col s2) (p j) = nth_error (s_id2col s1) j) ->
  Forall tr_ok ts -> Forall column_free ts -> clear_cuts s1 ts -> apply_all s1 ts = Ok a1 -> apply_all s2 ts = Ok a2 ->
  exists l1 l2 q, s_ops a1 = s_ops s1 ++ l1 /\ s_ops a2 = s_ops s2 ++ l2 /\ ops_turned p (m_nc (s_mat s1)) l1 l2 q (m_nc (s_mat a1)) /\ same_table a1 a2 /\
    (forall j, j < m_nc (s_mat a1) -> nth_error (s_id2col a2) (q j) = nth_error (s_id2col a1) j).
Proof.
  induction ts as [|t ts IH]; intros s1 s2 p a1 a2 H T K Ht Hf Hc E1 E2; cbn [apply_all] in E1, E2.
  - assert (a1 = s1) by congruence. assert (a2 = s2) by congruence. subst. exists [], [], p. rewrite !app_nil_r. split; [reflexivity|]. split; [reflexivity|]. split; [constructor|]. auto.
  - inversion Ht; subst. inversion Hf; subst. destruct Hc as (Hc1 & Hc2). apply bind_ok in E1, E2. destruct E1 as (b1 & F1 & E1), E2 as (b2 & F2 & E2).
    destruct (record_step s1 s2 p t b1 b2 H T K ltac:(assumption) ltac:(assumption) Hc1 F1 F2) as (o1 & o2 & q & O1 & O2 & OT & ST & Tq & Kq).
    destruct (IH b1 b2 q a1 a2 ST Tq Kq ltac:(assumption) ltac:(assumption) (Hc2 _ F1) E1 E2) as (l1 & l2 & q' & P1 & P2 & PT & ST' & K').
    exists (o1 :: l1), (o2 :: l2), q'. rewrite P1, P2, O1, O2, <- !app_assoc. split; [reflexivity|]. split; [reflexivity|]. split; [econstructor; eassumption|]. auto.
Qed.

(** projecting *)
Lemma epmi_row_turned p c l1 l2 (x1 x2 : nat -> R) j : (forall j, j < c -> p j < c) -> (forall j k, j < c -> k < c -> p j = p k -> j = k) -> (forall j, j < c -> nth (p j) l2 0%R = nth j l1 0%R) ->
  (forall j, j < c -> x2 (p j) = x1 j) -> j < c -> epmi_row l2 c x2 (p j) = epmi_row l1 c x1 j.
Proof.
  intros Pl Pi Hl Hx Hj. unfold epmi_row. rewrite (Hx j Hj), (Hl j Hj). rewrite <- (rsum_perm c p x2 Pl Pi), (rsum_ext c (fun j => x2 (p j)) x1 Hx).
  rewrite <- (rsum_perm c p (fun j => nth j l2 0%R) Pl Pi). rewrite (rsum_ext c (fun j => nth (p j) l2 0%R) (fun j => nth j l1 0%R) Hl). reflexivity.
Qed.
Lemma row_map_turned p c o1 o2 q c' (x1 x2 : nat -> R) j : (forall j, j < c -> p j < c) -> (forall j k, j < c -> k < c -> p j = p k -> j = k) -> op_turned p c o1 o2 q c' ->
  (forall j, j < c -> x2 (p j) = x1 j) -> j < c' -> row_map o2 c x2 (q j) = row_map o1 c x1 j.
Proof.
  intros Pl Pi HO Hx Hj. destruct o1 as [sc st1|d k tm|cr k [l1|] or1], o2 as [sc2 st2|d2 k2 tm2|cr2 k2 [l2|] or2]; cbn [op_turned] in HO; try contradiction.
  - destruct HO as (<- & -> & -> & HO). destruct sc as [| | | |cr|cr]; cbn [row_map].
    + destruct HO as (l1 & l2 & -> & -> & _ & _ & Hl). cbn [col_marg]. apply epmi_row_turned; assumption.
    + destruct HO as (l1 & l2 & -> & -> & _ & _ & Hl). cbn [col_marg]. rewrite (epmi_row_turned p c l1 l2 x1 x2 j) by assumption. reflexivity.
    + destruct HO as (l1 & l2 & -> & -> & _ & _ & Hl). cbn [col_marg]. rewrite (epmi_row_turned p c l1 l2 x1 x2 j), Hx by assumption. reflexivity.
    + rewrite Hx by assumption. reflexivity.
    + destruct cr; rewrite Hx by assumption.
      * rewrite <- (rsum_perm c p x2 Pl Pi), (rsum_ext c (fun j => x2 (p j)) x1 Hx). reflexivity.
      * assert (Q : norm c x2 = norm c x1). { unfold norm, SpecReal.dot. f_equal. rewrite <- (rsum_perm c p (fun j => x2 j * x2 j)%R Pl Pi). apply rsum_ext. intros i Hi. cbv beta. rewrite Hx by exact Hi. reflexivity. }
        rewrite Q. reflexivity.
    + destruct HO as (x & -> & ->). rewrite Hx by assumption. reflexivity.
  - destruct HO as (-> & HL & _ & R1 & R2 & HQ & _). cbn [row_map]. destruct (HQ j Hj) as (_ & ->). apply Hx. apply R1, nth_In, Hj.
Qed.
Lemma op_turned_shape p c o1 o2 q c' : op_turned p c o1 o2 q c' -> shape_ok o1 c /\ shape_ok o2 c /\ out_cols o1 c = c' /\ out_cols o2 c = c' /\ op_wf o1 /\ op_wf o2.
Proof.
  intros HO. destruct o1 as [sc st1|d k tm|cr k [l1|] or1], o2 as [sc2 st2|d2 k2 tm2|cr2 k2 [l2|] or2]; cbn [op_turned] in HO; try contradiction.
  - destruct HO as (<- & -> & -> & HO). assert (W : @op_wf RNum (OpScale sc st1) /\ @op_wf RNum (OpScale sc st2)) by (split; exact Logic.I). destruct W as (W1 & W2).
    destruct sc as [| | | |cr|cr]; cbn [shape_ok out_cols]; try (destruct HO as (l1 & l2 & -> & -> & L1 & L2 & _)); try (destruct HO as (x & -> & ->)); auto 10.
  - destruct HO as (-> & HL & H0 & R1 & R2 & _). cbn [shape_ok out_cols].
    split; [split; [apply Forall_forall; exact R1|exact H0]|]. split; [split; [apply Forall_forall; exact R2|lia]|]. split; [reflexivity|]. split; [exact HL|]. split; exact Logic.I.
Qed.
Lemma project_turned p o1 o2 q c' m1 m2 : turned p m1 m2 -> op_turned p (m_nc m1) o1 o2 q c' ->
  match op_project o1 m1, op_project o2 m2 with Ok z1, Ok z2 => turned q z1 z2 /\ m_nc z1 = c' /\ m_nr z1 = m_nr m1 | Err e, Err e' => e = e' | _, _ => False end.
Proof.
  intros T HO. destruct (op_turned_shape _ _ _ _ _ _ HO) as (S1 & S2 & U1 & U2 & W1 & W2). pose proof (vals_self _ (tu_wf1 _ _ _ T)) as V1. pose proof (vals_self _ (tu_wf2 _ _ _ T)) as V2. rewrite (tu_nc _ _ _ T), (tu_nr _ _ _ T) in V2.
  set (c := m_nc m1) in *. set (r := m_nr m1) in *.
  assert (FW : (forall i, i < r -> row_ok o1 c (ment m1 i)) -> (forall i, i < r -> row_ok o2 c (ment m2 i)) -> match op_project o1 m1, op_project o2 m2 with Ok z1, Ok z2 => turned q z1 z2 /\ m_nc z1 = c' /\ m_nr z1 = r | Err e, Err e' => e = e' | _, _ => False end).
  { intros P1 P2. destruct (project_fwd o1 m1 _ r c _ W1 V1 S1 P1) as (z1 & -> & X1). destruct (project_fwd o2 m2 _ r c _ W2 V2 S2 P2) as (z2 & -> & X2). rewrite U1 in X1. rewrite U2 in X2.
    pose proof (vals_has _ _ _ _ _ X1) as (Y1 & _ & R1 & C1). pose proof (vals_has _ _ _ _ _ X2) as (Y2 & _ & R2 & C2).
    assert (QL : (forall j, j < c' -> q j < c') /\ forall j k, j < c' -> k < c' -> q j = q k -> j = k).
    { destruct o1 as [sc st1|d k tm|cr k [l1|] or1], o2 as [sc2 st2|d2 k2 tm2|cr2 k2 [l2|] or2]; cbn [op_turned] in HO; try contradiction.
      - destruct HO as (_ & -> & -> & _). split; apply T.
      - destruct HO as (_ & _ & _ & _ & _ & HQ & Hi). split; [intros j Hj; apply HQ, Hj|exact Hi]. }
    split; [|split; assumption]. split; try assumption; try congruence; rewrite ?C1, ?R1; try apply QL.
    intros i j Hi Hj. rewrite (vals_ent _ _ _ _ _ i j X1 Hi Hj), (vals_ent _ _ _ _ _ i (q j) X2 Hi (proj1 QL j Hj)).
    apply (row_map_turned p c o1 o2 q c'); try assumption; try apply T. intros k Hk. apply T; assumption. }
  destruct o1 as [sc st1|d k tm|cr k [l1|] or1], o2 as [sc2 st2|d2 k2 tm2|cr2 k2 [l2|] or2]; try (exfalso; exact HO).
  - destruct (non_negative_dec m1) as [P|P].
    + pose proof (turn_nonneg p _ _ T P) as P2. apply FW; intros i Hi; destruct HO as (<- & _); destruct sc; cbn [row_ok]; try exact Logic.I; intros j Hj;
      first [apply P; assumption|apply P2; [rewrite (tu_nr _ _ _ T); exact Hi|rewrite (tu_nc _ _ _ T); exact Hj]].
    + assert (A1 : m_assert_positive m1 = Err ValueError).
      { destruct (assert_positive_iff m1 (tu_wf1 _ _ _ T)) as (Q & [D|D]); [|exact D]. exfalso. destruct P as (i & j & Hi & Hj & B). pose proof (proj1 Q D i j Hi Hj). lra. }
      assert (A2 : m_assert_positive m2 = Err ValueError).
      { destruct (assert_positive_iff m2 (tu_wf2 _ _ _ T)) as (Q & [D|D]); [|exact D]. exfalso. destruct P as (i & j & Hi & Hj & B). pose proof (proj1 Q D i (p j) ltac:(rewrite (tu_nr _ _ _ T); exact Hi) ltac:(rewrite (tu_nc _ _ _ T); apply T, Hj)) as Q2. rewrite (tu_ent _ _ _ T) in Q2 by assumption. lra. }
      destruct HO as (<- & _ & _ & HO). destruct sc as [| | | |cr|cr]; try (apply FW; intros; exact Logic.I).
      all: destruct HO as (l1 & l2 & -> & -> & _); cbn [op_project uses_column_stats scaling_apply]; unfold plmi_apply, ppmi_apply, epmi_apply; rewrite A1, A2; reflexivity.
  - apply FW; intros; exact Logic.I.
Qed.
Lemma project_all_turned : forall p c l1 l2 q c', ops_turned p c l1 l2 q c' -> forall m1 m2, turned p m1 m2 -> m_nc m1 = c ->
  match project_all l1 m1, project_all l2 m2 with Ok z1, Ok z2 => turned q z1 z2 /\ m_nc z1 = c' /\ m_nr z1 = m_nr m1 | Err e, Err e' => e = e' | _, _ => False end.
Proof.
  induction 1 as [p c|p c o1 o2 q c' l1 l2 p' c'' HO _ IH]; intros m1 m2 T EC; cbn [project_all]; [auto|]. subst c.
  pose proof (project_turned p o1 o2 q c' m1 m2 T HO) as Q. destruct (op_project o1 m1) as [z1|], (op_project o2 m2) as [z2|]; try contradiction; cbn [bind]; [|exact Q].
  destruct Q as (Tq & Nc & Nr). specialize (IH z1 z2 Tq Nc). destruct (project_all l1 z1), (project_all l2 z2); try exact IH. destruct IH as (A & B & C). split; [exact A|]. split; [exact B|congruence].
Qed.

(** ** C104, peripheral spaces *)
(** two cores are made by the same list of transformations from the same table; raw data of other words, whose columns are those of the table the core was
    made from, is projected: the same exception, or the same table *)
Theorem C104_peripheral : forall ts s1 s2 x1 x2 c1 c2, same_table s1 s2 -> same_tables_opt s1 s2 (Some x1) (Some x2) -> s_ops s1 = [] -> s_ops s2 = [] ->
  Forall tr_ok ts -> Forall column_free ts -> clear_cuts s1 ts -> apply_all s1 ts = Ok c1 -> apply_all s2 ts = Ok c2 ->
  same_tables (mk_peripheral c1 (s_mat x1) (s_id2row x1) None) (mk_peripheral c2 (s_mat x2) (s_id2row x2) None).
Proof.
  intros ts s1 s2 x1 x2 c1 c2 H (HX & X1 & X2) O1 O2 Ht Hf Hc E1 E2. destruct (same_turned s1 s2 H) as (p & T & K). destruct (same_turned x1 x2 HX) as (px & Tx & Kx).
  assert (NX : m_nc (s_mat x1) = m_nc (s_mat s1)). { rewrite (labelled_width _ (st_ok1 _ _ HX) (st_labelled _ _ HX)), (labelled_width _ (st_ok1 _ _ H) (st_labelled _ _ H)), X1. reflexivity. }
  assert (PX : forall j, j < m_nc (s_mat x1) -> px j = p j).
  { intros j Hj. pose proof (st_ok2 _ _ H) as C2. pose proof C2 as (_&_&_&_&_&(N2&_)&_). apply (proj1 (NoDup_nth_error _) N2).
    - rewrite <- (labelled_width _ C2) by apply (st_labelled _ _ (table_back _ _ H)). rewrite (tu_nc _ _ _ T), <- NX. apply Tx, Hj.
    - rewrite K by (rewrite <- NX; exact Hj). rewrite <- X2, <- X1. apply Kx, Hj. }
  assert (TX : turned p (s_mat x1) (s_mat x2)).
  { destruct Tx as [B1 B2 B3 B4 B5 B6 B7]. split; try assumption; [rewrite NX; apply T..|]. intros i j Hi Hj. rewrite <- PX by exact Hj. apply B7; assumption. }
  destruct (record_all ts s1 s2 p c1 c2 H T K Ht Hf Hc E1 E2) as (l1 & l2 & q & L1 & L2 & OT & ST & Kq). rewrite O1 in L1. rewrite O2 in L2. cbn [app] in L1, L2.
  assert (SB : forall s c, consistent s -> s_ops s = [] -> apply_all s ts = Ok c -> stable c).
  { intros s c _ Os. assert (S0 : stable s) by (unfold stable; rewrite Os; reflexivity). revert S0. clear. revert s. induction ts as [|t ts IH]; intros s S0 Q; cbn [apply_all] in Q; [congruence|]. apply bind_ok in Q. destruct Q as (s' & Q1 & Q). apply (IH s' (apply_stable _ _ _ S0 Q1) Q). }
  pose proof (SB s1 c1 (st_ok1 _ _ H) O1 E1) as SB1. pose proof (SB s2 c2 (st_ok2 _ _ H) O2 E2) as SB2.
  pose proof (project_all_turned _ _ _ _ _ _ OT _ _ TX NX) as PJ.
  pose proof (st_ok1 _ _ HX) as Cx1. pose proof (st_ok2 _ _ HX) as Cx2. pose proof Cx1 as (Wx1&Rx1&_&(Nd1&_)&_). pose proof Cx2 as (Wx2&Rx2&_).
  assert (DX : list2dict (s_id2row x1) = Ok (numbered (s_id2row x1))) by (apply numbered_total, Nd1).
  rewrite (st_rows _ _ HX) in *. unfold same_tables.
  destruct (project_all l1 (s_mat x1)) as [z1|e] eqn:P1, (project_all l2 (s_mat x2)) as [z2|e'] eqn:P2; try contradiction.
  - destruct PJ as (TZ & NZ & RZ).
    assert (G1 : exists y1, mk_peripheral c1 (s_mat x1) (s_id2row x1) None = Ok y1 /\ y1 = SP z1 (s_id2row x1) (s_id2col c1) (numbered (s_id2row x1)) (s_col2id c1) (s_ops c1) [m_nc z1]).
    { eexists. split; [|reflexivity]. apply mk_peripheral_iff; [exact SB1|]. split; [exact Nd1|]. exists z1. rewrite L1. split; [exact P1|]. split; [congruence|]. split; [|reflexivity]. right.
      pose proof (st_ok1 _ _ ST) as CC. rewrite NZ, (labelled_width _ CC (st_labelled _ _ ST)). pose proof CC as (_&_&_&_&_&Ci&_). split; [reflexivity|]. symmetry. exact (mutually_inverse_length _ _ Ci). }
    assert (G2 : exists y2, mk_peripheral c2 (s_mat x2) (s_id2row x1) None = Ok y2 /\ y2 = SP z2 (s_id2row x1) (s_id2col c2) (numbered (s_id2row x1)) (s_col2id c2) (s_ops c2) [m_nc z2]).
    { eexists. split; [|reflexivity]. apply mk_peripheral_iff; [exact SB2|]. split; [exact Nd1|]. exists z2. rewrite L2. split; [exact P2|]. split; [rewrite (tu_nr _ _ _ TZ); congruence|]. split; [|reflexivity]. right.
      pose proof (st_ok2 _ _ ST) as CC. pose proof (st_labelled _ _ (table_back _ _ ST)) as NE. rewrite (tu_nc _ _ _ TZ), NZ. destruct (same_turned c1 c2 ST) as (qq & TT & _). rewrite <- (tu_nc _ _ _ TT), (labelled_width _ CC NE). pose proof CC as (_&_&_&_&_&Ci&_). split; [reflexivity|]. symmetry. exact (mutually_inverse_length _ _ Ci). }
    destruct G1 as (y1 & G1 & F1), G2 as (y2 & G2 & F2). rewrite G1, G2.
    destruct (mk_peripheral_ok _ _ _ None _ (st_ok1 _ _ ST) Wx1 Logic.I G1) as (?&?&?&_&_&_&_&_&K1). destruct (mk_peripheral_ok _ _ _ None _ (st_ok2 _ _ ST) Wx2 Logic.I G2) as (?&?&?&_&_&_&_&_&K2).
    apply (turned_same y1 y2 q); subst y1 y2; cbn [s_mat s_id2row s_id2col s_eshape]; try assumption; try reflexivity.
    + apply ST.
    + apply (st_labelled _ _ (table_back _ _ ST)).
    + rewrite (tu_nc _ _ _ TZ). reflexivity.
    + rewrite NZ. exact Kq.
  - assert (ER : forall c x e0, stable c -> project_all (s_ops c) (s_mat x) = Err e0 -> mk_peripheral c (s_mat x) (s_id2row x1) None = Err e0).
    { intros c x e0 Sc Pe. unfold mk_peripheral. rewrite DX. cbn [bind]. fold (cols c). destruct (proj2 (project_ops_split _ _ _ _ Sc) e0 Pe) as (c3 & ->). reflexivity. }
    rewrite (ER c1 x1 e SB1) by (rewrite L1; exact P1). rewrite (ER c2 x2 e' SB2) by (rewrite L2; exact P2). exact PJ.
Qed.
End Spaces.

(** two tables with the columns x y z and z x y; the first two columns are kept and the rows normalised; the same raw vectors are projected again *)
Section Ex.
Context {E : @Ext RNum}.
Definition col_pipe : list transformation := [TFS CSum 2; TScale (RowNorm CLength)].
Example C104_peripheral_example : exists c1 c2, same_table sp_tab1 sp_tab2 /\ same_tables_opt sp_tab1 sp_tab2 (Some sp_tab1) (Some sp_tab2) /\ s_ops sp_tab1 = [] /\ s_ops sp_tab2 = [] /\
  Forall tr_ok col_pipe /\ Forall column_free col_pipe /\ clear_cuts sp_tab1 col_pipe /\ apply_all sp_tab1 col_pipe = Ok c1 /\ apply_all sp_tab2 col_pipe = Ok c2.
Proof.
  assert (T : Forall tr_ok col_pipe) by (repeat constructor). assert (CF : Forall column_free col_pipe) by (repeat constructor).
  assert (CC : clear_cuts sp_tab1 col_pipe) by (split; [exact tab_cut|]; intros s' _; split; [exact Logic.I|]; intros s'' _; exact Logic.I).
  assert (R1 : exists c1, apply_all sp_tab1 col_pipe = Ok c1).
  { destruct (C20_selection CSum 2 tab1 tab1_wf ltac:(lia)) as (z & l & Ez & B & _). pose proof (apply_fs sp_tab1 CSum 2 z l tab1_ok ltac:(lia) Ez) as A.
    rewrite fs_labels_ok in A; [|discriminate|apply tab1_ok|apply B|exact (bc_range _ _ _ _ B)]. cbn [assert_1dim_element sp_tab1 s_eshape length Nat.ltb Nat.leb bind] in A.
    destruct A as (s' & A & Cs & _). destruct (C18_row_normalization CLength (s_mat s') (proj1 Cs)) as (y & Ey & _). destruct (apply_scale s' _ y Cs Ey) as (s2 & A2 & _).
    exists s2. cbn [col_pipe apply_all]. rewrite A. cbn [bind]. rewrite A2. reflexivity. }
  destruct R1 as (c1 & R1). pose proof (C104_chain col_pipe sp_tab1 sp_tab2 tab_same T CF CC) as Q. rewrite R1 in Q. cbn [same_tables] in Q. destruct (apply_all sp_tab2 col_pipe) as [c2|] eqn:R2; [|contradiction].
  exists c1, c2. split; [exact tab_same|]. split; [split; [exact tab_same|split; reflexivity]|]. do 5 (split; [first [assumption|reflexivity]|]). split; [exact R1|reflexivity].
Qed.
End Ex.
