(** Prop_ColOrder.v -- property C104: the order of the columns does not matter. *)
From Coq Require Import Reals Lra Psatz Permutation Sorted Ascii.
From Verif Require Import Base PyList Dict Num SpecReal Dense Sparse Matrix PSparse PMatrix PMatOps PShape PVals PReal PPos PSort Scaling Linalg Operation
  Similarity Space Peripheral SpecSpace PDictList PSpace Prop_Space Prop_Scaling Prop_Sim Prop_Neigh PMoved Prop_Periph PCols Prop_Order Prop_Counts Prop_Transpose Prop_Unit
  Learner Composition SpecComp PComp Prop_Comp Utils LexFun Str PStr IO SpecIO PIO Prop_IO Prop_Lines.
#[local] Existing Instance RNum.
Local Open Scope R_scope.
Local Open Scope string_scope.
Local Open Scope list_scope.
Local Open Scope nat_scope.

(** ** specification *)
(** the two spaces hold the same words in the same order, the same (labelled) columns in any order, and the same number for every word and column label; each matrix may be dense or sparse *)
Record same_table (s1 s2 : space) : Prop := {
  st_ok1 : consistent s1;
  st_ok2 : consistent s2;
  st_rows : s_id2row s2 = s_id2row s1;
  st_labelled : s_id2col s1 <> [];
  st_labels : forall c, In c (s_id2col s1) <-> In c (s_id2col s2);
  st_shape : s_eshape s2 = s_eshape s1;
  st_entry : forall i a b c, i < m_nr (s_mat s1) -> nth_error (s_id2col s1) a = Some c -> nth_error (s_id2col s2) b = Some c -> ment (s_mat s2) i b = ment (s_mat s1) i a }.
(** the same exception, or results that are the same table *)
Definition same_tables (x y : res space) : Prop :=
  match x, y with Ok a, Ok b => same_table a b | Err e, Err e' => e = e' | _, _ => False end.
(** no column that a selection drops scores as much as one that it keeps *)
Definition clear_cut (c : crit) (k : nat) (m : matrix) : Prop :=
  forall sel a b, best_columns (m_nc m) k (col_score c m) sel -> In a sel -> b < m_nc m -> ~ In b sel -> col_score c m b <> col_score c m a.

(** ** matrices *)
(** column j of [m1] is column [p j] of [m2] *)
Record turned (p : nat -> nat) (m1 m2 : matrix) : Prop := {
  tu_wf1 : mwf m1; tu_wf2 : mwf m2; tu_nr : m_nr m2 = m_nr m1; tu_nc : m_nc m2 = m_nc m1;
  tu_lt : forall j, j < m_nc m1 -> p j < m_nc m1;
  tu_inj : forall j k, j < m_nc m1 -> k < m_nc m1 -> p j = p k -> j = k;
  tu_ent : forall i j, i < m_nr m1 -> j < m_nc m1 -> ment m2 i (p j) = ment m1 i j }.
Section Turned.
Context (p : nat -> nat) (m1 m2 : matrix) (T : turned p m1 m2).
Lemma turn_sum (g : R -> R) i : i < m_nr m1 -> rsum (m_nc m2) (fun j => g (ment m2 i j)) = rsum (m_nc m1) (fun j => g (ment m1 i j)).
Proof.
  intros Hi. rewrite (tu_nc _ _ _ T), <- (rsum_perm (m_nc m1) p (fun j => g (ment m2 i j)) (tu_lt _ _ _ T) (tu_inj _ _ _ T)).
  apply rsum_ext. intros j Hj. rewrite (tu_ent _ _ _ T) by assumption. reflexivity.
Qed.
Lemma turn_row_sum i : i < m_nr m1 -> row_sum m2 i = row_sum m1 i.
Proof. intros Hi. exact (turn_sum (fun x => x) i Hi). Qed.
Lemma turn_row_size c i : i < m_nr m1 -> row_size c m2 i = row_size c m1 i.
Proof. intros Hi. destruct c; [exact (turn_row_sum i Hi)|]. cbn [row_size]. unfold norm, dot. f_equal. exact (turn_sum (fun x => x * x)%R i Hi). Qed.
Lemma turn_col_sum j : j < m_nc m1 -> col_sum m2 (p j) = col_sum m1 j.
Proof. intros Hj. unfold col_sum. rewrite (tu_nr _ _ _ T). apply rsum_ext. intros i Hi. apply T; assumption. Qed.
Lemma turn_score c j : j < m_nc m1 -> col_score c m2 (p j) = col_score c m1 j.
Proof.
  intros Hj. destruct c; [exact (turn_col_sum j Hj)|]. cbn [col_score]. rewrite (tu_nr _ _ _ T). unfold norm, dot. f_equal. apply rsum_ext. intros i Hi. rewrite (tu_ent _ _ _ T) by assumption. reflexivity.
Qed.
Lemma turn_total : total m2 = total m1.
Proof. unfold total. rewrite (tu_nr _ _ _ T). apply rsum_ext. intros i Hi. exact (turn_sum (fun x => x) i Hi). Qed.
Lemma turn_size c : size c m2 = size c m1.
Proof. destruct c; [exact turn_total|]. cbn [size]. unfold frobenius. f_equal. rewrite (tu_nr _ _ _ T). apply rsum_ext. intros i Hi. exact (turn_sum (fun x => x * x)%R i Hi). Qed.
Lemma turn_epmi i j : i < m_nr m1 -> j < m_nc m1 -> epmi_entry m2 i (p j) = epmi_entry m1 i j.
Proof. intros Hi Hj. unfold epmi_entry. rewrite turn_row_sum, turn_col_sum, turn_total, (tu_ent _ _ _ T) by assumption. reflexivity. Qed.
Lemma turn_nonneg : non_negative m1 -> non_negative m2.
Proof.
  intros H i j Hi Hj. rewrite (tu_nr _ _ _ T) in Hi. rewrite (tu_nc _ _ _ T) in Hj. destruct (inj_surj _ p (tu_lt _ _ _ T) (tu_inj _ _ _ T) j Hj) as (k & Hk & <-).
  rewrite (tu_ent _ _ _ T) by assumption. apply H; assumption.
Qed.
Lemma turn_result z1 z2 f1 f2 : result_of m1 z1 f1 -> result_of m2 z2 f2 -> (forall i j, i < m_nr m1 -> j < m_nc m1 -> f2 i (p j) = f1 i j) -> turned p z1 z2.
Proof.
  intros (A1&_&A2&A3&A4) (B1&_&B2&B3&B4) K. rewrite (tu_nr _ _ _ T) in B2, B4. rewrite (tu_nc _ _ _ T) in B3, B4.
  split; try assumption; try congruence; try (rewrite ?A3; apply T). rewrite A2, A3. intros i j Hi Hj. rewrite A4, B4 by (try apply T; assumption). apply K; assumption.
Qed.
Lemma turn_scaling s : match scaling_apply s m1 None, scaling_apply s m2 None with Ok z1, Ok z2 => turned p z1 z2 | Err e, Err e' => e = e' | _, _ => False end.
Proof.
  pose proof (tu_wf1 _ _ _ T) as W1. pose proof (tu_wf2 _ _ _ T) as W2.
  assert (Hneg : (non_negative m1 /\ non_negative m2) \/ forall s, In s [Epmi; Ppmi; Plmi] -> scaling_apply s m1 None = Err ValueError /\ scaling_apply s m2 None = Err ValueError).
  { destruct (non_negative_dec m1) as [P|P]; [left; split; [exact P|exact (turn_nonneg P)]|]. right. intros s' Hs'. split; apply C15_negative_rejected; try assumption.
    destruct P as (i & j & Hi & Hj & K). exists i, (p j). rewrite (tu_nr _ _ _ T), (tu_nc _ _ _ T), (tu_ent _ _ _ T) by assumption. split; [exact Hi|]. split; [apply T; exact Hj|exact K]. }
  destruct s as [| | | |k|k].
  - destruct Hneg as [(N1 & N2)|Hn]; [|destruct (Hn Epmi ltac:(cbn; tauto)) as (-> & ->); reflexivity].
    destruct (C15_epmi m1 W1 N1) as (z1 & -> & R1). destruct (C15_epmi m2 W2 N2) as (z2 & -> & R2). apply (turn_result _ _ _ _ R1 R2). intros. apply turn_epmi; assumption.
  - destruct Hneg as [(N1 & N2)|Hn]; [|destruct (Hn Ppmi ltac:(cbn; tauto)) as (-> & ->); reflexivity].
    destruct (C16_ppmi m1 W1 N1) as (z1 & -> & R1 & _). destruct (C16_ppmi m2 W2 N2) as (z2 & -> & R2 & _). apply (turn_result _ _ _ _ R1 R2). intros. unfold ppmi_entry. rewrite turn_epmi by assumption. reflexivity.
  - destruct Hneg as [(N1 & N2)|Hn]; [|destruct (Hn Plmi ltac:(cbn; tauto)) as (-> & ->); reflexivity].
    destruct (C16_plmi m1 W1 N1) as (z1 & -> & R1 & _). destruct (C16_plmi m2 W2 N2) as (z2 & -> & R2 & _). apply (turn_result _ _ _ _ R1 R2). intros. cbv beta. unfold ppmi_entry. rewrite turn_epmi, (tu_ent _ _ _ T) by assumption. reflexivity.
  - destruct (C17_plog m1 W1) as (z1 & -> & R1 & _). destruct (C17_plog m2 W2) as (z2 & -> & R2 & _). apply (turn_result _ _ _ _ R1 R2). intros. cbv beta. rewrite (tu_ent _ _ _ T) by assumption. reflexivity.
  - destruct (C18_row_normalization k m1 W1) as (z1 & -> & R1 & _). destruct (C18_row_normalization k m2 W2) as (z2 & -> & R2 & _). apply (turn_result _ _ _ _ R1 R2). intros. cbv beta. rewrite turn_row_size, (tu_ent _ _ _ T) by assumption. reflexivity.
  - destruct (C19_normalization k m1 W1) as (z1 & -> & P1 & Q1). destruct (C19_normalization k m2 W2) as (z2 & -> & P2 & Q2). rewrite turn_size in P2, Q2. destruct (Req_EM_T (size k m1) 0) as [Z|Z].
    + rewrite (Q1 Z), (Q2 Z). exact T.
    + apply (turn_result _ _ _ _ (proj1 (P1 Z)) (proj1 (P2 Z))). intros. cbv beta. rewrite (tu_ent _ _ _ T) by assumption. reflexivity.
Qed.
Lemma turn_selected c k l1 l2 : best_columns (m_nc m1) k (col_score c m1) l1 -> best_columns (m_nc m2) k (col_score c m2) l2 -> clear_cut c k m1 -> forall a, In a l1 -> In (p a) l2.
Proof.
  intros B1 B2 Hc a Ha. destruct (in_dec Nat.eq_dec (p a) l2) as [I|I]; [exact I|exfalso]. rewrite (tu_nc _ _ _ T) in B2.
  assert (Np : NoDup (map p l1)).
  { pose proof (bc_distinct _ _ _ _ B1) as Nd. assert (Rg : forall x, In x l1 -> x < m_nc m1) by apply B1. clear - T Nd Rg. induction Nd as [|x l Hx Nd IH]; cbn [map]; constructor.
    - intros K. apply in_map_iff in K. destruct K as (y & E & Hy). apply Hx. rewrite <- (tu_inj _ _ _ T y x); [exact Hy|apply Rg; right; exact Hy|apply Rg; left; reflexivity|exact E].
    - apply IH. intros y Hy. apply Rg. right. exact Hy. }
  assert (Ex : exists y, In y l2 /\ ~ In y (map p l1)).
  { destruct (Exists_dec (fun y => ~ In y (map p l1)) l2) as [Ex|Ex]; [intros y; destruct (in_dec Nat.eq_dec y (map p l1)); [right; tauto|left; assumption]|apply Exists_exists in Ex; exact Ex|]. exfalso. apply I.
    assert (Inc : incl l2 (map p l1)). { intros y Hy. destruct (in_dec Nat.eq_dec y (map p l1)) as [J|J]; [exact J|]. exfalso. apply Ex. apply Exists_exists. exists y. split; assumption. }
    apply (NoDup_length_incl (bc_distinct _ _ _ _ B2)) in Inc; [apply Inc, in_map, Ha|]. rewrite map_length, (bc_length _ _ _ _ B1), (bc_length _ _ _ _ B2). lia. }
  destruct Ex as (y & Hy & Hn). destruct (inj_surj _ p (tu_lt _ _ _ T) (tu_inj _ _ _ T) y (bc_range _ _ _ _ B2 y Hy)) as (b & Hb & <-).
  assert (Hnb : ~ In b l1) by (intros K; apply Hn, in_map, K). pose proof (bc_range _ _ _ _ B1 a Ha) as Ra.
  pose proof (Hc l1 a b B1 Ha Hb Hnb) as Ne. destruct (bc_dropped _ _ _ _ B1 b a Hb Hnb Ha) as (L1 & _). destruct (bc_dropped _ _ _ _ B2 (p a) (p b) (tu_lt _ _ _ T a Ra) I Hy) as (L2 & _).
  rewrite !turn_score in L2 by assumption. lra.
Qed.
End Turned.
(** ** spaces *)
Section Spaces.
Context {E : @Ext RNum}.
Lemma labelled_width s : consistent s -> s_id2col s <> [] -> m_nc (s_mat s) = length (s_id2col s).
Proof. intros (_&_&[K|K]&_) H; [contradiction|symmetry; exact K]. Qed.
Lemma table_back s1 s2 : same_table s1 s2 -> same_table s2 s1.
Proof.
  intros H. split; try apply H; try (symmetry; apply H).
  - intros K. apply (st_labelled _ _ H). apply (words_nil (s_id2col s2)); [intros w; symmetry; apply H|exact K].
  - intros i a b c Hi Ha Hb. symmetry. apply (st_entry _ _ H i b a c); [|exact Hb|exact Ha]. pose proof (st_ok1 _ _ H) as (_&L1&_). pose proof (st_ok2 _ _ H) as (_&L2&_). rewrite (st_rows _ _ H) in L2. lia.
Qed.
Lemma same_turned s1 s2 : same_table s1 s2 -> exists p, turned p (s_mat s1) (s_mat s2) /\ forall j, j < m_nc (s_mat s1) -> nth_error (s_id2col s2) (p j) = nth_error (s_id2col s1) j.
Proof.
  intros H. pose proof (st_ok1 _ _ H) as C1. pose proof (st_ok2 _ _ H) as C2. pose proof (labelled_width _ C1 (st_labelled _ _ H)) as L1. pose proof (labelled_width _ C2 (st_labelled _ _ (table_back _ _ H))) as L2.
  pose proof C1 as (W1&Q1&_&_&_&(N1&_)&_). pose proof C2 as (W2&Q2&_&_&_&(N2&_)&_).
  pose proof (same_words_length _ _ N1 N2 (st_labels _ _ H)) as HL.
  set (p := fun i => position (nth i (s_id2col s1) EmptyString) (s_id2col s2)). exists p.
  assert (K : forall i, i < m_nc (s_mat s1) -> nth_error (s_id2col s2) (p i) = nth_error (s_id2col s1) i).
  { intros i Hi. unfold p. rewrite position_ok; [symmetry; apply nth_error_nth'; congruence|]. apply (st_labels _ _ H), nth_In. congruence. }
  assert (K1 : forall i, i < m_nc (s_mat s1) -> exists w, nth_error (s_id2col s1) i = Some w).
  { intros i Hi. destruct (nth_error (s_id2col s1) i) eqn:E0; [eauto|]. apply nth_error_None in E0. lia. }
  split; [|exact K]. split; try assumption.
  - rewrite (st_rows _ _ H) in Q2. lia.
  - lia.
  - intros i Hi. destruct (K1 i Hi) as (w & Hw). specialize (K i Hi). rewrite Hw in K. apply nth_error_lt in K. lia.
  - intros i k Hi Hk Hp. apply (proj1 (NoDup_nth_error (s_id2col s1)) N1); [lia|]. rewrite <- (K i Hi), <- (K k Hk), Hp. reflexivity.
  - intros i j Hi Hj. destruct (K1 j Hj) as (w & Hw). apply (st_entry _ _ H i j (p j) w); [exact Hi|exact Hw|rewrite K; assumption].
Qed.
Lemma turned_same s1 s2 p : consistent s1 -> consistent s2 -> s_id2row s2 = s_id2row s1 -> s_id2col s1 <> [] -> s_id2col s2 <> [] -> s_eshape s2 = s_eshape s1 -> turned p (s_mat s1) (s_mat s2) ->
  (forall j, j < m_nc (s_mat s1) -> nth_error (s_id2col s2) (p j) = nth_error (s_id2col s1) j) -> same_table s1 s2.
Proof.
  intros C1 C2 Hr Hl Hl2 Hs T K. pose proof (labelled_width _ C1 Hl) as L1. pose proof (labelled_width _ C2 Hl2) as L2. pose proof C2 as (_&_&_&_&_&(N2&_)&_).
  split; try assumption.
  - intros w. split; intros Hw; apply In_nth_error in Hw; destruct Hw as (i & Hi); pose proof (nth_error_lt _ _ _ Hi) as Hlt.
    + apply nth_error_In with (p i). rewrite K by congruence. exact Hi.
    + rewrite <- L2, (tu_nc _ _ _ T) in Hlt. destruct (inj_surj _ p (tu_lt _ _ _ T) (tu_inj _ _ _ T) i Hlt) as (k & Hk & <-). rewrite K in Hi by exact Hk. exact (nth_error_In _ _ Hi).
  - intros i a b c Hi Ha Hb. pose proof (nth_error_lt _ _ _ Ha) as Hlt. rewrite <- L1 in Hlt. assert (b = p a) as ->; [|apply T; assumption].
    apply (proj1 (NoDup_nth_error (s_id2col s2)) N2); [exact (nth_error_lt _ _ _ Hb)|]. rewrite K by exact Hlt. congruence.
Qed.
(** *** scalings *)
Theorem C104_scale : forall s1 s2 sc, same_table s1 s2 -> same_tables (space_apply s1 (TScale sc)) (space_apply s2 (TScale sc)).
Proof.
  intros s1 s2 sc H. destruct (same_turned s1 s2 H) as (p & T & K). pose proof (st_ok1 _ _ H) as C1. pose proof (st_ok2 _ _ H) as C2. pose proof (turn_scaling p _ _ T sc) as S.
  destruct (scaling_apply sc (s_mat s1) None) as [a|e] eqn:Ea, (scaling_apply sc (s_mat s2) None) as [b|e'] eqn:Eb; try contradiction.
  - destruct (apply_scale s1 sc a C1 Ea) as (s1' & -> & D1 & M1 & R1 & L1 & Q1). destruct (apply_scale s2 sc b C2 Eb) as (s2' & -> & D2 & M2 & R2 & L2 & Q2). cbn [same_tables].
    assert (Nc : m_nc a = m_nc (s_mat s1)). { rewrite <- M1, (labelled_width _ D1) by (rewrite L1; apply H). rewrite L1, (labelled_width _ C1) by apply H. reflexivity. }
    apply (turned_same s1' s2' p); try assumption; rewrite ?R1, ?R2, ?L1, ?L2, ?M1, ?M2, ?Q1, ?Q2; try apply H; try exact S; [apply (st_labelled _ _ (table_back _ _ H))|f_equal; apply S|rewrite Nc; exact K].
  - rewrite (apply_scale_err _ _ _ Ea), (apply_scale_err _ _ _ Eb). exact S.
Qed.
(** *** feature selection *)
Lemma fs_labels_ok s sel : s_id2col s <> [] -> NoDup (s_id2col s) -> NoDup sel -> (forall j, In j sel -> j < length (s_id2col s)) ->
  fs_labels s sel = let* _ := assert_1dim_element s in Ok (map (fun j => nth j (s_id2col s) EmptyString) sel).
Proof.
  intros Hne Nd Ns Hr. unfold fs_labels. destruct (assert_1dim_element s) as [[]|e]; cbn [bind]; [|reflexivity]. destruct (s_id2col s) as [|c0 cs] eqn:Ec; [contradiction|]. rewrite <- Ec in *. clear Ec c0 cs Hne.
  assert (S : select_labels (s_id2col s) sel = Ok (map (fun j => nth j (s_id2col s) EmptyString) sel)).
  { unfold select_labels. clear Ns. induction sel as [|j sel IH]; [reflexivity|]. cbn [mapM map]. rewrite (nth_error_nth' (s_id2col s) EmptyString) by (apply Hr; left; reflexivity). cbn [bind]. rewrite IH by (intros x Hx; apply Hr; right; exact Hx). reflexivity. }
  rewrite S. cbn [bind].
  assert (N : NoDup (map (fun j => nth j (s_id2col s) EmptyString) sel)).
  { clear S. induction Ns as [|x l Hx Ns IH]; cbn [map]; constructor; [|apply IH; intros y Hy; apply Hr; right; exact Hy].
    intros K. apply in_map_iff in K. destruct K as (y & E0 & Hy). apply Hx. rewrite <- (proj1 (NoDup_nth (s_id2col s) EmptyString) Nd y x); [exact Hy|apply Hr; right; exact Hy|apply Hr; left; reflexivity|exact E0]. }
  destruct (list2dict_total _ N) as (dc & ->). reflexivity.
Qed.
Theorem C104_select : forall s1 s2 c k, same_table s1 s2 -> 0 < k -> clear_cut c k (s_mat s1) -> same_tables (space_apply s1 (TFS c k)) (space_apply s2 (TFS c k)).
Proof.
  intros s1 s2 c k H Hk Hc. destruct (same_turned s1 s2 H) as (p & T & K). pose proof (st_ok1 _ _ H) as C1. pose proof (st_ok2 _ _ H) as C2. pose proof (st_labelled _ _ H) as Ne1. pose proof (st_labelled _ _ (table_back _ _ H)) as Ne2.
  pose proof (labelled_width _ C1 Ne1) as W1. pose proof (labelled_width _ C2 Ne2) as W2. pose proof C1 as (_&_&_&_&_&(N1&_)&_). pose proof C2 as (_&_&_&_&_&(N2&_)&_).
  destruct (C20_selection c k (s_mat s1) (tu_wf1 _ _ _ T) Hk) as (z1 & l1 & E1 & B1 & X1 & _ & R1 & M1 & V1). destruct (C20_selection c k (s_mat s2) (tu_wf2 _ _ _ T) Hk) as (z2 & l2 & E2 & B2 & X2 & _ & R2 & M2 & V2).
  pose proof (turn_selected p _ _ T c k l1 l2 B1 B2 Hc) as Fw.
  assert (Len : length l2 = length l1) by (rewrite (bc_length _ _ _ _ B1), (bc_length _ _ _ _ B2), (tu_nc _ _ _ T); reflexivity).
  pose proof (apply_fs s1 c k z1 l1 C1 Hk E1) as A1. pose proof (apply_fs s2 c k z2 l2 C2 Hk E2) as A2.
  rewrite fs_labels_ok in A1; [|exact Ne1|exact N1|apply B1|rewrite <- W1; apply B1]. rewrite fs_labels_ok in A2; [|exact Ne2|exact N2|apply B2|rewrite <- W2; apply B2].
  assert (As : assert_1dim_element s2 = assert_1dim_element s1) by (unfold assert_1dim_element; rewrite (st_shape _ _ H); reflexivity). rewrite As in A2.
  destruct (assert_1dim_element s1) as [[]|e]; cbn [bind] in A1, A2; [|rewrite A1, A2; reflexivity].
  destruct A1 as (s1' & -> & D1 & Z1 & Q1 & L1 & Sh1), A2 as (s2' & -> & D2 & Z2 & Q2 & L2 & Sh2). cbn [same_tables].
  assert (Pos : 0 < length l1). { rewrite (bc_length _ _ _ _ B1), W1. destruct (s_id2col s1); [contradiction|]. cbn [length]. lia. }
  assert (In2 : forall b, In b l2 -> exists a, In a l1 /\ p a = b).
  { assert (Np : NoDup (map p l1)).
    { assert (Rg : forall x, In x l1 -> x < m_nc (s_mat s1)) by apply B1. pose proof (bc_distinct _ _ _ _ B1) as Nd. clear - T Nd Rg. induction Nd as [|x l Hx Nd IH]; cbn [map]; constructor; [|apply IH; intros y Hy; apply Rg; right; exact Hy].
      intros J. apply in_map_iff in J. destruct J as (y & E0 & Hy). apply Hx. rewrite <- (tu_inj _ _ _ T y x); [exact Hy|apply Rg; right; exact Hy|apply Rg; left; reflexivity|exact E0]. }
    assert (Inc : incl (map p l1) l2) by (intros y Hy; apply in_map_iff in Hy; destruct Hy as (a & <- & Ha); apply Fw, Ha).
    apply (NoDup_length_incl Np) in Inc; [|rewrite map_length; lia]. intros b Hb. apply Inc in Hb. apply in_map_iff in Hb. destruct Hb as (a & E0 & Ha). exists a. auto. }
  assert (Lab : forall a, In a l1 -> nth (p a) (s_id2col s2) EmptyString = nth a (s_id2col s1) EmptyString).
  { intros a Ha. pose proof (bc_range _ _ _ _ B1 a Ha) as Ra. specialize (K a Ra). rewrite (nth_error_nth' (s_id2col s1) EmptyString) in K by lia. exact (nth_error_nth _ _ _ K). }
  split; try assumption; rewrite ?Q1, ?Q2, ?L1, ?L2, ?Sh1, ?Sh2, ?Z1, ?Z2; try apply H.
  - destruct l1; [cbn in Pos; lia|discriminate].
  - intros w. rewrite !in_map_iff. split.
    + intros (a & <- & Ha). exists (p a). split; [apply Lab, Ha|apply Fw, Ha].
    + intros (b & <- & Hb). destruct (In2 b Hb) as (a & Ha & <-). exists a. split; [symmetry; apply Lab, Ha|exact Ha].
  - rewrite M1, M2, Len. reflexivity.
  - rewrite R1. intros i a b w Hi Ha Hb. rewrite nth_error_map in Ha, Hb. destruct (nth_error l1 a) as [x|] eqn:Ex; [|discriminate]. destruct (nth_error l2 b) as [y|] eqn:Ey; [|discriminate]. cbn in Ha, Hb.
    rewrite V1, V2; [|rewrite (tu_nr _ _ _ T); exact Hi|exact (nth_error_lt _ _ _ Ey)|exact Hi|exact (nth_error_lt _ _ _ Ex)]. rewrite (nth_error_nth _ _ 0 Ex), (nth_error_nth _ _ 0 Ey).
    pose proof (bc_range _ _ _ _ B1 x (nth_error_In _ _ Ex)) as Rx. pose proof (bc_range _ _ _ _ B2 y (nth_error_In _ _ Ey)) as Ry.
    apply (st_entry _ _ H i x y w Hi); [rewrite (nth_error_nth' _ EmptyString) by lia; exact Ha|rewrite (nth_error_nth' _ EmptyString) by lia; exact Hb].
Qed.
(** *** chains: every selection in the chain makes a clear cut *)
Fixpoint clear_cuts (s : space) (ts : list transformation) : Prop :=
  match ts with
  | [] => True
  | t :: ts => (match t with TFS c k => clear_cut c k (s_mat s) | _ => True end) /\ forall s', space_apply s t = Ok s' -> clear_cuts s' ts
  end.
Theorem C104_chain : forall ts s1 s2, same_table s1 s2 -> Forall tr_ok ts -> Forall column_free ts -> clear_cuts s1 ts -> same_tables (apply_all s1 ts) (apply_all s2 ts).
Proof.
  induction ts as [|t ts IH]; intros s1 s2 H Ht Hf Hc; cbn [apply_all]; [exact H|]. inversion Ht; subst. inversion Hf; subst. destruct Hc as (Hc1 & Hc2).
  assert (K : same_tables (space_apply s1 t) (space_apply s2 t)).
  { destruct t as [sc|d k|c k]; [apply C104_scale, H|contradiction|apply C104_select; assumption]. }
  destruct (space_apply s1 t) as [a|e] eqn:Ea, (space_apply s2 t) as [b|e'] eqn:Eb; cbn [same_tables bind] in *; try contradiction; [|exact K]. apply IH; [exact K|assumption|assumption|apply Hc2; reflexivity].
Qed.
(** ** similarities *)
(** the space that is searched is absent on both sides, or its columns are ordered as those of the first space *)
Definition same_tables_opt (s1 s2 : space) (o1 o2 : option space) : Prop :=
  match o1, o2 with None, None => True | Some a, Some b => same_table a b /\ s_id2col a = s_id2col s1 /\ s_id2col b = s_id2col s2 | _, _ => False end.
Lemma sim_turned sim n p u v u' v' : (forall j, j < n -> p j < n) -> (forall j k, j < n -> k < n -> p j = p k -> j = k) -> (forall j, j < n -> u' (p j) = u j) -> (forall j, j < n -> v' (p j) = v j) ->
  sim_spec sim n u' v' = sim_spec sim n u v.
Proof.
  intros Hl Hi Hu Hv.
  assert (S : forall g : R -> R -> R, rsum n (fun j => g (u' j) (v' j)) = rsum n (fun j => g (u j) (v j))).
  { intros g. rewrite <- (rsum_perm n p (fun j => g (u' j) (v' j)) Hl Hi). apply rsum_ext. intros j Hj. rewrite Hu, Hv by exact Hj. reflexivity. }
  assert (Du : SpecReal.dot n u' u' = SpecReal.dot n u u) by exact (S (fun x y => x * x)%R). assert (Dv : SpecReal.dot n v' v' = SpecReal.dot n v v) by exact (S (fun x y => y * y)%R). assert (Duv : SpecReal.dot n u' v' = SpecReal.dot n u v) by exact (S Rmult).
  destruct sim; cbn [sim_spec].
  - unfold cosine, norm. rewrite Du, Dv, Duv. reflexivity.
  - exact Duv.
  - unfold euclid_score, norm. replace (SpecReal.dot n (fun i => u' i - v' i)%R (fun i => u' i - v' i)%R) with (SpecReal.dot n (fun i => u i - v i)%R (fun i => u i - v i)%R); [reflexivity|]. symmetry. exact (S (fun x y => (x - y) * (x - y))%R).
  - unfold lin_code. assert (E1 : rsum n u' = rsum n u) by exact (S (fun x y => x)). assert (E2 : rsum n v' = rsum n v) by exact (S (fun x y => y)). rewrite E1, E2. cbv zeta. destruct (Req_EM_T (rsum n u + rsum n v) 0); [reflexivity|]. f_equal. exact (S (fun x y => if Rlt_dec 0 (x * y) then x + y else 0)%R).
Qed.
Theorem C104_get_sim : forall s1 s2 o1 o2 w1 w2 sim, same_table s1 s2 -> same_tables_opt s1 s2 o1 o2 -> get_sim s2 w1 w2 sim o2 = get_sim s1 w1 w2 sim o1.
Proof.
  intros s1 s2 o1 o2 w1 w2 sim H Ho.
  assert (H2 : same_table (searched s1 o1) (searched s2 o2) /\ s_id2col (searched s1 o1) = s_id2col s1 /\ s_id2col (searched s2 o2) = s_id2col s2) by (destruct o1, o2; cbn in *; try contradiction; auto). destruct H2 as (H2 & Q1 & Q2).
  destruct (same_turned s1 s2 H) as (p & T & K). pose proof (st_ok1 _ _ H) as C1. pose proof (st_ok2 _ _ H) as C2. pose proof (st_ok1 _ _ H2) as D1. pose proof (st_ok2 _ _ H2) as D2.
  assert (Wd : m_nc (s_mat (searched s1 o1)) = m_nc (s_mat s1)) by (rewrite (labelled_width _ D1 (st_labelled _ _ H2)), (labelled_width _ C1 (st_labelled _ _ H)), Q1; reflexivity).
  assert (Wd2 : m_nc (s_mat (searched s2 o2)) = m_nc (s_mat s1)) by (rewrite (labelled_width _ D2 (st_labelled _ _ (table_back _ _ H2))), Q2, <- (tu_nc _ _ _ T); symmetry; apply labelled_width; [exact C2|apply (st_labelled _ _ (table_back _ _ H))]).
  destruct (in_dec string_dec w1 (s_id2row s1)) as [I1|I1].
  2:{ rewrite !C10_get_sim_missing; auto. left. rewrite (st_rows _ _ H). exact I1. }
  destruct (in_dec string_dec w2 (s_id2row (searched s1 o1))) as [I2|I2].
  2:{ rewrite !C10_get_sim_missing; auto. right. rewrite (st_rows _ _ H2). exact I2. }
  apply In_nth_error in I1, I2. destruct I1 as (a & Ha), I2 as (b & Hb).
  rewrite (get_sim_rows s1 o1 w1 w2 a b (m_nc (s_mat s1)) sim C1 D1 Ha Hb eq_refl Wd).
  rewrite (get_sim_rows s2 o2 w1 w2 a b (m_nc (s_mat s1)) sim C2 D2); [|rewrite (st_rows _ _ H); exact Ha|rewrite (st_rows _ _ H2); exact Hb|apply T|exact Wd2].
  f_equal. pose proof C1 as (_&L1&_). pose proof D1 as (_&L2&_). pose proof (nth_error_lt _ _ _ Ha). pose proof (nth_error_lt _ _ _ Hb).
  apply (sim_turned sim _ p); try apply T; intros j Hj.
  - apply T; [lia|exact Hj].
  - destruct (nth_error (s_id2col s1) j) as [c|] eqn:Ej; [|apply nth_error_None in Ej; rewrite (labelled_width _ C1 (st_labelled _ _ H)) in Hj; lia].
    apply (st_entry _ _ H2 b j (p j) c); [lia|rewrite Q1; exact Ej|rewrite Q2, K by exact Hj; exact Ej].
Qed.
Theorem C104_neighbours : forall s1 s2 o1 o2 w k sim, same_table s1 s2 -> same_tables_opt s1 s2 o1 o2 -> get_neighbours s2 w k sim o2 = get_neighbours s1 w k sim o1.
Proof.
  intros s1 s2 o1 o2 w k sim H Ho.
  assert (H2 : same_table (searched s1 o1) (searched s2 o2) /\ s_id2col (searched s1 o1) = s_id2col s1 /\ s_id2col (searched s2 o2) = s_id2col s2) by (destruct o1, o2; cbn in *; try contradiction; auto). destruct H2 as (H2 & Q1 & Q2).
  pose proof (st_ok1 _ _ H) as C1. pose proof (st_ok2 _ _ H) as C2. pose proof (st_ok1 _ _ H2) as D1. pose proof (st_ok2 _ _ H2) as D2.
  pose proof (table_back _ _ H) as H'. pose proof (table_back _ _ H2) as H2'.
  destruct (in_dec string_dec w (s_id2row s1)) as [I1|I1].
  2:{ rewrite !C09_missing; try assumption; [reflexivity|]. rewrite (st_rows _ _ H). exact I1. }
  destruct (C09_neighbours s1 w k sim o1 C1 D1 I1) as (x & sc & -> & T & S); [rewrite (labelled_width _ C1 (st_labelled _ _ H)), (labelled_width _ D1 (st_labelled _ _ H2)), Q1; reflexivity|].
  destruct (C09_neighbours s2 w k sim o2 C2 D2) as (x' & sc' & -> & T' & S'); [rewrite (st_rows _ _ H); exact I1|rewrite (labelled_width _ C2 (st_labelled _ _ H')), (labelled_width _ D2 (st_labelled _ _ H2')), Q2; reflexivity|]. f_equal. symmetry.
  rewrite (st_rows _ _ H2) in T', S'. pose proof D1 as (_&_&_&(Nd&_)&_).
  assert (G : forall v p q, nth_error (s_id2row (searched s1 o1)) p = Some v -> nth_error (s_id2row (searched s1 o1)) q = Some v -> sc p = sc' q).
  { intros v p q Hp Hq. pose proof (S _ _ Hp) as A. pose proof (S' _ _ Hq) as B. rewrite (C104_get_sim s1 s2 o1 o2 w v sim H Ho) in B. congruence. }
  symmetry. apply nth_error_ext; [exact (eq_trans (tk_length _ _ _ _ T') (eq_sym (tk_length _ _ _ _ T)))|].
  intros a [y u] [y' u'] Ha Hb. rewrite (rank_le _ _ _ _ _ _ _ _ T T' Nd (fun w => iff_refl _) G a y u y' u' Ha Hb). f_equal. symmetry.
  exact (rank_same _ _ _ _ _ _ _ _ T T' Nd (fun w => iff_refl _) G eq_refl a y u y' u' Ha Hb).
Qed.
End Spaces.
