(** Prop_ZeroPeriph.v -- property C106, continued: peripheral spaces. *)
From Coq Require Import Reals Lra Psatz Permutation Sorted.
From Verif Require Import Base PyList Dict Num SpecReal Dense Sparse Matrix PSparse PMatrix PMatOps PShape PVals PReal PPos PSort Scaling Linalg Operation
  Similarity Space Peripheral SpecSpace PDictList PSpace Prop_Space Prop_Scaling PProj Prop_Periph PCols Prop_Order Prop_Counts PMoved Prop_Transpose Prop_ColOrder Prop_ColOrder2 Prop_Zeros Prop_Zeros2.
#[local] Existing Instance RNum.
Local Open Scope R_scope.
Local Open Scope string_scope.
Local Open Scope list_scope.
Local Open Scope nat_scope.
Section Spaces.
Context {E : @Ext RNum}.

(** ** matrices with labels *)
Record labelled (Rw L : list string) (m : matrix) : Prop := {
  lb_wf : mwf m; lb_rows : length Rw = m_nr m; lb_cols : length L = m_nc m; lb_nr : NoDup Rw; lb_nc : NoDup L }.
Definition tval (Rw L : list string) (m : matrix) (w c : string) : R :=
  if in_dec string_dec w Rw then if in_dec string_dec c L then ment m (position w Rw) (position c L) else 0%R else 0%R.
Definition same_tab (R1 L1 : list string) (m1 : matrix) (R2 L2 : list string) (m2 : matrix) : Prop :=
  labelled R1 L1 m1 /\ labelled R2 L2 m2 /\ forall w c, tval R2 L2 m2 w c = tval R1 L1 m1 w c.
Lemma tval_at Rw L m i j w c : labelled Rw L m -> nth_error Rw i = Some w -> nth_error L j = Some c -> tval Rw L m w c = ment m i j.
Proof.
  intros H Hi Hj. unfold tval. destruct (in_dec string_dec w Rw) as [K|K]; [|exfalso; exact (K (nth_error_In _ _ Hi))]. destruct (in_dec string_dec c L) as [K'|K']; [|exfalso; exact (K' (nth_error_In _ _ Hj))].
  rewrite (position_at _ i w (lb_nr _ _ _ H) Hi), (position_at _ j c (lb_nc _ _ _ H) Hj). reflexivity.
Qed.
Lemma tval_no_word Rw L m w c : ~ In w Rw -> tval Rw L m w c = 0%R.
Proof. intros H. unfold tval. destruct (in_dec string_dec w Rw); [contradiction|reflexivity]. Qed.
Lemma tval_no_label Rw L m w c : ~ In c L -> tval Rw L m w c = 0%R.
Proof. intros H. unfold tval. destruct (in_dec string_dec w Rw); [|reflexivity]. destruct (in_dec string_dec c L); [contradiction|reflexivity]. Qed.
Lemma tab_back R1 L1 m1 R2 L2 m2 : same_tab R1 L1 m1 R2 L2 m2 -> same_tab R2 L2 m2 R1 L1 m1.
Proof. intros (A & B & C). split; [exact B|]. split; [exact A|]. intros w c. symmetry. apply C. Qed.
Lemma tab_negative R1 L1 m1 R2 L2 m2 : same_tab R1 L1 m1 R2 L2 m2 -> (exists i j, i < m_nr m1 /\ j < m_nc m1 /\ (ment m1 i j < 0)%R) -> exists i j, i < m_nr m2 /\ j < m_nc m2 /\ (ment m2 i j < 0)%R.
Proof.
  intros (A & B & V) (i & j & Hi & Hj & K). rewrite <- (lb_rows _ _ _ A) in Hi. rewrite <- (lb_cols _ _ _ A) in Hj.
  pose proof (nth_error_nth' R1 EmptyString Hi) as Ei. pose proof (nth_error_nth' L1 EmptyString Hj) as Ej. set (w := nth i R1 EmptyString) in *. set (c := nth j L1 EmptyString) in *.
  rewrite <- (tval_at R1 L1 m1 i j w c A Ei Ej), <- V in K.
  destruct (in_dec string_dec w R2) as [I1|I1]; [|rewrite tval_no_word in K by exact I1; lra]. destruct (in_dec string_dec c L2) as [I2|I2]; [|rewrite tval_no_label in K by exact I2; lra].
  apply In_nth_error in I1, I2. destruct I1 as (a & Ha), I2 as (b & Hb). rewrite (tval_at R2 L2 m2 a b w c B Ha Hb) in K. exists a, b.
  rewrite <- (lb_rows _ _ _ B), <- (lb_cols _ _ _ B). split; [exact (nth_error_lt _ _ _ Ha)|]. split; [exact (nth_error_lt _ _ _ Hb)|exact K].
Qed.
(** ** what the cores remember *)
(** the number stored for a label *)
Definition lab_val (L : list string) (l : list R) (c : string) : R := if in_dec string_dec c L then nth (position c L) l 0%R else 0%R.
Definition op_same (L1 L2 : list string) (o1 o2 : operation) (L1' L2' : list string) : Prop :=
  match o1, o2 with
  | OpScale s1 st1, OpScale s2 st2 => s1 = s2 /\ L1' = L1 /\ L2' = L2 /\
      match s1 with
      | Epmi | Ppmi | Plmi => exists l1 l2, st1 = Some (SCol l1) /\ st2 = Some (SCol l2) /\ length l1 = length L1 /\ length l2 = length L2 /\ forall c, lab_val L2 l2 c = lab_val L1 l1 c
      | Norm _ => exists x, st1 = Some (SScal x) /\ st2 = Some (SScal x)
      | _ => True end
  | OpFS _ _ (Some l1) _, OpFS _ _ (Some l2) _ => L1' = map (fun j => nth j L1 EmptyString) l1 /\ L2' = map (fun j => nth j L2 EmptyString) l2 /\ NoDup L1' /\ NoDup L2' /\
      0 < length l1 /\ 0 < length l2 /\ (forall j, In j l1 -> j < length L1) /\ (forall j, In j l2 -> j < length L2) /\
      (forall c, In c L1' -> In c L2') /\ (forall c, In c L2' -> ~ In c L1' -> ~ In c L1)
  | _, _ => False end.
Inductive ops_same : list string -> list string -> list operation -> list operation -> list string -> list string -> Prop :=
| OS_nil L1 L2 : ops_same L1 L2 [] [] L1 L2
| OS_cons L1 L2 o1 o2 M1 M2 l1 l2 N1 N2 : op_same L1 L2 o1 o2 M1 M2 -> ops_same M1 M2 l1 l2 N1 N2 -> ops_same L1 L2 (o1 :: l1) (o2 :: l2) N1 N2.

(** ** a row, by labels *)
Definition l_epmi_row (L : list string) (l : list R) (u : string -> R) (c : string) : R :=
  (u c * @finv0 RNum (lsum L u) * (@finv0 RNum (lab_val L l c) * lsum L (lab_val L l)))%R.
Definition l_map (o : operation) (L : list string) (u : string -> R) (c : string) : R :=
  match o with
  | OpScale Epmi st => l_epmi_row L (col_marg st) u c
  | OpScale Ppmi st => plogf (l_epmi_row L (col_marg st) u c)
  | OpScale Plmi st => (u c * plogf (l_epmi_row L (col_marg st) u c))%R
  | OpScale Plog _ => plogf (u c)
  | OpScale (RowNorm CSum) _ => (u c * @finv0 RNum (lsum L u))%R
  | OpScale (RowNorm CLength) _ => (u c * @finv0 RNum (sqrt (lsum L (fun c => u c * u c)%R)))%R
  | OpScale (Norm _) (Some (SScal t)) => if Req_EM_T t 0 then u c else (u c * (1 / t))%R
  | _ => u c
  end.
Lemma lab_val_at L l j c : NoDup L -> nth_error L j = Some c -> lab_val L l c = nth j l 0%R.
Proof. intros Nd Hj. unfold lab_val. destruct (in_dec string_dec c L) as [K|K]; [|exfalso; exact (K (nth_error_In _ _ Hj))]. rewrite (position_at L j c Nd Hj). reflexivity. Qed.
Lemma row_map_label o L L' (x : nat -> R) u j c : NoDup L -> (forall k d, nth_error L k = Some d -> x k = u d) -> nth_error L' j = Some c ->
  match o with OpScale _ _ => L' = L | OpFS _ _ (Some l) _ => L' = map (fun j => nth j L EmptyString) l /\ forall j, In j l -> j < length L | _ => False end ->
  row_map o (length L) x j = l_map o L u c.
Proof.
  intros Nd Hx Hj HL. assert (Sx : forall g : R -> R, rsum (length L) (fun k => g (x k)) = lsum L (fun d => g (u d))) by (intros g; apply rsum_labels; intros k d Hk; rewrite (Hx k d Hk); reflexivity).
  assert (S1 : rsum (length L) x = lsum L u) by exact (Sx (fun y => y)).
  destruct o as [sc st|d k tm|cr k [l|] or]; try contradiction.
  - subst L'. pose proof (Hx j c Hj) as Xj.
    assert (Ep : epmi_row (col_marg st) (length L) x j = l_epmi_row L (col_marg st) u c).
    { unfold epmi_row, l_epmi_row. rewrite Xj, S1. rewrite (lab_val_at L (col_marg st) j c Nd Hj). rewrite (rsum_labels L (lab_val L (col_marg st))); [reflexivity|]. intros i d Hi. symmetry. apply lab_val_at; assumption. }
    destruct sc as [| | | |cr|cr]; cbn [row_map l_map]; rewrite ?Ep, ?Xj; try reflexivity.
    destruct cr; [rewrite S1; reflexivity|]. unfold norm, SpecReal.dot. rewrite (Sx (fun y => y * y)%R). reflexivity.
  - cbn [row_map l_map]. destruct HL as (-> & Rg). rewrite nth_error_map in Hj. destruct (nth_error l j) as [y|] eqn:Ey; [|discriminate]. cbn in Hj. rewrite (nth_error_nth _ _ 0 Ey). apply Hx.
    rewrite (nth_error_nth' L EmptyString) by (apply Rg; exact (nth_error_In _ _ Ey)). exact Hj.
Qed.
Lemma plogf0 : plogf 0%R = 0%R.
Proof. unfold plogf. destruct (Rlt_dec 0 1); [reflexivity|lra]. Qed.
Lemma l_map_zero o L u c : u c = 0%R -> l_map o L u c = 0%R.
Proof.
  intros Z. assert (Ep : forall l, l_epmi_row L l u c = 0%R) by (intros l; unfold l_epmi_row; rewrite Z; ring).
  destruct o as [sc st|d k tm|cr k sel or]; cbn [l_map]; try exact Z. destruct sc as [| | | |cr|cr]; rewrite ?Ep, ?Z, ?plogf0; try lra; try reflexivity.
  - destruct cr; apply Rmult_0_l.
  - destruct st as [[]|]; try reflexivity. destruct (Req_EM_T _ _); [reflexivity|apply Rmult_0_l].
Qed.
Lemma l_map_same L1 L2 o1 o2 M1 M2 u c : NoDup L1 -> NoDup L2 -> op_same L1 L2 o1 o2 M1 M2 -> (forall d, ~ In d L1 -> u d = 0%R) -> (forall d, ~ In d L2 -> u d = 0%R) -> l_map o2 L2 u c = l_map o1 L1 u c.
Proof.
  intros N1 N2 HO Z1 Z2. assert (S1 : lsum L2 u = lsum L1 u) by (apply lsum_same; assumption).
  assert (S2 : lsum L2 (fun c => u c * u c)%R = lsum L1 (fun c => u c * u c)%R) by (apply lsum_same; try assumption; intros d Hd; [rewrite (Z2 d Hd)|rewrite (Z1 d Hd)]; lra).
  destruct o1 as [sc st1|d k tm|cr k [l1|] or1], o2 as [sc2 st2|d2 k2 tm2|cr2 k2 [l2|] or2]; cbn [op_same] in HO; try contradiction; [|reflexivity].
  destruct HO as (<- & _ & _ & HO).
  assert (Ep : forall l1 l2, length l1 = length L1 -> length l2 = length L2 -> (forall c, lab_val L2 l2 c = lab_val L1 l1 c) -> l_epmi_row L2 l2 u c = l_epmi_row L1 l1 u c).
  { intros l1 l2 _ _ Hl. unfold l_epmi_row. rewrite S1, Hl. replace (lsum L2 (lab_val L2 l2)) with (lsum L1 (lab_val L1 l1)); [reflexivity|]. rewrite (lsum_ext L2 _ (lab_val L1 l1)) by (intros d _; apply Hl).
    apply lsum_same; try assumption; intros d Hd; [|rewrite <- Hl]; unfold lab_val; destruct (in_dec string_dec d _); try contradiction; reflexivity. }
  destruct sc as [| | | |cr|cr]; cbn [l_map]; try (destruct HO as (l1 & l2 & -> & -> & A & B & Hl); cbn [col_marg]; rewrite (Ep l1 l2 A B Hl); reflexivity); [reflexivity| |].
  - destruct cr; rewrite ?S1, ?S2; reflexivity.
  - destruct HO as (x & -> & ->). reflexivity.
Qed.
(** ** projecting *)
Lemma op_same_shape L1 L2 o1 o2 M1 M2 : op_same L1 L2 o1 o2 M1 M2 -> shape_ok o1 (length L1) /\ shape_ok o2 (length L2) /\ out_cols o1 (length L1) = length M1 /\ out_cols o2 (length L2) = length M2 /\ op_wf o1 /\ op_wf o2.
Proof.
  intros HO. destruct o1 as [sc st1|d k tm|cr k [l1|] or1], o2 as [sc2 st2|d2 k2 tm2|cr2 k2 [l2|] or2]; cbn [op_same] in HO; try contradiction.
  - destruct HO as (<- & -> & -> & HO). assert (W : @op_wf RNum (OpScale sc st1) /\ @op_wf RNum (OpScale sc st2)) by (split; exact Logic.I). destruct W as (W1 & W2).
    destruct sc as [| | | |cr|cr]; cbn [shape_ok out_cols]; try (destruct HO as (l1 & l2 & -> & -> & L1' & L2' & _)); try (destruct HO as (x & -> & ->)); auto 10.
  - destruct HO as (-> & -> & _ & _ & P1 & P2 & R1 & R2 & _). cbn [shape_ok out_cols]. rewrite !map_length.
    split; [split; [apply Forall_forall; exact R1|exact P1]|]. split; [split; [apply Forall_forall; exact R2|exact P2]|]. split; [reflexivity|]. split; [reflexivity|]. split; exact Logic.I.
Qed.
Lemma op_same_labels L1 L2 o1 o2 M1 M2 : NoDup L1 -> NoDup L2 -> op_same L1 L2 o1 o2 M1 M2 -> NoDup M1 /\ NoDup M2 /\ incl M1 L1 /\ incl M2 L2 /\
  match o1 with OpScale _ _ => M1 = L1 | OpFS _ _ (Some l) _ => M1 = map (fun j => nth j L1 EmptyString) l /\ forall j, In j l -> j < length L1 | _ => False end /\
  match o2 with OpScale _ _ => M2 = L2 | OpFS _ _ (Some l) _ => M2 = map (fun j => nth j L2 EmptyString) l /\ forall j, In j l -> j < length L2 | _ => False end.
Proof.
  intros N1 N2 HO. destruct o1 as [sc st1|d k tm|cr k [l1|] or1], o2 as [sc2 st2|d2 k2 tm2|cr2 k2 [l2|] or2]; cbn [op_same] in HO; try contradiction.
  - destruct HO as (_ & -> & -> & _). split; [exact N1|]. split; [exact N2|]. split; [apply incl_refl|]. split; [apply incl_refl|]. split; reflexivity.
  - destruct HO as (-> & -> & A & B & _ & _ & R1 & R2 & _). split; [exact A|]. split; [exact B|]. split; [|split; [|auto]]; intros c Hc; apply in_map_iff in Hc; destruct Hc as (j & <- & Hj); apply nth_In; auto.
Qed.
Lemma projected_label o L M m Rw z : labelled Rw L m -> op_wf o -> shape_ok o (length L) -> out_cols o (length L) = length M -> NoDup M -> incl M L ->
  match o with OpScale _ _ => M = L | OpFS _ _ (Some l) _ => M = map (fun j => nth j L EmptyString) l /\ forall j, In j l -> j < length L | _ => False end ->
  op_project o m = Ok z -> labelled Rw M z /\ forall w c, tval Rw M z w c = if in_dec string_dec c M then l_map o L (tval Rw L m w) c else 0%R.
Proof.
  intros H W Sh Out Nd Inc HM Hz. pose proof (vals_self _ (lb_wf _ _ _ H)) as V. rewrite <- (lb_rows _ _ _ H), <- (lb_cols _ _ _ H) in V.
  destruct (project_bwd o m _ _ _ _ z W V Hz) as (_ & Rk). destruct (project_fwd o m _ _ _ _ W V Sh Rk) as (z' & Hz' & X). assert (z' = z) by congruence. subst z'. rewrite Out in X.
  pose proof (vals_has _ _ _ _ _ X) as (Wz & _ & Rz & Cz).
  assert (Lz : labelled Rw M z) by (constructor; [exact Wz|symmetry; exact Rz|symmetry; exact Cz|apply H|exact Nd]). split; [exact Lz|]. intros w c.
  destruct (in_dec string_dec c M) as [Ic|Ic]; [|apply tval_no_label, Ic]. destruct (in_dec string_dec w Rw) as [Iw|Iw].
  - apply In_nth_error in Iw, Ic. destruct Iw as (i & Hi), Ic as (j & Hj). rewrite (tval_at Rw M z i j w c Lz Hi Hj).
    rewrite (vals_ent _ _ _ _ _ i j X (nth_error_lt _ _ _ Hi) (nth_error_lt _ _ _ Hj)). apply (row_map_label o L M); [apply H| |exact Hj|exact HM].
    intros k d Hk. symmetry. apply tval_at; assumption.
  - rewrite tval_no_word by exact Iw. symmetry. apply l_map_zero. apply tval_no_word, Iw.
Qed.
Lemma op_same_rest L1 L2 o1 o2 M1 M2 : op_same L1 L2 o1 o2 M1 M2 -> (forall c, In c M1 -> ~ In c M2 -> ~ In c L2) /\ (forall c, In c M2 -> ~ In c M1 -> ~ In c L1).
Proof.
  intros HO. destruct o1 as [sc st1|d k tm|cr k [l1|] or1], o2 as [sc2 st2|d2 k2 tm2|cr2 k2 [l2|] or2]; cbn [op_same] in HO; try contradiction.
  - destruct HO as (_ & -> & -> & _). split; intros; assumption.
  - destruct HO as (_ & _ & _ & _ & _ & _ & _ & _ & A & B). split; [|exact B]. intros c Hc Hn _. exact (Hn (A c Hc)).
Qed.
Lemma project_same R1 L1 m1 R2 L2 m2 o1 o2 M1 M2 : same_tab R1 L1 m1 R2 L2 m2 -> op_same L1 L2 o1 o2 M1 M2 ->
  match op_project o1 m1, op_project o2 m2 with Ok z1, Ok z2 => same_tab R1 M1 z1 R2 M2 z2 | Err e, Err e' => e = e' | _, _ => False end.
Proof.
  intros T HO. pose proof T as (A & B & V). pose proof (lb_nc _ _ _ A) as N1. pose proof (lb_nc _ _ _ B) as N2.
  destruct (op_same_shape _ _ _ _ _ _ HO) as (S1 & S2 & U1 & U2 & W1 & W2). destruct (op_same_labels _ _ _ _ _ _ N1 N2 HO) as (D1 & D2 & I1 & I2 & HM1 & HM2).
  assert (Good : forall z1 z2, op_project o1 m1 = Ok z1 -> op_project o2 m2 = Ok z2 -> same_tab R1 M1 z1 R2 M2 z2).
  { intros z1 z2 E1 E2. destruct (projected_label o1 L1 M1 m1 R1 z1 A W1 S1 U1 D1 I1 HM1 E1) as (A' & V1). destruct (projected_label o2 L2 M2 m2 R2 z2 B W2 S2 U2 D2 I2 HM2 E2) as (B' & V2).
    split; [exact A'|]. split; [exact B'|]. intros w c. rewrite V1, V2.
    assert (Z1 : forall d, ~ In d L1 -> tval R1 L1 m1 w d = 0%R) by (intros d Hd; apply tval_no_label, Hd). assert (Z2 : forall d, ~ In d L2 -> tval R1 L1 m1 w d = 0%R) by (intros d Hd; rewrite <- V; apply tval_no_label, Hd).
    assert (Eq : l_map o2 L2 (tval R2 L2 m2 w) c = l_map o1 L1 (tval R1 L1 m1 w) c).
    { rewrite <- (l_map_same L1 L2 o1 o2 M1 M2 (tval R1 L1 m1 w) c N1 N2 HO Z1 Z2).
      assert (Ex : forall d, tval R2 L2 m2 w d = tval R1 L1 m1 w d) by (intros d; apply V). assert (Sx : forall g, lsum L2 (fun d => g (tval R2 L2 m2 w d)) = lsum L2 (fun d => g (tval R1 L1 m1 w d))) by (intros g; apply lsum_ext; intros d _; rewrite Ex; reflexivity).
      assert (S0 : lsum L2 (tval R2 L2 m2 w) = lsum L2 (tval R1 L1 m1 w)) by exact (Sx (fun y => y)).
      unfold l_map, l_epmi_row. rewrite Ex, S0. destruct o2 as [sc st|d k tm|cr k sel or]; try reflexivity. destruct sc as [| | | |cr|cr]; try reflexivity. destruct cr; [reflexivity|]. rewrite (Sx (fun y => y * y)%R). reflexivity. }
    rewrite Eq. destruct (op_same_rest _ _ _ _ _ _ HO) as (Q1 & Q2). destruct (in_dec string_dec c M1) as [J1|J1], (in_dec string_dec c M2) as [J2|J2]; try reflexivity.
    - symmetry. apply l_map_zero, Z2, Q1; assumption.
    - apply l_map_zero, Z1, Q2; assumption. }
  pose proof (vals_self _ (lb_wf _ _ _ A)) as X1. rewrite <- (lb_rows _ _ _ A), <- (lb_cols _ _ _ A) in X1. pose proof (vals_self _ (lb_wf _ _ _ B)) as X2. rewrite <- (lb_rows _ _ _ B), <- (lb_cols _ _ _ B) in X2.
  assert (FW : (forall i, i < length R1 -> row_ok o1 (length L1) (ment m1 i)) -> (forall i, i < length R2 -> row_ok o2 (length L2) (ment m2 i)) ->
     match op_project o1 m1, op_project o2 m2 with Ok z1, Ok z2 => same_tab R1 M1 z1 R2 M2 z2 | Err e, Err e' => e = e' | _, _ => False end).
  { intros P1 P2. destruct (project_fwd o1 m1 _ _ _ _ W1 X1 S1 P1) as (z1 & E1 & _). destruct (project_fwd o2 m2 _ _ _ _ W2 X2 S2 P2) as (z2 & E2 & _). rewrite E1, E2. exact (Good z1 z2 E1 E2). }
  destruct o1 as [sc st1|d k tm|cr k [l1|] or1], o2 as [sc2 st2|d2 k2 tm2|cr2 k2 [l2|] or2]; try (exfalso; exact HO); [|apply FW; intros; exact Logic.I].
  assert (Neg : (non_negative m1 /\ non_negative m2) \/ (m_assert_positive m1 = Err ValueError /\ m_assert_positive m2 = Err ValueError)).
  { assert (Asp : forall m, mwf m -> (exists i j, i < m_nr m /\ j < m_nc m /\ (ment m i j < 0)%R) -> m_assert_positive m = Err ValueError).
    { intros m Wm (i & j & Hi & Hj & K). destruct (assert_positive_iff m Wm) as (Q & [D|D]); [|exact D]. exfalso. pose proof (proj1 Q D i j Hi Hj). lra. }
    destruct (non_negative_dec m1) as [P|P]; [destruct (non_negative_dec m2) as [P2|P2]; [left; auto|]|].
    - exfalso. destruct (tab_negative _ _ _ _ _ _ (tab_back _ _ _ _ _ _ T) P2) as (i & j & Hi & Hj & K). pose proof (P i j Hi Hj). lra.
    - right. split; apply Asp; [apply A|exact P|apply B|exact (tab_negative _ _ _ _ _ _ T P)]. }
  destruct Neg as [(P1 & P2)|(A1 & A2)].
  - pose proof HO as (<- & _). apply FW; intros i Hi; destruct sc; cbn [row_ok]; try exact Logic.I; intros j Hj;
      first [apply P1; [rewrite <- (lb_rows _ _ _ A); exact Hi|rewrite <- (lb_cols _ _ _ A); exact Hj]|apply P2; [rewrite <- (lb_rows _ _ _ B); exact Hi|rewrite <- (lb_cols _ _ _ B); exact Hj]].
  - pose proof HO as (<- & _ & _ & HS). destruct sc as [| | | |cr|cr]; try (apply FW; intros; exact Logic.I).
    all: destruct HS as (l1 & l2 & -> & -> & _); cbn [op_project uses_column_stats scaling_apply]; unfold plmi_apply, ppmi_apply, epmi_apply; rewrite A1, A2; reflexivity.
Qed.
Lemma project_all_same : forall L1 L2 l1 l2 N1 N2, ops_same L1 L2 l1 l2 N1 N2 -> forall R1 m1 R2 m2, same_tab R1 L1 m1 R2 L2 m2 ->
  match project_all l1 m1, project_all l2 m2 with Ok z1, Ok z2 => same_tab R1 N1 z1 R2 N2 z2 | Err e, Err e' => e = e' | _, _ => False end.
Proof.
  induction 1 as [L1 L2|L1 L2 o1 o2 M1 M2 l1 l2 N1 N2 HO _ IH]; intros R1 m1 R2 m2 T; cbn [project_all]; [exact T|].
  pose proof (project_same R1 L1 m1 R2 L2 m2 o1 o2 M1 M2 T HO) as Q. destruct (op_project o1 m1) as [z1|], (op_project o2 m2) as [z2|]; try contradiction; cbn [bind]; [|exact Q]. apply IH, Q.
Qed.
(** ** recording *)
(** a clear cut that keeps no column with score zero *)
Definition sharp_cut (c : crit) (k : nat) (m : matrix) : Prop :=
  clear_cut0 c k m /\ forall sel a, best_columns (m_nc m) k (col_score c m) sel -> In a sel -> col_score c m a <> 0%R.
Fixpoint sharp_cuts (s : space) (ts : list transformation) : Prop :=
  match ts with
  | [] => True
  | t :: ts => (match t with TFS c k => (c = CLength \/ non_negative (s_mat s)) /\ sharp_cut c k (s_mat s) | _ => True end) /\ forall s', space_apply s t = Ok s' -> sharp_cuts s' ts
  end.
Lemma sharp_clear ts : forall s, sharp_cuts s ts -> clear_cuts0 s ts.
Proof. induction ts as [|t ts IH]; intros s H; [exact Logic.I|]. destruct H as (A & B). split; [|intros s' Hs; apply IH, B, Hs]. destruct t; try exact Logic.I. destruct A as (A1 & A2 & _). split; assumption. Qed.
Lemma stored_sums s c : consistent s -> s_id2col s <> [] -> lab_val (s_id2col s) (m_sum0 (s_mat s)) c = ctsum s id1 c.
Proof.
  intros C Hl. pose proof C as (_&_&_&_&_&(Nd&_)&_). unfold lab_val. destruct (in_dec string_dec c (s_id2col s)) as [I0|I0].
  - pose proof (position_ok c _ I0) as Hj. pose proof (nth_m_sum0_R (s_mat s) (position c (s_id2col s)) (col_bound s _ c C Hj)) as A. refine (eq_trans A _). exact (at_col_sum s C _ c Hj).
  - symmetry. apply lsum_zero. intros w _. apply value_no_label, I0.
Qed.
Lemma record_zeros s1 s2 t a1 a2 : same_counts s1 s2 -> tr_ok t -> column_free t -> (match t with TFS c k => (c = CLength \/ non_negative (s_mat s1)) /\ sharp_cut c k (s_mat s1) | _ => True end) ->
  space_apply s1 t = Ok a1 -> space_apply s2 t = Ok a2 ->
  exists o1 o2, s_ops a1 = s_ops s1 ++ [o1] /\ s_ops a2 = s_ops s2 ++ [o2] /\ op_same (s_id2col s1) (s_id2col s2) o1 o2 (s_id2col a1) (s_id2col a2) /\ same_counts a1 a2.
Proof.
  intros H Ht Hf Hc E1 E2. pose proof (sc_ok1 _ _ H) as C1. pose proof (sc_ok2 _ _ H) as C2. pose proof (sc_lab1 _ _ H) as Ne1. pose proof (sc_lab2 _ _ H) as Ne2.
  assert (ST : same_counts a1 a2).
  { assert (Q : same_results (space_apply s1 t) (space_apply s2 t)) by (destruct t as [sc|d k|c k]; [apply C106_scale, H|contradiction|apply C106_select; [exact H|exact Ht|apply Hc|apply Hc]]). rewrite E1, E2 in Q. exact Q. }
  destruct (space_apply_ok _ _ _ C1 Ht E1) as (z1 & o1 & b1 & ic1 & ci1 & A1 & Es1 & Eo1 & L1 & _). destruct (space_apply_ok _ _ _ C2 Ht E2) as (z2 & o2 & b2 & ic2 & ci2 & A2 & Es2 & Eo2 & L2 & _).
  exists o1, o2. destruct t as [sc|d k|c k]; [|contradiction|]; cbn [create_operation op_apply] in A1, A2.
  - destruct (scaling_apply sc (s_mat s1) None) as [w1|] eqn:W1; [|discriminate]. destruct (scaling_apply sc (s_mat s2) None) as [w2|] eqn:W2; [|discriminate]. cbn [bind] in A1, A2.
    assert (B1 : b1 = OpScale sc (if uses_column_stats sc then Some (get_column_stats sc (s_mat s1)) else None)) by congruence. assert (B2 : b2 = OpScale sc (if uses_column_stats sc then Some (get_column_stats sc (s_mat s2)) else None)) by congruence.
    destruct L1 as (-> & ->), L2 as (-> & ->). split; [subst a1; reflexivity|]. split; [subst a2; reflexivity|]. split; [|exact ST].
    replace (s_id2col a1) with (s_id2col s1) by (subst a1; reflexivity). replace (s_id2col a2) with (s_id2col s2) by (subst a2; reflexivity).
    rewrite Eo1, Eo2, B1, B2. cbn [op_same]. split; [reflexivity|]. split; [reflexivity|]. split; [reflexivity|].
    destruct sc as [| | | |cr|cr]; cbn [uses_column_stats get_column_stats]; try exact Logic.I.
    1-3: exists (m_sum0 (s_mat s1)), (m_sum0 (s_mat s2)); split; [reflexivity|]; split; [reflexivity|]; split; [rewrite m_sum0_length; apply labelled_width; assumption|]; split; [rewrite m_sum0_length; apply labelled_width; assumption|];
         intros c; rewrite !stored_sums by assumption; apply ctsum_same; [exact H|reflexivity].
    destruct cr.
    + exists (m_sum (s_mat s1)). split; [reflexivity|]. do 2 f_equal. refine (eq_trans (m_sum_R _) (eq_trans _ (eq_sym (m_sum_R _)))). refine (eq_trans (at_size s2 C2 Ne2 CSum) (eq_trans _ (eq_sym (at_size s1 C1 Ne1 CSum)))). rewrite (tsum_same _ _ H) by apply measure0. reflexivity.
    + exists (m_norm (s_mat s1)). split; [reflexivity|]. do 2 f_equal. refine (eq_trans (m_norm_R _ (proj1 C2)) (eq_trans _ (eq_sym (m_norm_R _ (proj1 C1))))). refine (eq_trans (at_size s2 C2 Ne2 CLength) (eq_trans _ (eq_sym (at_size s1 C1 Ne1 CLength)))). rewrite (tsum_same _ _ H) by apply measure0. reflexivity.
  - destruct Hc as (Hn & Hcut & Hpos). change (0 < k) in Ht.
    destruct (selected_space s1 c k C1 Ne1 Ht) as [(e & _ & Q)|(_ & t1 & K1 & l1 & Q1 & _ & Cl1 & _ & _ & Bc1 & EK1 & N1 & I1 & Len1 & _ & B1)]; [congruence|]. assert (t1 = a1) by congruence. subst t1.
    destruct (selected_space s2 c k C2 Ne2 Ht) as [(e & _ & Q)|(_ & t2 & K2 & l2 & Q2 & _ & Cl2 & _ & _ & Bc2 & EK2 & N2 & I2 & Len2 & _ & B2)]; [congruence|]. assert (t2 = a2) by congruence. subst t2.
    destruct (C20_selection c k (s_mat s1) (proj1 C1) Ht) as (w1 & l1' & F1 & B1' & _). destruct (C20_selection c k (s_mat s2) (proj1 C2) Ht) as (w2 & l2' & F2 & B2' & _).
    rewrite F1 in A1. rewrite F2 in A2. cbn [bind] in A1, A2. assert (G1 : b1 = OpFS c k (Some l1') None) by congruence. assert (G2 : b2 = OpFS c k (Some l2') None) by congruence. subst b1 b2. cbn [op_set_original] in Eo1, Eo2.
    assert (l1' = l1). { symmetry. refine (best_columns_unique _ k _ _ _ _ 1%R _ _ B1' Bc1); [lra|intros j _; symmetry; apply Rmult_1_l]. }
    assert (l2' = l2). { symmetry. refine (best_columns_unique _ k _ _ _ _ 1%R _ _ B2' Bc2); [lra|intros j _; symmetry; apply Rmult_1_l]. }
    subst l1' l2'. split; [subst a1; reflexivity|]. split; [subst a2; reflexivity|]. split; [|exact ST]. rewrite Eo1, Eo2, Cl1, Cl2. cbn [op_same].
    pose proof (labelled_width s1 C1 Ne1) as Wd1. pose proof (labelled_width s2 C2 Ne2) as Wd2.
    assert (Pos1 : 0 < length l1). { rewrite (bc_length _ _ _ _ Bc1), Wd1. destruct (s_id2col s1); [contradiction|]. cbn [length]. lia. }
    assert (Pos2 : 0 < length l2). { rewrite (bc_length _ _ _ _ Bc2), Wd2. destruct (s_id2col s2); [contradiction|]. cbn [length]. lia. }
    assert (Fw : forall x, In x K1 -> In x K2).
    { intros x Hx. destruct (in_dec string_dec x K2) as [J|J]; [exact J|exfalso].
      pose proof Hx as Hx'. rewrite EK1 in Hx'. apply in_map_iff in Hx'. destruct Hx' as (a & Ea & Ha). pose proof (bc_range _ _ _ _ Bc1 a Ha) as Ra. assert (Na : nth_error (s_id2col s1) a = Some x) by (rewrite <- Ea; apply nth_error_nth'; rewrite <- Wd1; exact Ra).
      pose proof (Hpos l1 a Bc1 Ha) as Z. pose proof Z as Z'. rewrite (at_score s1 C1 a x Na c) in Z'.
      destruct (kept_same s1 s2 c K1 K2 k H Hn N1 N2 I2 Len1 Len2 B1 B2 x Hx J Z') as (d & _ & Id & Hnd & Eq). apply In_nth_error in Id. destruct Id as (b & Nb).
      apply (Hcut l1 a b Bc1 Ha (col_bound s1 b d C1 Nb)); [|exact Z|rewrite (at_score s1 C1 a x Na c), (at_score s1 C1 b d Nb c); exact Eq].
      intros Hb. apply Hnd. rewrite EK1. apply in_map_iff. exists b. split; [apply nth_error_nth, Nb|exact Hb]. }
    split; [exact EK1|]. split; [exact EK2|]. split; [exact N1|]. split; [exact N2|]. split; [exact Pos1|]. split; [exact Pos2|]. split; [rewrite <- Wd1; apply Bc1|]. split; [rewrite <- Wd2; apply Bc2|]. split; [exact Fw|].
    intros x Hx Hnx Ix. assert (LT : length K1 < length (s_id2col s1)).
    { destruct (le_lt_dec (length (s_id2col s1)) (length K1)) as [Q|Q]; [|exact Q]. exfalso. exact (Hnx (NoDup_length_incl N1 Q I1 x Ix)). }
    apply Hnx. refine (NoDup_length_incl (l' := K2) N1 _ Fw x Hx). lia.
Qed.
Lemma record_all_zeros : forall ts s1 s2 a1 a2, same_counts s1 s2 -> Forall tr_ok ts -> Forall column_free ts -> sharp_cuts s1 ts -> apply_all s1 ts = Ok a1 -> apply_all s2 ts = Ok a2 ->
  exists l1 l2, s_ops a1 = s_ops s1 ++ l1 /\ s_ops a2 = s_ops s2 ++ l2 /\ ops_same (s_id2col s1) (s_id2col s2) l1 l2 (s_id2col a1) (s_id2col a2) /\ same_counts a1 a2.
Proof.
  induction ts as [|t ts IH]; intros s1 s2 a1 a2 H Ht Hf Hc E1 E2; cbn [apply_all] in E1, E2.
  - assert (a1 = s1) by congruence. assert (a2 = s2) by congruence. subst. exists [], []. rewrite !app_nil_r. split; [reflexivity|]. split; [reflexivity|]. split; [constructor|exact H].
  - inversion Ht; subst. inversion Hf; subst. destruct Hc as (Hc1 & Hc2). apply bind_ok in E1, E2. destruct E1 as (b1 & F1 & E1), E2 as (b2 & F2 & E2).
    destruct (record_zeros s1 s2 t b1 b2 H ltac:(assumption) ltac:(assumption) Hc1 F1 F2) as (o1 & o2 & O1 & O2 & OT & ST).
    destruct (IH b1 b2 a1 a2 ST ltac:(assumption) ltac:(assumption) (Hc2 _ F1) E1 E2) as (l1 & l2 & P1 & P2 & PT & ST').
    exists (o1 :: l1), (o2 :: l2). rewrite P1, P2, O1, O2, <- !app_assoc. split; [reflexivity|]. split; [reflexivity|]. split; [econstructor; eassumption|exact ST'].
Qed.
(** ** C106, peripheral spaces *)
Lemma space_tab s1 s2 : same_counts s1 s2 -> same_tab (s_id2row s1) (s_id2col s1) (s_mat s1) (s_id2row s2) (s_id2col s2) (s_mat s2).
Proof.
  intros H. assert (G : forall s, consistent s -> s_id2col s <> [] -> labelled (s_id2row s) (s_id2col s) (s_mat s)).
  { intros s C Hl. pose proof C as (W&Lr&_&(Nr&_)&_&(Nc&_)&_). constructor; try assumption. symmetry. apply labelled_width; assumption. }
  split; [apply G; apply H|]. split; [apply G; apply H|]. intros w c. exact (sc_value _ _ H w c).
Qed.
Theorem C106_peripheral : forall ts s1 s2 x1 x2 c1 c2, same_counts s1 s2 -> same_counts_opt s1 s2 (Some x1) (Some x2) -> s_ops s1 = [] -> s_ops s2 = [] ->
  Forall tr_ok ts -> Forall column_free ts -> sharp_cuts s1 ts -> apply_all s1 ts = Ok c1 -> apply_all s2 ts = Ok c2 ->
  same_results (mk_peripheral c1 (s_mat x1) (s_id2row x1) None) (mk_peripheral c2 (s_mat x2) (s_id2row x2) None).
Proof.
  intros ts s1 s2 x1 x2 c1 c2 H (HX & X1 & X2) O1 O2 Ht Hf Hc E1 E2.
  destruct (record_all_zeros ts s1 s2 c1 c2 H Ht Hf Hc E1 E2) as (l1 & l2 & L1 & L2 & OT & ST). rewrite O1 in L1. rewrite O2 in L2. cbn [app] in L1, L2.
  assert (SB : forall s c, s_ops s = [] -> apply_all s ts = Ok c -> stable c).
  { intros s c Os. assert (S0 : stable s) by (unfold stable; rewrite Os; reflexivity). revert S0. clear. revert s. induction ts as [|t ts IH]; intros s S0 Q; cbn [apply_all] in Q; [congruence|]. apply bind_ok in Q. destruct Q as (s' & Q1 & Q). apply (IH s' (apply_stable _ _ _ S0 Q1) Q). }
  pose proof (SB s1 c1 O1 E1) as SB1. pose proof (SB s2 c2 O2 E2) as SB2.
  pose proof (space_tab x1 x2 HX) as TX. rewrite X1, X2 in TX. pose proof (project_all_same _ _ _ _ _ _ OT _ _ _ _ TX) as PJ.
  pose proof (sc_ok1 _ _ HX) as Cx1. pose proof (sc_ok2 _ _ HX) as Cx2. pose proof Cx1 as (Wx1&Rx1&_&(Nd1&_)&_). pose proof Cx2 as (Wx2&Rx2&_&(Nd2&_)&_).
  unfold same_results. destruct (project_all l1 (s_mat x1)) as [z1|e] eqn:P1, (project_all l2 (s_mat x2)) as [z2|e'] eqn:P2; try contradiction.
  - destruct PJ as (A & B & V).
    assert (G : forall c x z l, consistent c -> s_id2col c <> [] -> stable c -> s_ops c = l -> project_all l (s_mat x) = Ok z -> NoDup (s_id2row x) -> labelled (s_id2row x) (s_id2col c) z ->
      exists y, mk_peripheral c (s_mat x) (s_id2row x) None = Ok y /\ y = SP z (s_id2row x) (s_id2col c) (numbered (s_id2row x)) (s_col2id c) (s_ops c) [m_nc z]).
    { intros c x z l Cc Ne Sc Lc Pc Nx Lz. eexists. split; [|reflexivity]. apply mk_peripheral_iff; [exact Sc|]. split; [exact Nx|]. exists z. rewrite Lc. split; [exact Pc|]. split; [symmetry; apply Lz|]. split; [|reflexivity]. right.
      rewrite <- (lb_cols _ _ _ Lz). pose proof Cc as (_&_&_&_&_&Ci&_). split; [reflexivity|]. symmetry. exact (mutually_inverse_length _ _ Ci). }
    destruct (G c1 x1 z1 l1 (sc_ok1 _ _ ST) (sc_lab1 _ _ ST) SB1 L1 P1 Nd1 A) as (y1 & G1 & F1). destruct (G c2 x2 z2 l2 (sc_ok2 _ _ ST) (sc_lab2 _ _ ST) SB2 L2 P2 Nd2 B) as (y2 & G2 & F2). rewrite G1, G2.
    destruct (mk_peripheral_ok _ _ _ None _ (sc_ok1 _ _ ST) Wx1 Logic.I G1) as (?&?&?&_&_&_&_&_&K1). destruct (mk_peripheral_ok _ _ _ None _ (sc_ok2 _ _ ST) Wx2 Logic.I G2) as (?&?&?&_&_&_&_&_&K2).
    constructor; [exact K1|exact K2|subst y1; apply ST|subst y2; apply ST|subst y1 y2; reflexivity|]. intros w c. subst y1 y2. exact (V w c).
  - assert (ER : forall c x e0, NoDup (s_id2row x) -> stable c -> project_all (s_ops c) (s_mat x) = Err e0 -> mk_peripheral c (s_mat x) (s_id2row x) None = Err e0).
    { intros c x e0 Nx Sc Pe. unfold mk_peripheral. rewrite (numbered_total _ Nx). cbn [bind]. fold (cols c). destruct (proj2 (project_ops_split _ _ _ _ Sc) e0 Pe) as (c3 & ->). reflexivity. }
    rewrite (ER c1 x1 e Nd1 SB1) by (rewrite L1; exact P1). rewrite (ER c2 x2 e' Nd2 SB2) by (rewrite L2; exact P2). exact PJ.
Qed.
End Spaces.

(** two spaces with the columns x y z and z q x y (q and the word cow never occur); two columns are kept and the rows normalised; the same raw vectors are projected again *)
Section Ex.
Context {E : @Ext RNum}.
Definition zero_pipe : list transformation := [TFS CSum 2; TScale (RowNorm CLength)].
Example C106_peripheral_example : exists c1 c2, same_counts sp_tab1 sp_tab3 /\ same_counts_opt sp_tab1 sp_tab3 (Some sp_tab1) (Some sp_tab3) /\ s_ops sp_tab1 = [] /\ s_ops sp_tab3 = [] /\
  Forall tr_ok zero_pipe /\ Forall column_free zero_pipe /\ sharp_cuts sp_tab1 zero_pipe /\ apply_all sp_tab1 zero_pipe = Ok c1 /\ apply_all sp_tab3 zero_pipe = Ok c2.
Proof.
  assert (T : Forall tr_ok zero_pipe) by (repeat constructor). assert (CF : Forall column_free zero_pipe) by (repeat constructor).
  assert (CC : sharp_cuts sp_tab1 zero_pipe).
  { split; [|intros s' _; split; [exact Logic.I|]; intros s'' _; exact Logic.I]. split; [right; exact tab1_nonneg|]. split; [apply clear_cut_0; exact tab_cut|].
    intros sel a B Ha. change (s_mat sp_tab1) with tab1 in *. pose proof (bc_range _ _ _ _ B a Ha) as Ra. change (m_nc tab1) with 3 in Ra. rewrite tab_score1 by exact Ra.
    destruct a as [|[|[|a]]]; [| | |lia]; cbn; lra. }
  assert (R1 : exists c1, apply_all sp_tab1 zero_pipe = Ok c1).
  { destruct (C20_selection CSum 2 tab1 tab1_wf ltac:(lia)) as (z & l & Ez & B & _). pose proof (apply_fs sp_tab1 CSum 2 z l tab1_ok ltac:(lia) Ez) as A.
    rewrite fs_labels_ok in A; [|discriminate|apply tab1_ok|apply B|exact (bc_range _ _ _ _ B)]. cbn [assert_1dim_element sp_tab1 s_eshape length Nat.ltb Nat.leb bind] in A.
    destruct A as (s' & A & Cs & _). destruct (C18_row_normalization CLength (s_mat s') (proj1 Cs)) as (y & Ey & _). destruct (apply_scale s' _ y Cs Ey) as (s2 & A2 & _).
    exists s2. cbn [zero_pipe apply_all]. rewrite A. cbn [bind]. rewrite A2. reflexivity. }
  destruct R1 as (c1 & R1). pose proof (C106_chain zero_pipe sp_tab1 sp_tab3 tab13_counts T CF (sharp_clear _ _ CC)) as Q. rewrite R1 in Q. cbn [same_results] in Q. destruct (apply_all sp_tab3 zero_pipe) as [c2|] eqn:R2; [|contradiction].
  exists c1, c2. split; [exact tab13_counts|]. split; [split; [exact tab13_counts|split; reflexivity]|]. do 5 (split; [first [assumption|reflexivity]|]). split; [exact R1|reflexivity].
Qed.
End Ex.
