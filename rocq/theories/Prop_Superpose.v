(** Prop_Superpose.v -- property C111: adding raw vectors before or after the transformations (exact reals). *)
From Coq Require Import Reals Lra Psatz.
From Verif Require Import Base PyList Dict Num SpecReal Dense Sparse Matrix PSparse PMatrix PMatOps PShape PVals PReal PPos Scaling Linalg Operation
  Similarity Space Peripheral SpecSpace PDictList PSpace PCols Prop_Periph Prop_Scaling Prop_Nmf PProj Prop_Counts Learner Composition SpecComp PComp Prop_Comp.
#[local] Existing Instance RNum.
Open Scope R_scope.
Open Scope nat_scope.
Section WithExt.
Context {E : @Ext RNum}.

(** ** specification *)
(** transformations that treat vectors linearly: normalisation by a fixed number, SVD, feature selection *)
Definition linear (t : transformation) : Prop := match t with TScale (Norm _) => True | TDim DSvd k => 0 < k | TFS _ k => 0 < k | _ => False end.
(** row ic of m, times g, is a times row ia plus b times row ib *)
Definition combined (m : @matrix RNum) (ic ia ib : nat) (g a b : R) : Prop :=
  ic < m_nr m /\ ia < m_nr m /\ ib < m_nr m /\ forall j, j < m_nc m -> (g * ment m ic j = a * ment m ia j + b * ment m ib j)%R.
Definition total (m : @matrix RNum) (i : nat) : R := rsum (m_nc m) (ment m i).

(** ** operations *)
Definition linear_op (o : operation) : Prop := match o with OpScale (Norm _) _ => True | OpDim DSvd _ _ => True | OpFS _ _ _ _ => True | _ => False end.
Lemma linear_row o c (x y z : nat -> R) g a b j : linear_op o -> shape_ok o c -> (forall q, q < c -> (g * z q = a * x q + b * y q)%R) -> j < out_cols o c ->
  (g * row_map o c z j = a * row_map o c x j + b * row_map o c y j)%R.
Proof.
  intros HL HS H Hj. destruct o as [s st|d k [tm|]|cr k [sel|] orig]; cbn [linear_op shape_ok out_cols] in HL, HS, Hj; try contradiction.
  - destruct s; try contradiction. destruct st as [[l|x0]|]; try contradiction. cbn [row_map]. specialize (H j Hj). destruct (Req_EM_T x0 0); [exact H|].
    replace (g * (z j * (1 / x0)))%R with (g * z j * (1 / x0))%R by ring. rewrite H. ring.
  - destruct d; [|contradiction]. cbn [row_map]. rewrite <- !rsum_scal_l, <- rsum_plus. apply rsum_ext. intros q Hq. specialize (H q Hq).
    replace (g * (z q * ment tm q j))%R with (g * z q * ment tm q j)%R by ring. rewrite H. ring.
  - cbn [row_map]. apply H. destruct HS as (HS & _). rewrite Forall_forall in HS. apply HS, nth_In, Hj.
Qed.
Lemma linear_project o m z ic ia ib g a b : op_wf o -> linear_op o -> mwf m -> op_project o m = Ok z -> combined m ic ia ib g a b -> mwf z /\ combined z ic ia ib g a b.
Proof.
  intros Ho HL Wm Hz (Hc & Ha & Hb & H). pose proof (vals_self m Wm) as V. destruct (project_bwd o m _ _ _ _ z Ho V Hz) as (HS & HR).
  destruct (project_fwd o m _ _ _ _ Ho V HS HR) as (z' & E' & Vz). assert (z' = z) by congruence. subst z'. pose proof (vals_has _ _ _ _ _ Vz) as (W & _ & R1 & C1). split; [exact W|].
  repeat split; try (rewrite R1; assumption). intros j Hj. rewrite C1 in Hj. rewrite (vals_ent _ _ _ _ _ _ _ Vz Hc Hj), (vals_ent _ _ _ _ _ _ _ Vz Ha Hj), (vals_ent _ _ _ _ _ _ _ Vz Hb Hj).
  apply linear_row; assumption.
Qed.
Lemma linear_all ops : forall m z ic ia ib g a b, Forall op_wf ops -> Forall linear_op ops -> mwf m -> project_all ops m = Ok z -> combined m ic ia ib g a b -> combined z ic ia ib g a b.
Proof.
  induction ops as [|o ops IH]; intros m z ic ia ib g a b Hw Hl Wm H K; cbn [project_all] in H; [injection H as <-; exact K|].
  inversion Hw; inversion Hl; subst. apply bind_ok in H. destruct H as (m' & H1 & H). destruct (linear_project o m m' ic ia ib g a b ltac:(assumption) ltac:(assumption) Wm H1 K) as (W' & K').
  apply (IH m'); assumption.
Qed.
Lemma recorded_kind t m z o0 o cols : op_apply (create_operation t) m = Ok (z, o0) -> o = match t with TFS _ _ => op_set_original o0 cols | _ => o0 end ->
  (linear t -> linear_op o) /\ (t = TScale Epmi -> exists st, o = OpScale Epmi st).
Proof.
  intros H ->. destruct t as [s|d k|c k]; cbn [create_operation op_apply] in H; apply bind_ok in H; destruct H as (r & _ & H).
  - injection H as _ <-. split; [destruct s; cbn; tauto|intros Q; injection Q as ->; eauto].
  - destruct r as [r tm]. injection H as _ <-. split; [destruct d; cbn; tauto|discriminate].
  - destruct r as [r sel]. injection H as _ <-. split; [cbn; tauto|discriminate].
Qed.
Lemma linear_tr_ok t : linear t -> tr_ok t.
Proof. destruct t as [s|[|] k|c k]; cbn; intros H; try exact Logic.I; try contradiction; try lia. Qed.
Lemma recorded_linear ts : forall s core, consistent s -> Forall linear ts -> apply_all s ts = Ok core ->
  consistent core /\ exists ops, s_ops core = (s_ops s ++ ops)%list /\ Forall linear_op ops /\ Forall op_wf ops.
Proof.
  induction ts as [|t ts IH]; intros s core C HL H; cbn [apply_all] in H; [injection H as <-; split; [exact C|exists []; rewrite app_nil_r; auto]|].
  inversion HL as [|? ? Ht HL']; subst. apply bind_ok in H. destruct H as (s1 & H1 & H).
  destruct (space_apply_ok s t s1 C (linear_tr_ok t Ht) H1) as (m & o & o0 & ic & ci & Ho & Es & Eo & _ & _ & Wo & C1).
  destruct (IH s1 core C1 HL' H) as (CC & ops & Eops & Lo & Wops). split; [exact CC|]. exists (o :: ops). rewrite Eops, Es. cbn [s_ops]. rewrite <- app_assoc. split; [reflexivity|].
  split; constructor; try assumption. exact (proj1 (recorded_kind t _ _ _ _ _ Ho Eo) Ht).
Qed.
Lemma peripheral_matrix core m rows r2i p : mk_peripheral core m rows r2i = Ok p -> project_all (s_ops core) m = Ok (s_mat p).
Proof.
  intros H. unfold mk_peripheral in H. apply bind_ok in H. destruct H as (d & _ & H). destruct (project_ops (s_ops core) _ m) as [c rm] eqn:Ep.
  apply bind_ok in H. destruct H as (pm & -> & H). apply bind_ok in H. destruct H as (u & _ & H). injection H as <-. apply project_ops_inv in Ep. apply Ep.
Qed.

(** ** the theorems *)
(** normalised, selected and SVD-reduced vectors add up like the raw ones *)
Theorem C111_linear : forall ts raw core m rows r2i p ic ia ib a b, consistent raw -> s_ops raw = [] -> Forall linear ts -> apply_all raw ts = Ok core ->
  mwf m -> mk_peripheral core m rows r2i = Ok p -> combined m ic ia ib 1 a b -> combined (s_mat p) ic ia ib 1 a b.
Proof.
  intros ts raw core m rows r2i p ic ia ib a b C EO HL H Wm HP K. destruct (recorded_linear ts raw core C HL H) as (_ & ops & Eo & Lo & Wo). rewrite EO in Eo. cbn [app] in Eo.
  apply peripheral_matrix in HP. rewrite Eo in HP. exact (linear_all ops m _ ic ia ib 1 a b Wo Lo Wm HP K).
Qed.

Lemma nonneg_total c (x : nat -> R) j : (forall q, q < c -> (0 <= x q)%R) -> rsum c x = 0%R -> j < c -> x j = 0%R.
Proof.
  induction c as [|c IH]; intros Hx Hs Hj; [lia|]. cbn [rsum] in Hs.
  assert (A : (0 <= rsum c x)%R) by (apply rsum_nonneg; intros; apply Hx; lia). pose proof (Hx c ltac:(lia)) as B.
  destruct (Nat.eq_dec j c) as [->|]; [lra|]. apply IH; [intros; apply Hx; lia|lra|lia].
Qed.
Lemma epmi_times l c (x : nat -> R) j : (forall q, q < c -> (0 <= x q)%R) -> j < c ->
  (rsum c x * epmi_row l c x j = x j * (@finv0 RNum (nth j l 0) * rsum c (fun j => nth j l 0)))%R.
Proof.
  intros Hx Hj. unfold epmi_row. set (K := (@finv0 RNum (nth j l 0) * rsum c (fun j => nth j l 0))%R). rewrite finv0_R. destruct (Req_EM_T (rsum c x) 0) as [Q|Q].
  - rewrite Q, (nonneg_total c x j Hx Q Hj). ring.
  - field. exact Q.
Qed.
(** with expected pointwise mutual information first, vectors weigh as much as their words are frequent *)
Theorem C111_epmi : forall ts raw core m rows r2i p ic ia ib a b, consistent raw -> s_ops raw = [] -> Forall linear ts -> apply_all raw (TScale Epmi :: ts) = Ok core ->
  mwf m -> mk_peripheral core m rows r2i = Ok p -> combined m ic ia ib 1 a b ->
  total m ic = (a * total m ia + b * total m ib)%R /\
  combined (s_mat p) ic ia ib (total m ic) (a * total m ia) (b * total m ib).
Proof.
  intros ts raw core m rows r2i p ic ia ib a b C EO HL H Wm HP (Hc & Ha & Hb & K). cbn [apply_all] in H. apply bind_ok in H. destruct H as (s1 & H1 & H).
  destruct (space_apply_ok raw (TScale Epmi) s1 C Logic.I H1) as (m1 & o & o0 & ic' & ci & Ho & Es & Eo & _ & _ & Wo1 & C1).
  destruct (proj2 (recorded_kind (TScale Epmi) _ _ _ _ [] Ho Eo) eq_refl) as (st & ->).
  destruct (recorded_linear ts s1 core C1 HL H) as (_ & ops & Eops & Lo & Wo). rewrite Es in Eops. cbn [s_ops] in Eops. rewrite EO in Eops. cbn [app] in Eops.
  apply peripheral_matrix in HP. rewrite Eops in HP. cbn [project_all] in HP. apply bind_ok in HP. destruct HP as (z & Hz & HP).
  assert (T : total m ic = (a * total m ia + b * total m ib)%R).
  { unfold total. rewrite <- !rsum_scal_l, <- rsum_plus. apply rsum_ext. intros j Hj. specialize (K j Hj). lra. }
  split; [exact T|]. pose proof (vals_self m Wm) as V. destruct (project_bwd _ m _ _ _ _ z Wo1 V Hz) as (HS & HR).
  destruct (project_fwd _ m _ _ _ _ Wo1 V HS HR) as (z' & E' & Vz). assert (z' = z) by congruence. subst z'. pose proof (vals_has _ _ _ _ _ Vz) as (W & _ & R1 & C1').
  apply (linear_all ops z _ ic ia ib _ _ _ Wo Lo W HP). cbn [row_ok] in HR. cbn [out_cols] in Vz, C1'.
  repeat split; try (rewrite R1; assumption). intros j Hj. rewrite C1' in Hj. rewrite (vals_ent _ _ _ _ _ _ _ Vz Hc Hj), (vals_ent _ _ _ _ _ _ _ Vz Ha Hj), (vals_ent _ _ _ _ _ _ _ Vz Hb Hj).
  cbn [row_map]. unfold total. rewrite !Rmult_assoc. rewrite (epmi_times _ _ _ _ (HR ic Hc) Hj), (epmi_times _ _ _ _ (HR ia Ha) Hj), (epmi_times _ _ _ _ (HR ib Hb) Hj).
  specialize (K j Hj). rewrite Rmult_1_l in K. rewrite K. ring.
Qed.

Lemma pos_of_nth l p w : NoDup l -> nth_error l p = Some w -> pos_of l w = Some p.
Proof.
  intros Hn H. destruct (pos_of_In l w (nth_error_In _ _ H)) as (q & Hq). rewrite Hq. f_equal. pose proof (pos_of_some _ _ _ Hq) as K.
  apply (proj1 (NoDup_nth_error l) Hn); [apply nth_error_Some; congruence|congruence].
Qed.
(** WeightedAdditive composition of transformed vectors is the transformation of the added raw vectors *)
Theorem C111_composed : forall ts raw core m rows p ic ia ib a b mo data mo' s wa wb ph i, consistent raw -> s_ops raw = [] -> Forall linear ts -> apply_all raw ts = Ok core ->
  mwf m -> mk_peripheral core m rows None = Ok p -> combined m ic ia ib 1 a b -> nth_error rows ia = Some wa -> nth_error rows ib = Some wb ->
  cm_kind mo = WAdd a b -> compose mo data (One p) = (mo', Ok s) -> nth_error (filter (usable2 p p) data) i = Some (wa, wb, ph) ->
  m_nc (s_mat s) = m_nc (s_mat p) /\ nth_error (s_id2row s) i = Some ph /\ forall j, j < m_nc (s_mat p) -> ment (s_mat s) i j = ment (s_mat p) ic j.
Proof.
  intros ts raw core m rows p ic ia ib a b mo data mo' s wa wb ph i C EO HL H Wm HP K Na Nb Hk Hs Hi.
  destruct (recorded_linear ts raw core C HL H) as (CC & _). destruct (mk_peripheral_ok core m rows None p CC Wm Logic.I HP) as (c & pm & d & _ & Ep & Hacc & _ & _ & CP).
  assert (Er : s_id2row p = rows) by (rewrite Ep; reflexivity).
  destruct (C35_weighted_additive mo a b data (One p) p p mo' s Hk CP CP ltac:(left; auto) eq_refl Hs) as (Hn & HE). split; [exact Hn|].
  destruct (C34_rows mo data (One p) p p mo' s CP CP ltac:(left; auto) ltac:(rewrite Hk; reflexivity) Hs) as (_ & Re & _). split; [rewrite Re; exact (map_nth_error snd i _ Hi)|].
  intros j Hj. rewrite (HE i wa wb ph j Hi Hj). destruct (C111_linear ts raw core m rows None p ic ia ib a b C EO HL H Wm HP K) as (_ & _ & _ & Q). specialize (Q j Hj). rewrite Rmult_1_l in Q. rewrite Q.
  pose proof CP as (_ & _ & _ & (ND & _) & _). rewrite Er in ND. unfold vec. rewrite Er.
  rewrite (pos_of_nth rows ia wa ND Na), (pos_of_nth rows ib wb ND Nb). reflexivity.
Qed.
End WithExt.

(** ** the hypotheses are met *)
Local Open Scope string_scope.
Local Open Scope list_scope.
Definition sup_raw : space := SP (MD (DM 2 2 [[3; 0]; [1; 2]]%R)) ["car"; "dog"] [] [("car", 0%Z); ("dog", 1%Z)] [] [] [2].
(** counts of a car, a dog, and the two together *)
Definition sup_data : @matrix RNum := MD (DM 3 2 [[3; 0]; [1; 2]; [4; 2]]%R).
Lemma sup_raw_ok : consistent sup_raw.
Proof. eapply (mk_space_consistent (MD (DM 2 2 [[3; 0]; [1; 2]]%R)) ["car"; "dog"] [] None None [] None sup_raw); [repeat split; cbn; try lia; repeat constructor|constructor|exact Logic.I|exact Logic.I|reflexivity]. Qed.
Lemma sup_data_wf : mwf sup_data.
Proof. repeat split; cbn; try lia; repeat constructor. Qed.
Lemma sup_combined : combined sup_data 2 0 1 1 1 1.
Proof. repeat split; cbn; try lia. intros j Hj. destruct j as [|[|j]]; [| |lia]; unfold ment, sup_data, dent; cbn; lra. Qed.
Section Ex.
Context {E : @Ext RNum}.
Definition sup_chain : list transformation := [TScale Epmi; TScale (Norm CSum)].
Example C111_example : consistent sup_raw /\ s_ops sup_raw = [] /\ Forall linear [TScale (Norm CSum)] /\ mwf sup_data /\ combined sup_data 2 0 1 1 1 1 /\
  exists core p, apply_all sup_raw sup_chain = Ok core /\ mk_peripheral core sup_data ["car"; "dog"; "car dog"] None = Ok p /\
    total sup_data 2 = 6%R /\ combined (s_mat p) 2 0 1 6 3 3.
Proof.
  split; [apply sup_raw_ok|]. split; [reflexivity|]. split; [repeat constructor|]. split; [apply sup_data_wf|]. split; [apply sup_combined|].
  assert (NN : non_negative (s_mat sup_raw)).
  { intros i j Hi Hj. cbn in Hi, Hj. destruct i as [|[|i]]; [| |lia]; (destruct j as [|[|j]]; [| |lia]); unfold ment, sup_raw, dent; cbn; lra. }
  destruct (C15_epmi (s_mat sup_raw) (proj1 sup_raw_ok) NN) as (z1 & E1 & _).
  destruct (apply_scale sup_raw Epmi z1 sup_raw_ok E1) as (s1 & A1 & _).
  destruct (space_apply_ok sup_raw (TScale Epmi) s1 sup_raw_ok Logic.I A1) as (y1 & o1 & o1' & ic1 & ci1 & H1 & F1 & -> & (-> & ->) & W1 & _ & C1).
  destruct (C19_normalization CSum (s_mat s1) (proj1 C1)) as (z2 & E2 & _).
  destruct (apply_scale s1 (Norm CSum) z2 C1 E2) as (core & A2 & _).
  destruct (space_apply_ok s1 (TScale (Norm CSum)) core C1 Logic.I A2) as (y2 & o2 & o2' & ic2 & ci2 & H2 & F2 & -> & (-> & ->) & W2 & _ & C2).
  assert (AP : apply_all sup_raw sup_chain = Ok core) by (unfold sup_chain; cbn [apply_all]; rewrite A1; cbn [bind]; rewrite A2; reflexivity).
  cbn [create_operation op_apply] in H1, H2. apply bind_ok in H1. destruct H1 as (r1 & _ & H1). apply bind_ok in H2. destruct H2 as (r2 & _ & H2). cbn [uses_column_stats get_column_stats] in H1, H2. injection H1 as _ <-. injection H2 as _ <-.
  subst s1. cbn [s_id2row s_id2col s_row2id s_col2id s_ops] in F2. cbn [app sup_raw s_ops s_id2col s_col2id] in F2.
  pose proof (vals_self sup_data sup_data_wf) as V0.
  set (st1 := SCol (m_sum0 (s_mat sup_raw))) in *. set (st2 := SScal (m_sum y1)) in *.
  destruct (project_fwd (OpScale Epmi (Some st1)) sup_data _ _ _ _ Logic.I V0) as (q1 & P1 & Q1); [reflexivity| |].
  { intros i Hi q Hq. cbn in Hi, Hq. destruct i as [|[|[|i]]]; [| | |lia]; (destruct q as [|[|q]]; [| |lia]); unfold ment, sup_data, dent; cbn; lra. }
  destruct (project_fwd (OpScale (Norm CSum) (Some st2)) q1 _ _ _ _ Logic.I Q1) as (q2 & P2 & Q2); [exact Logic.I|intros; exact Logic.I|].
  pose proof (vals_has _ _ _ _ _ Q2) as (_ & _ & R2 & _).
  assert (MP : exists p, mk_peripheral core sup_data ["car"; "dog"; "car dog"] None = Ok p).
  { eexists. apply mk_peripheral_iff; [rewrite F2; reflexivity|]. split; [repeat constructor; cbn; intuition discriminate|]. exists q2. split; [|split; [exact R2|split; [|reflexivity]]].
    - rewrite F2. cbn [s_ops app project_all]. match goal with |- bind ?k _ = _ => replace k with (Ok q1) by (symmetry; exact P1) end. cbn [bind].
      match goal with |- bind ?k _ = _ => replace k with (Ok q2) by (symmetry; exact P2) end. reflexivity.
    - left. rewrite F2. split; reflexivity. }
  destruct MP as (p & MP). exists core, p. split; [exact AP|]. split; [exact MP|].
  destruct (C111_epmi [TScale (Norm CSum)] sup_raw core sup_data _ None p 2 0 1 1 1 sup_raw_ok eq_refl ltac:(repeat constructor) AP sup_data_wf MP sup_combined) as (_ & K).
  assert (T2 : total sup_data 2 = 6%R) by (unfold total, ment, sup_data, dent; cbn; lra). assert (T0 : total sup_data 0 = 3%R) by (unfold total, ment, sup_data, dent; cbn; lra). assert (T1 : total sup_data 1 = 3%R) by (unfold total, ment, sup_data, dent; cbn; lra).
  split; [exact T2|]. rewrite T0, T1, T2, !Rmult_1_l in K. exact K.
Qed.
End Ex.
