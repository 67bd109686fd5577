(** PProj.v -- projection works row by row (exact reals). *)
From Coq Require Import Reals Lra Psatz.
From Verif Require Import Base PyList Dict Num SpecReal Dense Sparse Matrix PSparse PMatrix PMatOps PShape PVals PReal PPos Scaling Linalg Operation
  Similarity Space Peripheral SpecSpace PDictList PSpace PCols Prop_Scaling Prop_Nmf.
#[local] Existing Instance RNum.
Open Scope R_scope.
Open Scope nat_scope.
Section WithExt.
Context {E : @Ext RNum}.

(** a row of numbers *)
Notation row := (nat -> R).
Definition col_marg (st : option (@cstats RNum)) : list R := match st with Some (SCol l) => l | _ => [] end.

(** does the number of columns fit the operation's stored data *)
Definition shape_ok (o : operation) (c : nat) : Prop :=
  match o with
  | OpScale (Epmi | Ppmi | Plmi) (Some (SCol l)) => length l = c
  | OpScale (Norm _) (Some (SScal _)) => True
  | OpScale (Plog | RowNorm _) _ => True
  | OpScale _ _ => False
  | OpDim _ _ (Some tm) => m_nr tm = c
  | OpDim _ _ None => False
  | OpFS _ _ (Some sel) _ => Forall (fun j => j < c) sel /\ 0 < length sel
  | OpFS _ _ None _ => False
  end.
(** is the row itself acceptable *)
Definition row_ok (o : operation) (c : nat) (x : row) : Prop :=
  match o with
  | OpScale (Epmi | Ppmi | Plmi) _ | OpDim DNmf _ _ => forall j, j < c -> (0 <= x j)%R
  | _ => True
  end.
Definition epmi_row (l : list R) (c : nat) (x : row) (j : nat) : R :=
  (x j * @finv0 RNum (rsum c x) * (@finv0 RNum (nth j l 0) * rsum c (fun j => nth j l 0)))%R.
Definition row_map (o : operation) (c : nat) (x : row) (j : nat) : R :=
  match o with
  | OpScale Epmi st => epmi_row (col_marg st) c x j
  | OpScale Ppmi st => plogf (epmi_row (col_marg st) c x j)
  | OpScale Plmi st => (x j * plogf (epmi_row (col_marg st) c x j))%R
  | OpScale Plog _ => plogf (x j)
  | OpScale (RowNorm CSum) _ => (x j * @finv0 RNum (rsum c x))%R
  | OpScale (RowNorm CLength) _ => (x j * @finv0 RNum (norm c x))%R
  | OpScale (Norm _) (Some (SScal t)) => if Req_EM_T t 0 then x j else (x j * (1 / t))%R
  | OpScale (Norm _) _ => x j
  | OpDim DSvd _ (Some tm) => rsum c (fun k => x k * ment tm k j)%R
  | OpDim DNmf _ (Some tm) => @pos_part RNum (rsum c (fun k => x k * ment tm k j)%R)
  | OpDim _ _ None => x j
  | OpFS _ _ (Some sel) _ => x (nth j sel 0)
  | OpFS _ _ None _ => x j
  end.
Definition out_cols (o : operation) (c : nat) : nat :=
  match o with
  | OpScale _ _ => c
  | OpDim _ _ (Some tm) => m_nc tm
  | OpDim _ _ None => c
  | OpFS _ _ (Some sel) _ => length sel
  | OpFS _ _ None _ => c
  end.
Definition out_type (o : operation) (t : mtype) : mtype := match o with OpDim _ _ _ => TDense | _ => t end.

Lemma epmi_ok m l : mwf m -> (exists z, epmi_apply m (Some l) = Ok z) -> non_negative m /\ length l = m_nc m.
Proof.
  intros Wm (z & H). unfold epmi_apply in H. destruct (assert_positive_iff m Wm) as (AP & AD).
  destruct AD as [A|A]; rewrite A in H; [|discriminate]. cbn [bind] in H. apply bind_ok in H. destruct H as (m1 & H1 & H2).
  split; [intros i j Hi Hj; apply AP; assumption|].
  apply m_scale_rows_ok in H1; [|exact Wm]. destruct H1 as (_ & H1). pose proof (is_mat_has _ _ _ H1) as (W1&_&_&C1).
  apply m_scale_cols_ok in H2; [|exact W1]. destruct H2 as (H2 & _). rewrite map_length in H2. unfold nonzero_invert in H2. rewrite map_length in H2.
  rewrite H2, C1. cbn [d_scale_rows tab d_nc]. apply to_dense_nc.
Qed.
Lemma epmi_project m l t r c f : vals m t r c f -> length l = c -> (forall i j, i < r -> j < c -> (0 <= f i j)%R) ->
  exists z, epmi_apply m (Some l) = Ok z /\ vals z t r c (fun i => epmi_row l c (f i)).
Proof.
  intros Vm. pose proof (vals_has _ _ _ _ _ Vm) as (W&T&R1&C1). subst t r c. intros Hl Hp.
  destruct (epmi_value m (Some l) l W) as (z & Ez & V); [|reflexivity|exact Hl|].
  { intros i j Hi Hj. rewrite (vals_ent _ _ _ _ _ _ _ Vm Hi Hj). apply Hp; assumption. }
  exists z. split; [exact Ez|]. eapply vals_ext; [exact V|]. intros i j Hi Hj. cbn beta. unfold epmi_row, row_sum.
  rewrite (vals_ent _ _ _ _ _ _ _ Vm Hi Hj). rewrite (rsum_ext (m_nc m) (fun j => ment m i j) (f i)); [reflexivity|].
  intros k Hk. exact (vals_ent _ _ _ _ _ _ _ Vm Hi Hk).
Qed.

Lemma project_fwd o m t r c f : op_wf o -> vals m t r c f -> shape_ok o c -> (forall i, i < r -> row_ok o c (f i)) ->
  exists z, op_project o m = Ok z /\ vals z (out_type o t) r (out_cols o c) (fun i => row_map o c (f i)).
Proof.
  intros Hw Vm Hs Hr. destruct o as [s st|d k [tm|]|cr k [sel|] orig]; cbn [op_project shape_ok row_ok out_type out_cols] in *; try contradiction.
  - destruct s as [| | | |cr|cr]; cbn [uses_column_stats].
    + destruct st as [[l|x]|]; try contradiction. cbn [scaling_apply]. apply (epmi_project m l t r c f Vm Hs). intros i j Hi Hj. apply Hr; assumption.
    + destruct st as [[l|x]|]; try contradiction. cbn [scaling_apply]. unfold ppmi_apply.
      destruct (epmi_project m l t r c f Vm Hs) as (z & -> & V); [intros i j Hi Hj; apply Hr; assumption|]. cbn [bind].
      eexists. split; [reflexivity|]. exact (vals_plog _ _ _ _ _ V).
    + destruct st as [[l|x]|]; try contradiction. cbn [scaling_apply]. unfold plmi_apply, ppmi_apply.
      destruct (epmi_project m l t r c f Vm Hs) as (z & -> & V); [intros i j Hi Hj; apply Hr; assumption|]. cbn [bind].
      exact (vals_multiply _ _ _ _ _ _ _ Vm (vals_plog _ _ _ _ _ V)).
    + cbn [scaling_apply]. unfold plog_apply. eexists. split; [reflexivity|]. exact (vals_plog _ _ _ _ _ Vm).
    + cbn [scaling_apply]. pose proof (vals_has _ _ _ _ _ Vm) as (W&T&R1&C1). subst t r c. destruct (rownorm_value cr m W) as (z & -> & V). exists z. split; [reflexivity|].
      eapply vals_ext; [exact V|]. intros i j Hi Hj. cbn beta. rewrite (vals_ent _ _ _ _ _ _ _ Vm Hi Hj). cbn [row_map].
      destruct cr; cbn [row_size]; unfold row_sum.
      * rewrite (rsum_ext (m_nc m) (fun j => ment m i j) (f i)); [reflexivity|]. intros q Hq. exact (vals_ent _ _ _ _ _ _ _ Vm Hi Hq).
      * assert (Hn : norm (m_nc m) (fun j => ment m i j) = norm (m_nc m) (f i)) by (apply norm_ext; intros q Hq; exact (vals_ent _ _ _ _ _ _ _ Vm Hi Hq)).
        rewrite <- Hn. reflexivity.
    + destruct st as [[l|x]|]; try contradiction. cbn [scaling_apply]. unfold norm_apply. cbn [feqb f0 f1 fdiv RNum]. unfold Reqb. cbn [row_map].
      change (@F RNum) with R in *. destruct (Req_EM_T x 0).
      * exists m. split; [reflexivity|]. eapply vals_ext; [exact Vm|]. intros; cbn [row_map]. destruct (Req_EM_T x 0); [reflexivity|contradiction].
      * eexists. split; [reflexivity|]. eapply vals_ext; [exact (vals_scal _ _ _ _ _ _ Vm)|]. intros; cbn [row_map]. destruct (Req_EM_T x 0); [contradiction|reflexivity].
  - unfold dim_project.
    assert (Hp : match d with DNmf => m_assert_positive m | DSvd => Ok tt end = Ok tt).
    { destruct d; [reflexivity|]. apply (proj1 (assert_positive_iff m (vals_wf _ _ _ _ _ Vm))). intros i j Hi Hj.
      rewrite (vals_nr _ _ _ _ _ Vm) in Hi. rewrite (vals_nc _ _ _ _ _ Vm) in Hj. rewrite (vals_ent _ _ _ _ _ _ _ Vm Hi Hj). apply Hr; assumption. }
    rewrite Hp. cbn [bind]. rewrite (vals_type _ _ _ _ _ Vm).
    assert (Hres : exists tm', resolve2 m tm (Some t) = Ok (m, tm') /\ vals tm' t c (m_nc tm) (ment tm)).
    { pose proof (vals_self tm Hw) as Vt. rewrite Hs in Vt. destruct (mtype_eqb (type_of tm) t) eqn:Et.
      - apply mtype_eqb_eq in Et. exists tm. rewrite resolve2_same by (rewrite (vals_type _ _ _ _ _ Vm); auto). rewrite Et in Vt. auto.
      - exists (conv t tm). split; [|exact (vals_conv t _ _ _ _ _ Vt)]. unfold resolve2, resolve_type_conflict, type_conflict. cbn [existsb].
        rewrite mtype_eqb_refl, (vals_type _ _ _ _ _ Vm), Et. cbn [negb orb bind map]. f_equal. f_equal.
        pose proof (vals_type _ _ _ _ _ Vm) as T. destruct m; cbn in T; subst t; reflexivity. }
    destruct Hres as (tm' & -> & Vt). cbn [bind]. destruct (vals_mul _ _ _ _ _ _ _ _ Vm Vt) as (z & -> & Vz). cbn [bind].
    eexists. split; [reflexivity|]. apply (vals_conv TDense _ t). cbn [row_map]. destruct d.
    + eapply vals_ext; [exact Vz|]. intros i j Hi Hj. cbn beta. rewrite sumn_rsum. reflexivity.
    + eapply vals_ext; [exact (vals_to_non_negative _ _ _ _ _ Vz)|]. intros i j Hi Hj. cbn beta. rewrite sumn_rsum. reflexivity.
  - destruct Hs as (Hf & Hl). destruct (vals_get_cols _ _ _ _ _ sel Vm Hf Hl) as (z & -> & V). exists z. auto.
Qed.
Lemma project_bwd o m t r c f z : op_wf o -> vals m t r c f -> op_project o m = Ok z -> shape_ok o c /\ (forall i, i < r -> row_ok o c (f i)).
Proof.
  intros Hw Vm H. pose proof (vals_has _ _ _ _ _ Vm) as (W&T&R1&C1).
  assert (NN : non_negative m -> forall i, i < r -> forall j, j < c -> (0 <= f i j)%R).
  { intros K i Hi j Hj. rewrite <- (vals_ent _ _ _ _ _ _ _ Vm Hi Hj). apply K; lia. }
  destruct o as [s st|d k [tm|]|cr k [sel|] orig]; cbn [op_project shape_ok row_ok] in *; try discriminate.
  - destruct s as [| | | |cr|cr]; cbn [uses_column_stats] in H; auto.
    + destruct st as [[l|x]|]; try discriminate. cbn [scaling_apply] in H. destruct (epmi_ok m l W) as (K1 & K2); [eauto|]. split; [congruence|]. apply NN, K1.
    + destruct st as [[l|x]|]; try discriminate. cbn [scaling_apply] in H. unfold ppmi_apply in H. apply bind_ok in H. destruct H as (e & H & _).
      destruct (epmi_ok m l W) as (K1 & K2); [eauto|]. split; [congruence|]. apply NN, K1.
    + destruct st as [[l|x]|]; try discriminate. cbn [scaling_apply] in H. unfold plmi_apply, ppmi_apply in H. apply bind_ok in H. destruct H as (p & H & _). apply bind_ok in H. destruct H as (e & H & _).
      destruct (epmi_ok m l W) as (K1 & K2); [eauto|]. split; [congruence|]. apply NN, K1.
    + destruct st as [[l|x]|]; try discriminate. auto.
  - destruct (dim_project_has d tm m z W Hw H) as (Hc & _). split; [congruence|]. destruct d; [auto|]. apply NN.
    unfold dim_project in H. apply bind_ok in H. destruct H as ([] & H & _). intros i j Hi Hj. apply (proj1 (assert_positive_iff m W)); assumption.
  - apply m_get_cols_ok in H; [|exact W]. destruct H as (Hf & Hl & _). split; [split; [rewrite <- C1; exact Hf|exact Hl]|auto].
Qed.

(** ** stacking *)
Definition stacked (r1 : nat) (f g : nat -> row) : nat -> row := fun i => if Nat.ltb i r1 then f i else g (i - r1).
Lemma project_stack o m1 m2 m12 t r1 r2 c f g : op_wf o ->
  vals m1 t r1 c f -> vals m2 t r2 c g -> vals m12 t (r1 + r2) c (stacked r1 f g) ->
  (forall z12, op_project o m12 = Ok z12 -> exists z1 z2, op_project o m1 = Ok z1 /\ op_project o m2 = Ok z2) /\
  (forall z1 z2, op_project o m1 = Ok z1 -> op_project o m2 = Ok z2 ->
     exists z12, op_project o m12 = Ok z12 /\ exists t' c' f' g', vals z1 t' r1 c' f' /\ vals z2 t' r2 c' g' /\ vals z12 t' (r1 + r2) c' (stacked r1 f' g')).
Proof.
  intros Hw V1 V2 V12. split.
  - intros z12 H. destruct (project_bwd o m12 t _ c _ z12 Hw V12 H) as (Hs & Hr).
    destruct (project_fwd o m1 t r1 c f Hw V1 Hs) as (z1 & E1 & _).
    { intros i Hi. specialize (Hr i ltac:(lia)). unfold stacked in Hr. destruct (Nat.ltb_spec i r1); [exact Hr|lia]. }
    destruct (project_fwd o m2 t r2 c g Hw V2 Hs) as (z2 & E2 & _).
    { intros i Hi. specialize (Hr (r1 + i) ltac:(lia)). unfold stacked in Hr. destruct (Nat.ltb_spec (r1 + i) r1); [lia|]. replace (r1 + i - r1) with i in Hr by lia. exact Hr. }
    eauto.
  - intros z1 z2 E1 E2. destruct (project_bwd o m1 t _ c _ z1 Hw V1 E1) as (Hs & Hr1). destruct (project_bwd o m2 t _ c _ z2 Hw V2 E2) as (_ & Hr2).
    destruct (project_fwd o m1 t r1 c f Hw V1 Hs Hr1) as (z1' & E1' & V1'). destruct (project_fwd o m2 t r2 c g Hw V2 Hs Hr2) as (z2' & E2' & V2').
    destruct (project_fwd o m12 t (r1 + r2) c (stacked r1 f g) Hw V12 Hs) as (z12 & E12 & V12').
    { intros i Hi. unfold stacked. destruct (Nat.ltb_spec i r1); [apply Hr1; assumption|apply Hr2; lia]. }
    exists z12. split; [exact E12|]. exists (out_type o t), (out_cols o c), (fun i => row_map o c (f i)), (fun i => row_map o c (g i)).
    rewrite E1 in E1'. rewrite E2 in E2'. injection E1' as <-. injection E2' as <-. split; [exact V1'|]. split; [exact V2'|].
    eapply vals_ext; [exact V12'|]. intros i j Hi Hj. unfold stacked. destruct (Nat.ltb_spec i r1); reflexivity.
Qed.

Lemma project_all_stack ops : forall m1 m2 m12 t r1 r2 c f g, Forall op_wf ops ->
  vals m1 t r1 c f -> vals m2 t r2 c g -> vals m12 t (r1 + r2) c (stacked r1 f g) ->
  (forall z12, project_all ops m12 = Ok z12 -> exists z1 z2, project_all ops m1 = Ok z1 /\ project_all ops m2 = Ok z2) /\
  (forall z1 z2, project_all ops m1 = Ok z1 -> project_all ops m2 = Ok z2 ->
     exists z12, project_all ops m12 = Ok z12 /\ exists t' c' f' g', vals z1 t' r1 c' f' /\ vals z2 t' r2 c' g' /\ vals z12 t' (r1 + r2) c' (stacked r1 f' g')).
Proof.
  induction ops as [|o ops IH]; intros m1 m2 m12 t r1 r2 c f g Hw V1 V2 V12; cbn [project_all].
  - split; [eauto|]. intros z1 z2 H1 H2. injection H1 as <-. injection H2 as <-. eauto 10.
  - inversion Hw as [|? ? Ho Hops]; subst. destruct (project_stack o m1 m2 m12 t r1 r2 c f g Ho V1 V2 V12) as (S1 & S2). split.
    + intros z12 H. apply bind_ok in H. destruct H as (y12 & H1 & H). destruct (S1 _ H1) as (y1 & y2 & K1 & K2). rewrite K1, K2. cbn [bind].
      destruct (S2 y1 y2 K1 K2) as (y12' & K12 & t' & c' & f' & g' & W1 & W2 & W12). rewrite H1 in K12. injection K12 as <-.
      exact (proj1 (IH y1 y2 y12 t' r1 r2 c' f' g' Hops W1 W2 W12) z12 H).
    + intros z1 z2 H1 H2. apply bind_ok in H1. destruct H1 as (y1 & K1 & H1). apply bind_ok in H2. destruct H2 as (y2 & K2 & H2).
      destruct (S2 y1 y2 K1 K2) as (y12 & K12 & t' & c' & f' & g' & W1 & W2 & W12). rewrite K12. cbn [bind].
      exact (proj2 (IH y1 y2 y12 t' r1 r2 c' f' g' Hops W1 W2 W12) z1 z2 H1 H2).
Qed.
End WithExt.
