(** Prop_Scaling.v -- properties C15-C20: weighting schemes, normalisation and feature selection over exact reals. *)
From Coq Require Import Reals Lra Psatz.
From Verif Require Import Base PyList Dict Num SpecReal Dense Sparse Matrix PSparse PMatrix PMatOps PShape PVals PReal PPos PSort Scaling Linalg Operation
  Similarity Space Peripheral SpecSpace PDictList PSpace Prop_Space.
#[local] Existing Instance RNum.
Open Scope R_scope.

(** ** vocabulary: sums of the entries of a matrix *)
Definition row_sum (m : matrix) (i : nat) : R := rsum (m_nc m) (fun j => ment m i j).
Definition col_sum (m : matrix) (j : nat) : R := rsum (m_nr m) (fun i => ment m i j).
Definition total (m : matrix) : R := rsum (m_nr m) (fun i => rsum (m_nc m) (fun j => ment m i j)).
Definition frobenius (m : matrix) : R := sqrt (rsum (m_nr m) (fun i => rsum (m_nc m) (fun j => ment m i j * ment m i j))).
Definition non_negative (m : matrix) : Prop := forall i j, (i < m_nr m)%nat -> (j < m_nc m)%nat -> 0 <= ment m i j.
(** same class and shape, and entries given by [f] *)
Definition result_of (m z : matrix) (f : nat -> nat -> R) : Prop :=
  mwf z /\ type_of z = type_of m /\ m_nr z = m_nr m /\ m_nc z = m_nc m /\
  forall i j, (i < m_nr m)%nat -> (j < m_nc m)%nat -> ment z i j = f i j.
(** P(r,c) / (P(r) P(c)) with P(r,c) = x/T, P(r) = R/T, P(c) = C/T; 0 if the row or the column is empty *)
Definition epmi_entry (m : matrix) (i j : nat) : R :=
  if Req_EM_T (row_sum m i) 0 then 0 else if Req_EM_T (col_sum m j) 0 then 0
  else ment m i j * total m / (row_sum m i * col_sum m j).
Definition ppmi_entry (m : matrix) (i j : nat) : R :=
  let e := epmi_entry m i j in if Rlt_dec 0 e then Rmax 0 (ln e) else 0.

Lemma vals_result m z f : vals z (type_of m) (m_nr m) (m_nc m) f -> result_of m z f.
Proof. intros ((W&T&R1&C1)&E). repeat (split; [assumption|]). exact E. Qed.
Lemma result_vals m z f : result_of m z f -> vals z (type_of m) (m_nr m) (m_nc m) f.
Proof. intros (W&T&R1&C1&E). split; [split; auto|exact E]. Qed.

Lemma finv0_R x : @finv0 RNum x = if Req_EM_T x 0 then 0 else / x.
Proof. unfold finv0. cbn [feqb f0 f1 fdiv RNum]. unfold Reqb. destruct (Req_EM_T x 0); [reflexivity|]. unfold Rdiv. apply Rmult_1_l. Qed.
Lemma nth_nonzero_invert (l : list R) i : nth i (nonzero_invert l) 0 = @finv0 RNum (nth i l 0).
Proof.
  unfold nonzero_invert. replace 0 with (@finv0 RNum 0) at 1; [apply map_nth|]. rewrite finv0_R. destruct (Req_EM_T 0 0); [reflexivity|contradiction].
Qed.
Lemma nonzero_invert_length (l : list R) : length (nonzero_invert l) = length l.
Proof. apply map_length. Qed.
Lemma suml_nth (l : list R) : suml l = rsum (length l) (fun i => nth i l 0).
Proof.
  rewrite suml_fold_right. rewrite <- fold_right_map_seq. f_equal. apply (nth_ext _ _ 0 0).
  - rewrite map_length, seq_length. reflexivity.
  - intros i Hi. rewrite nth_map_seq by assumption. reflexivity.
Qed.

(** EPMI with given column marginals *)
Lemma epmi_value m marg cs : mwf m -> non_negative m ->
  match marg with Some l => l | None => m_sum0 m end = cs -> length cs = m_nc m ->
  exists z, epmi_apply m marg = Ok z /\
    vals z (type_of m) (m_nr m) (m_nc m) (fun i j => ment m i j * @finv0 RNum (row_sum m i) * (@finv0 RNum (nth j cs 0) * rsum (m_nc m) (fun j => nth j cs 0))).
Proof.
  intros Hm Hp Hcs Hl. unfold epmi_apply. destruct (assert_positive_iff m Hm) as (Hiff & _). rewrite (proj2 Hiff Hp). cbn [bind].
  change (@F RNum) with R in *. rewrite Hcs.
  destruct (vals_scale_rows m _ _ _ _ (nonzero_invert (m_sum1 m)) (vals_self m Hm)) as (z1 & E1 & V1).
  { rewrite nonzero_invert_length. apply m_sum1_length. }
  rewrite E1. cbn [bind].
  destruct (vals_scale_cols z1 _ _ _ _ (map (fun x => fmul x (suml cs)) (nonzero_invert cs)) V1) as (z & E2 & V2).
  { rewrite map_length. unfold nonzero_invert. rewrite map_length. exact Hl. }
  exists z. split; [exact E2|]. eapply vals_ext; [exact V2|]. intros i j Hi Hj. cbn beta.
  change (@f0 RNum) with 0. change (@fmul RNum) with Rmult. rewrite nth_nonzero_invert. rewrite nth_m_sum1_R by assumption. f_equal.
  rewrite nth_indep with (d' := 0 * suml cs) by (rewrite map_length; unfold nonzero_invert; rewrite map_length; change (j < @length R cs)%nat; lia).
  rewrite (map_nth (fun x => x * suml cs)). rewrite nth_nonzero_invert, suml_nth, Hl. reflexivity.
Qed.
Lemma col_sums m j : (j < m_nc m)%nat -> nth j (m_sum0 m) 0 = col_sum m j.
Proof. apply nth_m_sum0_R. Qed.
Lemma total_cols m : rsum (m_nc m) (fun j => nth j (m_sum0 m) 0) = total m.
Proof. unfold total. rewrite rsum_swap. apply rsum_ext. intros j Hj. apply nth_m_sum0_R, Hj. Qed.
Lemma epmi_self m : mwf m -> non_negative m -> exists z, epmi_apply m None = Ok z /\ vals z (type_of m) (m_nr m) (m_nc m) (epmi_entry m).
Proof.
  intros Hm Hp. destruct (epmi_value m None (m_sum0 m) Hm Hp eq_refl (m_sum0_length m)) as (z & E & V). exists z. split; [exact E|].
  eapply vals_ext; [exact V|]. intros i j Hi Hj. cbn beta. rewrite col_sums, total_cols by assumption. rewrite !finv0_R. unfold epmi_entry.
  destruct (Req_EM_T (row_sum m i) 0); [lra|]. destruct (Req_EM_T (col_sum m j) 0); [lra|]. change (@F RNum) with R. field. auto.
Qed.
Lemma epmi_entry_nonneg m i j : non_negative m -> (i < m_nr m)%nat -> (j < m_nc m)%nat -> 0 <= epmi_entry m i j.
Proof.
  intros Hp Hi Hj. unfold epmi_entry.
  assert (0 <= row_sum m i) by (apply rsum_nonneg; intros; apply Hp; assumption).
  assert (0 <= col_sum m j) by (apply rsum_nonneg; intros; apply Hp; assumption).
  assert (0 <= total m) by (apply rsum_nonneg; intros; apply rsum_nonneg; intros; apply Hp; assumption).
  destruct (Req_EM_T (row_sum m i) 0); [lra|]. destruct (Req_EM_T (col_sum m j) 0); [lra|].
  apply Rmult_le_pos; [apply Rmult_le_pos; [apply Hp; assumption|assumption]|]. apply Rlt_le, Rinv_0_lt_compat, Rmult_lt_0_compat; lra.
Qed.

(** ** C15 *)
Theorem C15_epmi : forall m, mwf m -> non_negative m -> exists z, scaling_apply Epmi m None = Ok z /\ result_of m z (epmi_entry m).
Proof. intros m Hm Hp. destruct (epmi_self m Hm Hp) as (z & E & V). exists z. split; [exact E|]. apply vals_result, V. Qed.
Theorem C15_negative_rejected : forall m s, mwf m -> In s [Epmi; Ppmi; Plmi] ->
  (exists i j, (i < m_nr m)%nat /\ (j < m_nc m)%nat /\ ment m i j < 0) -> scaling_apply s m None = Err ValueError.
Proof.
  intros m s Hm Hs (i & j & Hi & Hj & Hlt). destruct (assert_positive_iff m Hm) as (Hiff & [Hok|Herr]).
  - pose proof (proj1 Hiff Hok i j Hi Hj). lra.
  - assert (He : epmi_apply m None = Err ValueError) by (unfold epmi_apply; rewrite Herr; reflexivity).
    destruct Hs as [<-|[<-|[<-|[]]]]; cbn [scaling_apply]; unfold plmi_apply, ppmi_apply; rewrite He; reflexivity.
Qed.

Definition cm : matrix := MD (DM 2 2 [[1; 3]; [0; 0]]).
Lemma cm_wf : mwf cm.  Proof. repeat split; cbn; try lia; repeat constructor. Qed.
Lemma cm_nonneg : non_negative cm.
Proof. intros [|[|i]] [|[|j]] Hi Hj; cbn in *; try lia; unfold dent; cbn; lra. Qed.
Example C15_example : mwf cm /\ non_negative cm /\ epmi_entry cm 0 1 = 1 /\ epmi_entry cm 1 0 = 0.
Proof.
  split; [apply cm_wf|]. split; [apply cm_nonneg|]. unfold epmi_entry, row_sum, col_sum, total, cm, ment, dent. cbn. split.
  - destruct (Req_EM_T _ _); [lra|]. destruct (Req_EM_T _ _); [lra|]. field.
  - destruct (Req_EM_T _ _); [reflexivity|]. exfalso; lra.
Qed.

(** ** C16 *)
Lemma plogf_ppmi m i j : plogf (epmi_entry m i j) = ppmi_entry m i j.
Proof.
  rewrite plogf_max. unfold ppmi_entry. destruct (Rlt_dec 0 (epmi_entry m i j)); [reflexivity|]. rewrite Rmax_left; lra.
Qed.
Lemma ppmi_value m : mwf m -> non_negative m -> exists z, ppmi_apply m None = Ok z /\ vals z (type_of m) (m_nr m) (m_nc m) (ppmi_entry m).
Proof.
  intros Hm Hp. destruct (epmi_self m Hm Hp) as (z & E & V). unfold ppmi_apply. rewrite E. cbn [bind]. eexists. split; [reflexivity|].
  eapply vals_ext; [apply vals_plog, V|]. intros i j _ _. apply plogf_ppmi.
Qed.
Theorem C16_ppmi : forall m, mwf m -> non_negative m -> exists z, scaling_apply Ppmi m None = Ok z /\ result_of m z (ppmi_entry m) /\ non_negative z.
Proof.
  intros m Hm Hp. destruct (ppmi_value m Hm Hp) as (z & E & V). exists z. split; [exact E|]. split; [apply vals_result, V|].
  intros i j Hi Hj. rewrite (vals_nr _ _ _ _ _ V) in Hi. rewrite (vals_nc _ _ _ _ _ V) in Hj. rewrite (vals_ent _ _ _ _ _ i j V Hi Hj).
  unfold ppmi_entry. destruct (Rlt_dec _ _); [apply Rmax_l|lra].
Qed.
Theorem C16_plmi : forall m, mwf m -> non_negative m ->
  exists z, scaling_apply Plmi m None = Ok z /\ result_of m z (fun i j => ment m i j * ppmi_entry m i j) /\ non_negative z.
Proof.
  intros m Hm Hp. destruct (ppmi_value m Hm Hp) as (z & E & V). cbn [scaling_apply]. unfold plmi_apply. rewrite E. cbn [bind].
  destruct (vals_multiply m z _ _ _ _ _ (vals_self m Hm) V) as (q & Eq & Vq). exists q. split; [exact Eq|]. split; [apply vals_result, Vq|].
  intros i j Hi Hj. rewrite (vals_nr _ _ _ _ _ Vq) in Hi. rewrite (vals_nc _ _ _ _ _ Vq) in Hj. rewrite (vals_ent _ _ _ _ _ i j Vq Hi Hj).
  change (@fmul RNum) with Rmult. apply Rmult_le_pos; [apply Hp; assumption|].
  unfold ppmi_entry. destruct (Rlt_dec _ _); [apply Rmax_l|lra].
Qed.
Example C16_example : mwf cm /\ non_negative cm.  Proof. split; [apply cm_wf|apply cm_nonneg]. Qed.

(** ** C17 *)
Theorem C17_plog : forall m, mwf m ->
  exists z, scaling_apply Plog m None = Ok z /\ result_of m z (fun i j => if Rle_dec 1 (ment m i j) then ln (ment m i j) else 0) /\ non_negative z.
Proof.
  intros m Hm. eexists. split; [reflexivity|]. pose proof (vals_plog m _ _ _ _ (vals_self m Hm)) as V. split.
  - apply vals_result. eapply vals_ext; [exact V|]. intros i j _ _. cbn beta. unfold plogf.
    destruct (Rlt_dec (ment m i j) 1), (Rle_dec 1 (ment m i j)); try lra; reflexivity.
  - intros i j Hi Hj. rewrite (vals_nr _ _ _ _ _ V) in Hi. rewrite (vals_nc _ _ _ _ _ V) in Hj. rewrite (vals_ent _ _ _ _ _ i j V Hi Hj). apply plogf_nonneg.
Qed.
Example C17_example : mwf cm.  Proof. apply cm_wf. Qed.

(** ** C18 *)
Definition row_size (c : crit) (m : matrix) (i : nat) : R :=
  match c with CSum => row_sum m i | CLength => norm (m_nc m) (ment m i) end.
Lemma rownorm_value c m : mwf m -> exists z, rownorm_apply c m = Ok z /\
  vals z (type_of m) (m_nr m) (m_nc m) (fun i j => ment m i j * @finv0 RNum (row_size c m i)).
Proof.
  intros Hm. unfold rownorm_apply. set (l := match c with CLength => m_norm1 m | CSum => m_sum1 m end).
  assert (Hl : length (nonzero_invert l) = m_nr m) by (unfold nonzero_invert; rewrite map_length; destruct c; [apply m_sum1_length|apply m_norm1_length]).
  destruct (vals_scale_rows m _ _ _ _ _ (vals_self m Hm) Hl) as (z & E & V). exists z. split; [exact E|].
  eapply vals_ext; [exact V|]. intros i j Hi Hj. cbn beta. change (@f0 RNum) with 0. change (@fmul RNum) with Rmult. rewrite nth_nonzero_invert. do 2 f_equal.
  unfold l. destruct c; cbn [row_size]; [apply nth_m_sum1_R, Hi|apply nth_m_norm1_R; assumption].
Qed.
Theorem C18_row_normalization : forall c m, mwf m -> exists z, scaling_apply (RowNorm c) m None = Ok z /\
  result_of m z (fun i j => if Req_EM_T (row_size c m i) 0 then 0 else ment m i j / row_size c m i) /\
  forall i, (i < m_nr m)%nat ->
    (row_size c m i <> 0 -> row_size c z i = 1) /\
    ((forall j, (j < m_nc m)%nat -> ment m i j = 0) -> forall j, (j < m_nc m)%nat -> ment z i j = 0).
Proof.
  intros c m Hm. destruct (rownorm_value c m Hm) as (z & E & V). exists z. split; [exact E|].
  assert (V' : vals z (type_of m) (m_nr m) (m_nc m) (fun i j => if Req_EM_T (row_size c m i) 0 then 0 else ment m i j / row_size c m i)).
  { eapply vals_ext; [exact V|]. intros i j _ _. cbn beta. rewrite finv0_R. destruct (Req_EM_T _ _); [lra|reflexivity]. }
  split; [apply vals_result, V'|]. intros i Hi. split.
  - intros Hne. unfold row_size. rewrite (vals_nc _ _ _ _ _ V').
    assert (Hz : forall j, (j < m_nc m)%nat -> ment z i j = / row_size c m i * ment m i j).
    { intros j Hj. rewrite (vals_ent _ _ _ _ _ i j V' Hi Hj). destruct (Req_EM_T _ _); [contradiction|]. unfold Rdiv. apply Rmult_comm. }
    destruct c.
    + unfold row_sum at 1. rewrite (vals_nc _ _ _ _ _ V'), (rsum_ext _ (fun j => ment z i j) (fun j => / row_size CSum m i * ment m i j) Hz), rsum_scal_l.
      change (rsum (m_nc m) (fun i0 => ment m i i0)) with (row_size CSum m i). apply Rinv_l, Hne.
    + rewrite (norm_ext _ _ _ Hz), norm_scal. change (norm (m_nc m) (fun i0 => ment m i i0)) with (row_size CLength m i).
      assert (0 <= row_size CLength m i) by apply norm_nonneg. rewrite Rabs_pos_eq by (apply Rlt_le, Rinv_0_lt_compat; lra). apply Rinv_l, Hne.
  - intros Hz j Hj. rewrite (vals_ent _ _ _ _ _ i j V Hi Hj). rewrite Hz by assumption. lra.
Qed.
Lemma rownorm_rows m z i j : mwf m -> scaling_apply (RowNorm CLength) m None = Ok z -> (i < m_nr m)%nat -> (j < m_nc m)%nat ->
  ment z i j = if Req_EM_T (norm (m_nc m) (ment m i)) 0 then 0 else ment m i j / norm (m_nc m) (ment m i).
Proof.
  intros Hm E Hi Hj. destruct (C18_row_normalization CLength m Hm) as (z' & E' & (_&_&_&_&He) & _). rewrite E in E'. inversion E'; subst z'. apply He; assumption.
Qed.
Lemma rownorm_is m z : mwf m -> scaling_apply (RowNorm CLength) m None = Ok z -> mwf z /\ type_of z = type_of m /\ m_nr z = m_nr m /\ m_nc z = m_nc m.
Proof.
  intros Hm E. destruct (C18_row_normalization CLength m Hm) as (z' & E' & (W&T&R1&C1&_) & _). rewrite E in E'. inversion E'; subst z'. auto.
Qed.
Theorem C18_idempotent : forall m z z2, mwf m -> scaling_apply (RowNorm CLength) m None = Ok z ->
  scaling_apply (RowNorm CLength) z None = Ok z2 -> forall i j, (i < m_nr m)%nat -> (j < m_nc m)%nat -> ment z2 i j = ment z i j.
Proof.
  intros m z z2 Hm E1 E2 i j Hi Hj. destruct (rownorm_is m z Hm E1) as (Wz&_&Rz&Cz).
  rewrite (rownorm_rows z z2 i j Wz E2) by lia.
  destruct (C18_row_normalization CLength m Hm) as (z' & E' & Hr & Hs). rewrite E1 in E'. inversion E'; subst z'. destruct (Hs i Hi) as (Hs1 & Hs2).
  cbn [row_size] in *. destruct (Req_EM_T (norm (m_nc m) (ment m i)) 0) as [H0|H0].
  - rewrite norm_zero in H0. rewrite (Hs2 H0 j Hj). destruct (Req_EM_T _ _); [reflexivity|]. unfold Rdiv. lra.
  - rewrite Hs1 by exact H0. destruct (Req_EM_T 1 0); [lra|]. unfold Rdiv. rewrite Rinv_1. lra.
Qed.
Theorem C18_preserves_cosine : forall m z, mwf m -> scaling_apply (RowNorm CLength) m None = Ok z ->
  forall i k, (i < m_nr m)%nat -> (k < m_nr m)%nat -> cosine (m_nc m) (ment z i) (ment z k) = cosine (m_nc m) (ment m i) (ment m k).
Proof.
  intros m z Hm E i k Hi Hk. set (n := m_nc m).
  assert (Hrow : forall i, (i < m_nr m)%nat -> exists a, 0 <= a /\ (norm n (ment m i) = 0 \/ 0 < a) /\ forall j, (j < n)%nat -> ment z i j = a * ment m i j).
  { intros p Hp. destruct (Req_EM_T (norm n (ment m p)) 0) as [H0|H0].
    - exists 0. split; [lra|]. split; [left; exact H0|]. intros j Hj. rewrite (rownorm_rows m z p j Hm E Hp Hj). fold n. destruct (Req_EM_T _ _); [lra|contradiction].
    - assert (0 <= norm n (ment m p)) by apply norm_nonneg. exists (/ norm n (ment m p)). assert (0 < / norm n (ment m p)) by (apply Rinv_0_lt_compat; lra).
      split; [lra|]. split; [right; assumption|]. intros j Hj. rewrite (rownorm_rows m z p j Hm E Hp Hj). fold n.
      destruct (Req_EM_T _ _); [contradiction|]. unfold Rdiv. apply Rmult_comm. }
  destruct (Hrow i Hi) as (a & Ha & Hca & Ea). destruct (Hrow k Hk) as (b & Hb & Hcb & Eb).
  unfold cosine. rewrite (norm_ext n (ment z i) (fun j => a * ment m i j) Ea), (norm_ext n (ment z k) (fun j => b * ment m k j) Eb), !norm_scal, !Rabs_pos_eq by assumption.
  rewrite (dot_ext n (ment z i) (fun j => a * ment m i j) (ment z k) (fun j => b * ment m k j) Ea Eb), dot_scal_l, dot_scal_r.
  destruct (Req_EM_T (norm n (ment m i)) 0) as [H0|H0].
  - rewrite H0, Rmult_0_r. destruct (Req_EM_T 0 0); [reflexivity|contradiction].
  - destruct Hca as [|Hca]; [contradiction|]. destruct (Req_EM_T (a * norm n (ment m i)) 0) as [K|K]; [apply Rmult_integral in K; lra|].
    destruct (Req_EM_T (norm n (ment m k)) 0) as [H1|H1].
    + rewrite H1, Rmult_0_r. destruct (Req_EM_T 0 0); [reflexivity|contradiction].
    + destruct Hcb as [|Hcb]; [contradiction|]. destruct (Req_EM_T (b * norm n (ment m k)) 0) as [K2|K2]; [apply Rmult_integral in K2; lra|]. field. lra.
Qed.
Example C18_example : mwf cm /\ row_size CSum cm 0 <> 0 /\ row_size CLength cm 1 = 0.
Proof.
  split; [apply cm_wf|]. split; [unfold row_size, row_sum, cm, ment, dent; cbn; lra|]. cbn [row_size]. apply norm_zero. intros [|[|j]] Hj; cbn in *; try lia; reflexivity.
Qed.

(** ** C19 *)
Definition size (c : crit) (m : matrix) : R := match c with CSum => total m | CLength => frobenius m end.
Theorem C19_normalization : forall c m, mwf m -> exists z, scaling_apply (Norm c) m None = Ok z /\
  (size c m <> 0 -> result_of m z (fun i j => ment m i j / size c m) /\ size c z = 1) /\ (size c m = 0 -> z = m).
Proof.
  intros c m Hm. cbn [scaling_apply]. unfold norm_apply.
  assert (Hs : (match c with CLength => m_norm m | CSum => m_sum m end) = size c m).
  { destruct c; cbn [size]; [apply m_sum_R|apply m_norm_R, Hm]. }
  change (@F RNum) with R in *. rewrite Hs. cbn [feqb f0 f1 fdiv RNum]. unfold Reqb. destruct (Req_EM_T (size c m) 0) as [H0|H0].
  - exists m. split; [reflexivity|]. split; [intros; contradiction|reflexivity].
  - eexists. split; [reflexivity|]. split; [intros _|intros; contradiction].
    pose proof (vals_scal (1 / size c m) m _ _ _ _ (vals_self m Hm)) as V. set (z := m_scal _ _) in *.
    assert (V' : vals z (type_of m) (m_nr m) (m_nc m) (fun i j => / size c m * ment m i j)).
    { eapply vals_ext; [exact V|]. intros i j _ _. cbn beta. change (@fmul RNum) with Rmult. unfold Rdiv. rewrite Rmult_1_l. apply Rmult_comm. }
    split; [apply vals_result; eapply vals_ext; [exact V'|]; intros; cbn beta; unfold Rdiv; apply Rmult_comm|].
    destruct c; cbn [size] in *.
    + unfold total at 1. rewrite (vals_nr _ _ _ _ _ V'), (vals_nc _ _ _ _ _ V').
      rewrite (rsum_ext _ _ (fun i => / total m * rsum (m_nc m) (fun j => ment m i j))).
      * rewrite rsum_scal_l. fold (total m). apply Rinv_l, H0.
      * intros i Hi. rewrite <- rsum_scal_l. apply rsum_ext. intros j Hj. exact (vals_ent _ _ _ _ _ i j V' Hi Hj).
    + unfold frobenius at 1. rewrite (vals_nr _ _ _ _ _ V'), (vals_nc _ _ _ _ _ V').
      set (q := rsum (m_nr m) (fun i => rsum (m_nc m) (fun j => ment m i j * ment m i j))).
      assert (Hq : 0 <= q) by (apply rsum_nonneg; intros; apply rsum_nonneg; intros; nra).
      rewrite (rsum_ext _ _ (fun i => (/ frobenius m * / frobenius m) * rsum (m_nc m) (fun j => ment m i j * ment m i j))).
      * rewrite rsum_scal_l. fold q. assert (Hf : frobenius m * frobenius m = q) by (apply sqrt_sqrt, Hq).
        rewrite <- Hf. replace (_ * _ * _) with 1 by (field; exact H0). apply sqrt_1.
      * intros i Hi. rewrite <- rsum_scal_l. apply rsum_ext. intros j Hj. rewrite (vals_ent _ _ _ _ _ i j V' Hi Hj). ring.
Qed.
Example C19_example : mwf cm /\ size CSum cm = 4.
Proof. split; [apply cm_wf|]. unfold size, total, cm, ment, dent; cbn; lra. Qed.

(** ** C20 *)
Definition col_score (c : crit) (m : matrix) (j : nat) : R :=
  match c with CSum => col_sum m j | CLength => norm (m_nr m) (fun i => ment m i j) end.
(** [sel] lists min(k,n) distinct columns, best first, ties in column order, nothing better (or equal and earlier) is dropped *)
Record best_columns (n k : nat) (score : nat -> R) (sel : list nat) : Prop := {
  bc_length : length sel = Nat.min k n;
  bc_distinct : NoDup sel;
  bc_range : forall j, In j sel -> (j < n)%nat;
  bc_order : forall a b, (a < b < length sel)%nat ->
     score (nth b sel O) <= score (nth a sel O) /\ (score (nth a sel O) = score (nth b sel O) -> (nth a sel O < nth b sel O)%nat);
  bc_dropped : forall q j, (q < n)%nat -> ~ In q sel -> In j sel -> score q <= score j /\ (score q = score j -> (j < q)%nat) }.

Lemma fs_norms_score c m j : mwf m -> (j < m_nc m)%nat -> nth j (fs_norms c m) 0 = col_score c m j.
Proof. intros Hm Hj. destruct c; cbn [fs_norms col_score]; [apply nth_m_sum0_R, Hj|apply nth_m_norm0_R; assumption]. Qed.

Lemma firstn_best (norms : list R) n k (score : nat -> R) : length norms = n -> (forall j, (j < n)%nat -> nth j norms 0 = score j) ->
  best_columns n k score (firstn (Nat.min k n) (sorted_permutation norms)).
Proof.
  intros Hn Hs. set (perm := sorted_permutation norms). set (m := Nat.min k n).
  assert (Hpl : length perm = n) by (unfold perm; rewrite sorted_permutation_length; exact Hn).
  assert (Hlt : forall a, (a < n)%nat -> (nth a perm O < n)%nat).
  { intros a Ha. rewrite <- Hn. apply sorted_permutation_In. apply nth_In. fold perm. lia. }
  assert (Hfl : length (firstn m perm) = m) by (rewrite firstn_length; unfold m in *; lia).
  assert (Hnf : forall a, (a < m)%nat -> nth a (firstn m perm) O = nth a perm O).
  { intros a Ha. rewrite <- (firstn_skipn m perm) at 2. rewrite app_nth1 by lia. reflexivity. }
  assert (Hord : forall a b, (a < b < n)%nat -> score (nth b perm O) <= score (nth a perm O) /\
             (score (nth a perm O) = score (nth b perm O) -> (nth a perm O < nth b perm O)%nat)).
  { intros a b Hab. pose proof (sorted_permutation_order norms a b) as K. cbn zeta in K. fold perm in K. rewrite !Hs in K by (apply Hlt; lia). apply K. lia. }
  split.
  - exact Hfl.
  - pose proof (sorted_permutation_NoDup norms) as Hd. fold perm in Hd. rewrite <- (firstn_skipn m perm) in Hd. apply NoDup_app_l in Hd. exact Hd.
  - intros j Hj. apply (In_nth _ _ O) in Hj. destruct Hj as (a & Ha & <-). rewrite Hfl in Ha. rewrite Hnf by exact Ha. apply Hlt. unfold m in *; lia.
  - intros a b Hab. rewrite Hfl in Hab. rewrite !Hnf by lia. apply Hord. unfold m in *; lia.
  - intros q j Hq Hni Hj. apply (In_nth _ _ O) in Hj. destruct Hj as (a & Ha & <-). rewrite Hfl in Ha. rewrite Hnf by exact Ha.
    destruct (sorted_permutation_pos norms q) as (b & Hb & Eb); [change (q < length norms)%nat; lia|]. fold perm in Eb. change (b < @length R norms)%nat in Hb.
    assert (Hmb : (m <= b)%nat). { destruct (le_lt_dec m b); [assumption|]. exfalso. apply Hni. rewrite <- Eb, <- Hnf by assumption. apply nth_In. lia. }
    destruct (Hord a b ltac:(lia)) as (K1 & K2). rewrite Eb in K1, K2. split; [exact K1|]. intros He. apply K2. symmetry. exact He.
Qed.

Theorem C20_selection : forall c k m, mwf m -> (0 < k)%nat ->
  exists z sel, topfs_apply c k m = Ok (z, sel) /\ best_columns (m_nc m) k (col_score c m) sel /\
    mwf z /\ type_of z = type_of m /\ m_nr z = m_nr m /\ m_nc z = length sel /\
    forall i a, (i < m_nr m)%nat -> (a < length sel)%nat -> ment z i a = ment m i (nth a sel O).
Proof.
  intros c k m Hm Hk. unfold topfs_apply. fold (fs_norms c m). set (sel := firstn _ _).
  assert (Hb : best_columns (m_nc m) k (col_score c m) sel).
  { apply firstn_best; [apply fs_norms_length|]. intros j Hj. apply fs_norms_score; assumption. }
  destruct (mwf_pos m Hm) as (_ & Hc).
  destruct (vals_get_cols m _ _ _ _ sel (vals_self m Hm)) as (z & E & V).
  - apply Forall_forall. apply Hb.
  - rewrite (bc_length _ _ _ _ Hb). lia.
  - exists z, sel. rewrite E. cbn [bind]. split; [reflexivity|]. split; [exact Hb|]. destruct V as ((W&T&R1&C1)&He). repeat (split; [assumption|]). exact He.
Qed.

Section WithExt.
Context {E : @Ext RNum}.
(** in the resulting space: the entry of every row under every kept label is the entry under that label before *)
Theorem C20_labels : forall s c k s', consistent s -> (0 < k)%nat -> s_id2col s <> [] -> space_apply s (TFS c k) = Ok s' ->
  s_id2row s' = s_id2row s /\ length (s_id2col s') = Nat.min k (m_nc (s_mat s)) /\ NoDup (s_id2col s') /\
  forall p l q j, (p < m_nr (s_mat s))%nat -> nth_error (s_id2col s) q = Some l -> nth_error (s_id2col s') j = Some l ->
    ment (s_mat s') p j = ment (s_mat s) p q.
Proof.
  intros s c k s' Hc Hk Hne H. pose proof Hc as (Cm&Cr&Cc&_&_&(NDc&_)&_).
  assert (Ht : tr_ok (TFS c k)) by exact Hk.
  destruct (space_apply_ok _ _ _ Hc Ht H) as (m&o&o0&ic&ci&Ho&Es&Eo&(_&[(Hn&_)|(_&sel&(c'&k'&Hsel)&Hlab&Hd)])&Hw&How&Hcons); [contradiction|].
  cbn [create_operation op_apply] in Ho. destruct (C20_selection c k (s_mat s) Cm Hk) as (z & sel' & Ez & Hb & Wz & Tz & Rz & Cz & Hent).
  rewrite Ez in Ho. cbn [bind] in Ho. injection Ho as <- Eo0. rewrite Hsel in Eo0. injection Eo0 as <- <- <-.
  destruct (select_labels_ok _ _ _ Hlab) as (Ll & Hl). destruct (list2dict_inverse _ _ Hd) as ((NDi&_)&_&_).
  rewrite Es. cbn [s_id2row s_id2col s_mat]. split; [reflexivity|]. split; [rewrite Ll; apply Hb|]. split; [exact NDi|].
  intros p l q j Hp Hq Hj. assert (Hjl : (j < length sel')%nat) by (rewrite <- Ll; apply nth_error_Some; congruence).
  rewrite Hent by assumption. rewrite Hl in Hj by exact Hjl.
  f_equal. apply (proj1 (NoDup_nth_error (s_id2col s)) NDc); [apply nth_error_Some; congruence|congruence].
Qed.
Example C20_example : exists s', consistent sp22 /\ s_id2col sp22 <> [] /\ space_apply sp22 (TFS CSum 1) = Ok s'.
Proof.
  assert (H : forall o : res (@space RNum), exists s', o = Ok s' \/ exists e, o = Err e).
  { intros [s'|e]; [exists s'; auto|exists sp22; right; exists e; reflexivity]. }
  destruct (H (space_apply sp22 (TFS CSum 1))) as (s' & [Hs|(e & He)]).
  - exists s'. split; [apply sp22_consistent|]. split; [discriminate|exact Hs].
  - exfalso. revert He. unfold space_apply. cbn [create_operation op_apply].
    destruct (C20_selection CSum 1 (s_mat sp22)) as (z & sel & Ez & Hb & Wz & Tz & Rz & Cz & _); [apply sp22_consistent|lia|].
    rewrite Ez. cbn [bind]. cbn [assert_1dim_element s_eshape sp22 length Nat.ltb Nat.leb].
    pose proof (bc_length _ _ _ _ Hb) as Hl. cbn in Hl. destruct sel as [|a [|]]; try discriminate. pose proof (bc_range _ _ _ _ Hb a (or_introl eq_refl)) as Ha. cbn in Ha, Cz, Rz.
    destruct a as [|[|a]]; try lia; cbn -[mk_space]; unfold mk_space, assert_shape_consistent; cbn; rewrite Cz, Rz; cbn; discriminate.
Qed.
End WithExt.
