(** PMoved.v -- matrices that hold the same rows in another order and/or in another representation (over R). *)
From Coq Require Import Reals Lra Psatz Permutation.
From Verif Require Import Base PyList Dict Num SpecReal Dense Sparse Matrix PSparse PMatrix PMatOps PShape PVals PReal PPos PSort Scaling Linalg Operation
  Similarity Space Peripheral SpecSpace PDictList PSpace Prop_Space Prop_Scaling Prop_Sim.
#[local] Existing Instance RNum.
Open Scope R_scope.
Open Scope nat_scope.

(** row i of [m1] is row [p i] of [m2] *)
Record moved (p : nat -> nat) (m1 m2 : matrix) : Prop := {
  mv_wf1 : mwf m1; mv_wf2 : mwf m2; mv_nr : m_nr m2 = m_nr m1; mv_nc : m_nc m2 = m_nc m1;
  mv_lt : forall i, i < m_nr m1 -> p i < m_nr m1;
  mv_inj : forall i k, i < m_nr m1 -> k < m_nr m1 -> p i = p k -> i = k;
  mv_ent : forall i j, i < m_nr m1 -> j < m_nc m1 -> ment m2 (p i) j = ment m1 i j }.
Definition rmoved (p : nat -> nat) (x y : res matrix) : Prop :=
  match x, y with Ok a, Ok b => moved p a b | Err e, Err e' => e = e' | _, _ => False end.

Lemma inj_perm n (p : nat -> nat) : (forall i, i < n -> p i < n) -> (forall i k, i < n -> k < n -> p i = p k -> i = k) ->
  Permutation (map p (seq 0 n)) (seq 0 n).
Proof.
  intros Hl Hi. apply NoDup_Permutation_bis.
  - assert (K : forall l, (forall i, In i l -> i < n) -> NoDup l -> NoDup (map p l)).
    { induction l as [|a l IH]; intros Hs Hd; cbn; [constructor|]. inversion Hd; subst. constructor; [|apply IH; [intros; apply Hs; right; assumption|assumption]].
      intros Hin. apply in_map_iff in Hin. destruct Hin as (b & Hb & Hbl). apply Hi in Hb; [subst; contradiction|apply Hs; right; assumption|apply Hs; left; reflexivity]. }
    apply K; [intros i Hin; apply in_seq in Hin; lia|apply seq_NoDup].
  - rewrite map_length. lia.
  - intros x Hx. apply in_map_iff in Hx. destruct Hx as (i & <- & Hin). apply in_seq in Hin. apply in_seq. specialize (Hl i). lia.
Qed.
Lemma fold_right_perm (l l' : list R) : Permutation l l' -> fold_right Rplus 0%R l = fold_right Rplus 0%R l'.
Proof. induction 1; cbn; lra. Qed.
Lemma rsum_perm n (p : nat -> nat) (f : nat -> R) : (forall i, i < n -> p i < n) -> (forall i k, i < n -> k < n -> p i = p k -> i = k) ->
  rsum n (fun i => f (p i)) = rsum n f.
Proof.
  intros Hl Hi. rewrite <- !fold_right_map_seq. rewrite <- (map_map p f). apply fold_right_perm, Permutation_map, inj_perm; assumption.
Qed.
Lemma inj_surj n (p : nat -> nat) : (forall i, i < n -> p i < n) -> (forall i k, i < n -> k < n -> p i = p k -> i = k) ->
  forall k, k < n -> exists i, i < n /\ p i = k.
Proof.
  intros Hl Hi k Hk. pose proof (inj_perm n p Hl Hi) as HP. assert (Hin : In k (map p (seq 0 n))).
  { apply (Permutation_in k (Permutation_sym HP)). apply in_seq. lia. }
  apply in_map_iff in Hin. destruct Hin as (i & E & Hs). apply in_seq in Hs. exists i. split; [lia|exact E].
Qed.

Section Moved.
Variable (p : nat -> nat).
Lemma moved_sum (m1 m2 : matrix) (g : R -> R) j : moved p m1 m2 -> j < m_nc m1 -> rsum (m_nr m2) (fun i => g (ment m2 i j)) = rsum (m_nr m1) (fun i => g (ment m1 i j)).
Proof.
  intros H Hj. rewrite (mv_nr _ _ _ H). rewrite <- (rsum_perm (m_nr m1) p (fun i => g (ment m2 i j))); [|apply H|apply (mv_inj _ _ _ H)].
  apply rsum_ext. intros i Hi. cbn beta. rewrite (mv_ent _ _ _ H) by assumption. reflexivity.
Qed.
Lemma moved_sums (m1 m2 : matrix) (g : R -> R) : moved p m1 m2 ->
  rsum (m_nr m2) (fun i => rsum (m_nc m2) (fun j => g (ment m2 i j))) = rsum (m_nr m1) (fun i => rsum (m_nc m1) (fun j => g (ment m1 i j))).
Proof.
  intros H. rewrite (mv_nr _ _ _ H), (mv_nc _ _ _ H). rewrite <- (rsum_perm (m_nr m1) p (fun i => rsum (m_nc m1) (fun j => g (ment m2 i j)))); [|apply H|apply (mv_inj _ _ _ H)].
  apply rsum_ext. intros i Hi. cbn beta. apply rsum_ext. intros j Hj. rewrite (mv_ent _ _ _ H) by assumption. reflexivity.
Qed.
Lemma moved_sum0 m1 m2 : moved p m1 m2 -> m_sum0 m2 = m_sum0 m1.
Proof.
  intros H. pose proof (mv_nc _ _ _ H) as C. apply (nth_ext _ _ 0%R 0%R).
  - change (length (fs_norms CSum m2) = length (fs_norms CSum m1)). rewrite !fs_norms_length. exact C.
  - intros j Hj. change (j < length (fs_norms CSum m2)) in Hj. rewrite fs_norms_length in Hj. rewrite !nth_m_sum0_R by lia. rewrite C in Hj. exact (moved_sum m1 m2 (fun x => x) j H Hj).
Qed.
Lemma moved_norm0 m1 m2 : moved p m1 m2 -> m_norm0 m2 = m_norm0 m1.
Proof.
  intros H. pose proof (mv_nc _ _ _ H) as C. apply (nth_ext _ _ 0%R 0%R).
  - change (length (fs_norms CLength m2) = length (fs_norms CLength m1)). rewrite !fs_norms_length. exact C.
  - intros j Hj. change (j < length (fs_norms CLength m2)) in Hj. rewrite fs_norms_length in Hj. rewrite !nth_m_norm0_R by (apply H || lia). rewrite C in Hj.
    unfold norm, dot. f_equal. exact (moved_sum m1 m2 (fun x => (x * x)%R) j H Hj).
Qed.
Lemma moved_total m1 m2 : moved p m1 m2 -> m_sum m2 = m_sum m1.
Proof. intros H. rewrite !m_sum_R. exact (moved_sums m1 m2 (fun x => x) H). Qed.
Lemma moved_norm m1 m2 : moved p m1 m2 -> m_norm m2 = m_norm m1.
Proof. intros H. rewrite !m_norm_R by apply H. f_equal. exact (moved_sums m1 m2 (fun x => (x * x)%R) H). Qed.
Lemma moved_stats s m1 m2 : moved p m1 m2 -> get_column_stats s m2 = get_column_stats s m1.
Proof. intros H. destruct s as [| | | |c|[]]; cbn [get_column_stats]; rewrite ?(moved_sum0 _ _ H), ?(moved_total _ _ H), ?(moved_norm _ _ H); reflexivity. Qed.

Lemma moved_sum1 m1 m2 i : moved p m1 m2 -> i < m_nr m1 -> nth (p i) (m_sum1 m2) 0%R = nth i (m_sum1 m1) 0%R.
Proof.
  intros H Hi. rewrite !nth_m_sum1_R by (try rewrite (mv_nr _ _ _ H); try apply H; assumption). rewrite (mv_nc _ _ _ H). apply rsum_ext. intros j Hj. apply H; assumption.
Qed.
Lemma moved_norm1 m1 m2 i : moved p m1 m2 -> i < m_nr m1 -> nth (p i) (m_norm1 m2) 0%R = nth i (m_norm1 m1) 0%R.
Proof.
  intros H Hi. rewrite !nth_m_norm1_R by (try rewrite (mv_nr _ _ _ H); try apply H; assumption). rewrite (mv_nc _ _ _ H). apply norm_ext. intros j Hj. apply H; assumption.
Qed.

(** results with the same shape whose entries follow the rows *)
Lemma moved_vals m1 m2 z1 z2 t1 t2 c f1 f2 : moved p m1 m2 -> vals z1 t1 (m_nr m1) c f1 -> vals z2 t2 (m_nr m1) c f2 ->
  (forall i j, i < m_nr m1 -> j < c -> f2 (p i) j = f1 i j) -> moved p z1 z2.
Proof.
  intros H V1 V2 K. destruct V1 as ((W1&T1&R1&C1)&E1), V2 as ((W2&T2&R2&C2)&E2). split; try assumption; try congruence.
  - rewrite R1. apply H.
  - rewrite R1. apply (mv_inj _ _ _ H).
  - rewrite R1, C1. intros i j Hi Hj. rewrite E1, E2 by (assumption || apply H; assumption). apply K; assumption.
Qed.
Lemma moved_self1 m1 m2 : moved p m1 m2 -> vals m1 (type_of m1) (m_nr m1) (m_nc m1) (ment m1).
Proof. intros H. apply vals_self, H. Qed.
Lemma moved_self2 m1 m2 : moved p m1 m2 -> vals m2 (type_of m2) (m_nr m1) (m_nc m1) (ment m2).
Proof. intros H. rewrite <- (mv_nr _ _ _ H), <- (mv_nc _ _ _ H). apply vals_self, H. Qed.

Lemma moved_positive m1 m2 : moved p m1 m2 -> m_assert_positive m2 = m_assert_positive m1.
Proof.
  intros H. destruct (assert_positive_iff m1 (mv_wf1 _ _ _ H)) as (I1 & D1), (assert_positive_iff m2 (mv_wf2 _ _ _ H)) as (I2 & D2).
  assert (K : m_assert_positive m1 = Ok tt <-> m_assert_positive m2 = Ok tt).
  { rewrite I1, I2, (mv_nr _ _ _ H), (mv_nc _ _ _ H). split; intros P i j Hi Hj.
    - destruct (inj_surj _ p (mv_lt _ _ _ H) (mv_inj _ _ _ H) i Hi) as (i0 & H0 & <-). rewrite (mv_ent _ _ _ H) by assumption. apply P; assumption.
    - rewrite <- (mv_ent _ _ _ H) by assumption. apply P; [apply H; assumption|assumption]. }
  destruct D1 as [D1|D1], D2 as [D2|D2]; try congruence; exfalso; [apply K in D1; congruence|apply K in D2; congruence].
Qed.
Lemma moved_scale_rows m1 m2 (v1 v2 : list (@F RNum)) : moved p m1 m2 -> length v2 = length v1 -> (forall i, i < m_nr m1 -> nth (p i) v2 0%R = nth i v1 0%R) ->
  rmoved p (m_scale_rows m1 v1) (m_scale_rows m2 v2).
Proof.
  intros H Hl K. destruct (Nat.eq_dec (length v1) (m_nr m1)) as [E|E].
  - destruct (vals_scale_rows _ _ _ _ _ v1 (moved_self1 _ _ H) E) as (z1 & -> & V1).
    destruct (vals_scale_rows _ _ _ _ _ v2 (moved_self2 _ _ H) (eq_trans Hl E)) as (z2 & -> & V2). cbn [rmoved].
    apply (moved_vals _ _ _ _ _ _ _ _ _ H V1 V2). intros i j Hi Hj. cbn beta. change (@f0 RNum) with 0%R. rewrite K, (mv_ent _ _ _ H) by assumption. reflexivity.
  - unfold m_scale_rows. rewrite (mv_nr _ _ _ H), Hl. apply Nat.eqb_neq in E. rewrite E. reflexivity.
Qed.
Lemma moved_scale_cols m1 m2 v : moved p m1 m2 -> rmoved p (m_scale_cols m1 v) (m_scale_cols m2 v).
Proof.
  intros H. destruct (Nat.eq_dec (length v) (m_nc m1)) as [E|E].
  - destruct (vals_scale_cols _ _ _ _ _ v (moved_self1 _ _ H) E) as (z1 & -> & V1).
    destruct (vals_scale_cols _ _ _ _ _ v (moved_self2 _ _ H) E) as (z2 & -> & V2). cbn [rmoved].
    apply (moved_vals _ _ _ _ _ _ _ _ _ H V1 V2). intros i j Hi Hj. cbn beta. rewrite (mv_ent _ _ _ H) by assumption. reflexivity.
  - unfold m_scale_cols. rewrite (mv_nc _ _ _ H). apply Nat.eqb_neq in E. rewrite E. reflexivity.
Qed.
Lemma moved_plog m1 m2 : moved p m1 m2 -> moved p (m_plog m1) (m_plog m2).
Proof.
  intros H. apply (moved_vals _ _ _ _ _ _ _ _ _ H (vals_plog _ _ _ _ _ (moved_self1 _ _ H)) (vals_plog _ _ _ _ _ (moved_self2 _ _ H))).
  intros i j Hi Hj. cbn beta. rewrite (mv_ent _ _ _ H) by assumption. reflexivity.
Qed.
Lemma moved_scal x m1 m2 : moved p m1 m2 -> moved p (m_scal x m1) (m_scal x m2).
Proof.
  intros H. apply (moved_vals _ _ _ _ _ _ _ _ _ H (vals_scal x _ _ _ _ _ (moved_self1 _ _ H)) (vals_scal x _ _ _ _ _ (moved_self2 _ _ H))).
  intros i j Hi Hj. cbn beta. rewrite (mv_ent _ _ _ H) by assumption. reflexivity.
Qed.
Lemma moved_get_cols m1 m2 ids : moved p m1 m2 -> rmoved p (m_get_cols m1 ids) (m_get_cols m2 ids).
Proof.
  intros H. destruct (forallb (fun j => Nat.ltb j (m_nc m1)) ids) eqn:E.
  - destruct (Nat.eq_dec (length ids) 0) as [E0|E0].
    + unfold m_get_cols. rewrite (mv_nc _ _ _ H), E. cbn [check bind]. rewrite E0. reflexivity.
    + assert (Hf : Forall (fun j => j < m_nc m1) ids) by (apply Forall_forall; intros j Hj; rewrite forallb_forall in E; apply Nat.ltb_lt, E, Hj).
      destruct (vals_get_cols _ _ _ _ _ ids (moved_self1 _ _ H) Hf ltac:(lia)) as (z1 & -> & V1).
      destruct (vals_get_cols _ _ _ _ _ ids (moved_self2 _ _ H) Hf ltac:(lia)) as (z2 & -> & V2). cbn [rmoved].
      apply (moved_vals _ _ _ _ _ _ _ _ _ H V1 V2). intros i j Hi Hj. cbn beta. apply (mv_ent _ _ _ H); [assumption|]. rewrite Forall_forall in Hf. apply Hf, nth_In, Hj.
  - unfold m_get_cols. rewrite (mv_nc _ _ _ H), E. reflexivity.
Qed.
Lemma rmoved_bind (x1 x2 : res matrix) (k1 k2 : matrix -> res matrix) : rmoved p x1 x2 -> (forall a b, moved p a b -> rmoved p (k1 a) (k2 b)) ->
  rmoved p (let* a := x1 in k1 a) (let* b := x2 in k2 b).
Proof. destruct x1, x2; cbn [rmoved bind]; intros H K; try contradiction; [apply K, H|exact H]. Qed.

Lemma moved_epmi m1 m2 marg : moved p m1 m2 -> rmoved p (epmi_apply m1 marg) (epmi_apply m2 marg).
Proof.
  intros H. unfold epmi_apply. rewrite (moved_positive _ _ H). destruct (m_assert_positive m1) as [[]|e]; cbn [bind]; [|reflexivity].
  rewrite (moved_sum0 _ _ H). apply rmoved_bind; [|intros a b K; apply moved_scale_cols, K].
  apply moved_scale_rows; [exact H| |].
  - rewrite !nonzero_invert_length, !m_sum1_length. apply H.
  - intros i Hi. rewrite !nth_nonzero_invert. f_equal. apply moved_sum1; assumption.
Qed.
Lemma moved_ppmi m1 m2 marg : moved p m1 m2 -> rmoved p (ppmi_apply m1 marg) (ppmi_apply m2 marg).
Proof. intros H. unfold ppmi_apply. apply rmoved_bind; [apply moved_epmi, H|]. intros a b K. cbn [rmoved]. apply moved_plog, K. Qed.

Lemma epmi_shape m marg z : mwf m -> epmi_apply m marg = Ok z -> has z (type_of m) (m_nr m) (m_nc m).
Proof.
  intros Hm H. unfold epmi_apply in H. apply bind_ok in H. destruct H as (u & _ & H). apply bind_ok in H. destruct H as (m1 & H1 & H2).
  apply m_scale_rows_ok in H1; [|exact Hm]. destruct H1 as (_ & K1). apply is_mat_has in K1. cbn in K1. rewrite to_dense_nr, to_dense_nc in K1.
  destruct K1 as (W&T&R1&C1). apply m_scale_cols_ok in H2; [|exact W]. destruct H2 as (_ & K2). apply is_mat_has in K2. cbn in K2. rewrite to_dense_nr, to_dense_nc, T, R1, C1 in K2. exact K2.
Qed.
Lemma ppmi_shape m marg z : mwf m -> ppmi_apply m marg = Ok z -> has z (type_of m) (m_nr m) (m_nc m).
Proof.
  intros Hm H. unfold ppmi_apply in H. apply bind_ok in H. destruct H as (e & H1 & H2). injection H2 as <-. apply epmi_shape in H1; [|exact Hm].
  exact (vals_has _ _ _ _ _ (vals_plog _ _ _ _ _ (vals_of _ _ _ _ H1))).
Qed.
Lemma moved_plmi m1 m2 marg : moved p m1 m2 -> rmoved p (plmi_apply m1 marg) (plmi_apply m2 marg).
Proof.
  intros H. unfold plmi_apply. pose proof (moved_ppmi _ _ marg H) as K. destruct (ppmi_apply m1 marg) as [a|e] eqn:E1, (ppmi_apply m2 marg) as [b|e'] eqn:E2; cbn [rmoved bind] in *; try contradiction; [|exact K].
  apply ppmi_shape in E1; [|apply H]. apply ppmi_shape in E2; [|apply H]. rewrite (mv_nr _ _ _ H), (mv_nc _ _ _ H) in E2.
  destruct (vals_multiply _ _ _ _ _ _ _ (moved_self1 _ _ H) (vals_of _ _ _ _ E1)) as (z1 & -> & V1).
  destruct (vals_multiply _ _ _ _ _ _ _ (moved_self2 _ _ H) (vals_of _ _ _ _ E2)) as (z2 & -> & V2). cbn [rmoved].
  apply (moved_vals _ _ _ _ _ _ _ _ _ H V1 V2). intros i j Hi Hj. cbn beta. rewrite (mv_ent _ _ _ H) by assumption. f_equal. apply (mv_ent _ _ _ K); destruct E1 as (_&_&R1&C1); rewrite ?R1, ?C1; assumption.
Qed.
Lemma moved_rownorm c m1 m2 : moved p m1 m2 -> rmoved p (rownorm_apply c m1) (rownorm_apply c m2).
Proof.
  intros H. unfold rownorm_apply. apply moved_scale_rows; [exact H| |].
  - rewrite !nonzero_invert_length. destruct c; [rewrite !m_sum1_length|rewrite !m_norm1_length]; apply H.
  - intros i Hi. rewrite !nth_nonzero_invert. f_equal. destruct c; [apply moved_sum1|apply moved_norm1]; assumption.
Qed.
Lemma moved_normalize c m1 m2 t : moved p m1 m2 -> rmoved p (norm_apply c m1 t) (norm_apply c m2 t).
Proof.
  intros H. unfold norm_apply. rewrite (moved_total _ _ H), (moved_norm _ _ H). destruct (feqb _ _); cbn [rmoved]; [exact H|apply moved_scal, H].
Qed.
Lemma moved_scaling s m1 m2 st : moved p m1 m2 -> rmoved p (scaling_apply s m1 st) (scaling_apply s m2 st).
Proof.
  intros H. destruct s as [| | | |c|c], st as [[l|x]|]; cbn [scaling_apply]; try reflexivity;
    first [apply moved_epmi, H|apply moved_ppmi, H|apply moved_plmi, H|apply moved_rownorm, H|apply moved_normalize, H|cbn [rmoved]; apply moved_plog, H].
Qed.
Lemma moved_topfs c k m1 m2 : moved p m1 m2 ->
  match topfs_apply c k m1, topfs_apply c k m2 with Ok (a, l), Ok (b, l') => moved p a b /\ l' = l | Err e, Err e' => e = e' | _, _ => False end.
Proof.
  intros H. unfold topfs_apply. fold (fs_norms c m1) (fs_norms c m2).
  assert (E : fs_norms c m2 = fs_norms c m1) by (destruct c; [apply moved_sum0, H|apply moved_norm0, H]).
  rewrite E, (mv_nc _ _ _ H). pose proof (moved_get_cols _ _ (firstn (Nat.min k (m_nc m1)) (sorted_permutation (fs_norms c m1))) H) as K.
  destruct (m_get_cols m1 _), (m_get_cols m2 _); cbn [rmoved bind] in *; try contradiction; auto.
Qed.

(** projection of an operation *)
Lemma moved_conv t1 t2 m1 m2 : moved p m1 m2 -> moved p (conv t1 m1) (conv t2 m2).
Proof.
  intros H. apply (moved_vals _ _ _ _ _ _ _ _ _ H (vals_conv t1 _ _ _ _ _ (moved_self1 _ _ H)) (vals_conv t2 _ _ _ _ _ (moved_self2 _ _ H))). intros. apply H; assumption.
Qed.
Lemma moved_nonneg m1 m2 : moved p m1 m2 -> moved p (m_to_non_negative m1) (m_to_non_negative m2).
Proof.
  intros H.
  assert (K : forall m t r c f, vals m t r c f -> vals (m_to_non_negative m) t r c (fun i j => pos_part (f i j))).
  { intros m t r c f V. destruct m as [d|s].
    - exact (vals_map_raw pos_part pos_part _ _ _ _ _ V pos_part_0 (fun x => eq_refl)).
    - apply (vals_map_raw pos_part clip0 _ _ _ _ _ V clip0_0). intros x. unfold clip0, pos_part. cbn [fltb f0 RNum]. unfold Rltb. destruct (Rlt_dec x 0), (Rlt_dec 0 x); lra. }
  apply (moved_vals _ _ _ _ _ _ _ _ _ H (K _ _ _ _ _ (moved_self1 _ _ H)) (K _ _ _ _ _ (moved_self2 _ _ H))).
  intros i j Hi Hj. cbn beta. rewrite (mv_ent _ _ _ H) by assumption. reflexivity.
Qed.
End Moved.
