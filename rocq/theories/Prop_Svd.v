(** Prop_Svd.v -- property C21: SVD reduction and its projection, over exact reals. *)
From Coq Require Import Reals Lra Psatz.
From Verif Require Import Base PyList Dict Num SpecReal Dense Sparse Matrix PSparse PMatrix PMatOps PShape PVals PReal PPos Scaling Linalg Operation
  Prop_Scaling Prop_Alike.
#[local] Existing Instance RNum.
Open Scope R_scope.
Open Scope nat_scope.

(** ** specification of the external routines *)
Definition delta (i j : nat) : R := (if Nat.eqb i j then 1 else 0)%R.
(** n left vectors u_0..u_(n-1) of length r and right vectors v_0..v_(n-1) of length c: orthonormal singular triples of f *)
Record singular_triples (r c n : nat) (f : nat -> nat -> R) (u : nat -> nat -> R) (s : nat -> R) (v : nat -> nat -> R) : Prop := {
  st_left  : forall a b, a < n -> b < n -> rsum r (fun i => u i a * u i b)%R = delta a b;
  st_right : forall a b, a < n -> b < n -> rsum c (fun j => v a j * v b j)%R = delta a b;
  st_mul   : forall i a, i < r -> a < n -> rsum c (fun j => f i j * v a j)%R = (s a * u i a)%R }.
(** ... and f is the sum of the rank-one matrices s_a u_a v_a *)
Definition reconstructs (r c n : nat) (f : nat -> nat -> R) (u : nat -> nat -> R) (s : nat -> R) (v : nat -> nat -> R) : Prop :=
  forall i j, i < r -> j < c -> f i j = rsum n (fun a => u i a * s a * v a j)%R.
Definition non_increasing (n : nat) (s : nat -> R) : Prop := forall a b, a <= b -> b < n -> (s b <= s a)%R.
Definition tolerance : R := (1 / 1000000000000)%R.

Section WithExt.
Context {E : @Ext RNum}.
(** numpy.linalg.svd / sparsesvd return a correct decomposition whenever they return *)
Definition numpy_svd_correct : Prop := forall d u s vt, dwfm d -> e_svd d = Ok (u, s, vt) ->
  singular_triples (d_nr d) (d_nc d) (Nat.min (d_nr d) (d_nc d)) (dent d) u s vt /\
  reconstructs (d_nr d) (d_nc d) (Nat.min (d_nr d) (d_nc d)) (dent d) u s vt /\
  non_increasing (Nat.min (d_nr d) (d_nc d)) s /\ (forall a, a < Nat.min (d_nr d) (d_nc d) -> (0 <= s a)%R).
Definition sparsesvd_correct : Prop := forall c k dim ut s vt, swf c -> e_sparsesvd c k = Ok (dim, ut, s, vt) ->
  singular_triples (s_nr c) (s_nc c) dim (sent c) (fun i a => ut a i) s vt.

(** ** lemmas *)
Lemma filter_length_le {A} (p : A -> bool) l : length (filter p l) <= length l.
Proof. induction l as [|x t IH]; cbn; [lia|]. destruct (p x); cbn; lia. Qed.
(** the orientation chosen by the sign normalisation *)
Definition sign (z : R) : Prop := z = 1%R \/ z = (-1)%R.
Lemma sign_sq z : sign z -> (z * z = 1)%R.  Proof. intros [-> | ->]; lra. Qed.

Definition svd_result (k : nat) (m : matrix) (us v : matrix) (n : nat) (u : nat -> nat -> R) (s : nat -> R) (vt : nat -> nat -> R) (z : R) : Prop :=
  vals us (type_of m) (m_nr m) n (fun i a => z * u i a * s a)%R /\ vals v (type_of m) (m_nc m) n (fun j a => z * vt a j)%R.

Lemma nth_firstn_map_seq (s : nat -> R) n p a : a < n -> n <= p -> nth a (firstn n (map s (seq 0 p))) 0%R = s a.
Proof.
  intros Ha Hn. assert (L : forall (q : list R) a n, a < n -> nth a (firstn n q) 0%R = nth a q 0%R).
  { clear. induction q as [|x q IH]; intros [|a] [|n] Hx; try lia; cbn; try reflexivity. apply IH; lia. }
  rewrite L by assumption. apply nth_map_seq. lia.
Qed.
Lemma scale_pair t r n (um : matrix) (u : nat -> nat -> R) sv (s : nat -> R) : vals um t r n u -> length sv = n -> (forall a, a < n -> nth a sv 0%R = s a) ->
  exists z, m_scale_cols um sv = Ok z /\ vals z t r n (fun i a => u i a * s a)%R.
Proof.
  intros Hu Hl Hs. destruct (vals_scale_cols um _ _ _ _ sv Hu Hl) as (z & E1 & V). exists z. split; [exact E1|]. eapply vals_ext; [exact V|].
  intros i j Hi Hj. cbn beta. change (@f0 RNum) with 0%R. change (@F RNum) with R in *. rewrite Hs by assumption. reflexivity.
Qed.

Definition dense_dims (d : dmat) (s : nat -> R) (k : nat) : nat :=
  Nat.min (Nat.min (d_nr d) (d_nc d)) (Nat.min k (count (Rltb tolerance) (map s (seq 0 (Nat.min (d_nr d) (d_nc d)))))).
Lemma dense_svd_value k d : mwf (MD d) -> 0 < k -> numpy_svd_correct -> forall u s vt, e_svd d = Ok (u, s, vt) ->
  let n := dense_dims d s k in
  if Nat.eqb n 0 then svd_apply k (MD d) = Err ValueError
  else exists us v z, svd_apply k (MD d) = Ok (us, v) /\ sign z /\ svd_result k (MD d) us v n u s vt z.
Proof.
  intros Hd Hk HC u s vt Es n. pose proof (mwf_pos _ Hd) as (Hr & Hc). cbn [m_nr m_nc] in Hr, Hc. unfold svd_apply, linalg_svd.
  destruct (Nat.eqb_spec k 0); [lia|]. cbn [negb check bind]. unfold dense_svd. rewrite Es. cbn [bind].
  change (Nat.min (Nat.min (d_nr d) (d_nc d)) (Nat.min k (count (fltb svd_tol) (map s (seq 0 (Nat.min (d_nr d) (d_nc d))))))) with n. destruct (Nat.eqb_spec n 0) as [H0|H0]; cbn [negb check bind]; [reflexivity|].
  assert (Hn : 0 < n) by lia.
  assert (Hs : length (firstn n (map s (seq 0 (Nat.min (d_nr d) (d_nc d))))) = n).
  { rewrite firstn_length, map_length, seq_length. unfold n, dense_dims. lia. }
  assert (Hv : forall a, a < n -> nth a (firstn n (map s (seq 0 (Nat.min (d_nr d) (d_nc d))))) 0%R = s a).
  { intros a Ha. apply nth_firstn_map_seq; [exact Ha|]. unfold n, dense_dims. lia. }
  pose proof (vals_of_dense TDense (d_nr d) n u Hr Hn) as Vu. pose proof (vals_of_dense TDense (d_nc d) n (fun i j => vt j i) Hc Hn) as Vv. cbn [of_dense] in Vu, Vv.
  destruct (m_is_mostly_positive _); cbn [bind].
  - destruct (scale_pair _ _ _ _ _ _ s Vu Hs Hv) as (us & -> & V). cbn [bind]. eexists us, _, 1%R. split; [reflexivity|]. split; [left; reflexivity|].
    split; [eapply vals_ext; [exact V|]|eapply vals_ext; [exact Vv|]]; intros; cbn beta; rring.
  - destruct (scale_pair _ _ _ _ _ _ s (vals_neg _ _ _ _ _ Vu) Hs Hv) as (us & -> & V). cbn [bind]. eexists us, _, (-1)%R. split; [reflexivity|]. split; [right; reflexivity|].
    split; [eapply vals_ext; [exact V|]|eapply vals_ext; [exact (vals_neg _ _ _ _ _ Vv)|]]; intros; cbn beta; rring.
Qed.
Lemma sparse_svd_value k c : mwf (MS c) -> 0 < k -> forall dim ut s vt, e_sparsesvd c (k + k / 10) = Ok (dim, ut, s, vt) ->
  let n := Nat.min dim k in
  if Nat.eqb n 0 then svd_apply k (MS c) = Err ValueError
  else exists us v z, svd_apply k (MS c) = Ok (us, v) /\ sign z /\ svd_result k (MS c) us v n (fun i a => ut a i) s vt z.
Proof.
  intros Hd Hk dim ut s vt Es n. pose proof (mwf_pos _ Hd) as (Hr & Hc). cbn [m_nr m_nc] in Hr, Hc. unfold svd_apply, linalg_svd.
  destruct (Nat.eqb_spec k 0); [lia|]. cbn [negb check bind]. unfold sparse_svd. rewrite Es. cbn [bind]. fold n.
  destruct (Nat.eqb_spec n 0) as [H0|H0]; cbn [negb check bind]; [reflexivity|].
  assert (Hn : 0 < n) by lia.
  assert (Hs : length (map s (seq 0 n)) = n) by (rewrite map_length, seq_length; reflexivity).
  assert (Hv : forall a, a < n -> nth a (map s (seq 0 n)) 0%R = s a) by (intros a Ha; apply nth_map_seq, Ha).
  pose proof (vals_of_dense TSparse (s_nr c) n (fun i j => ut j i) Hr Hn) as Vu. pose proof (vals_of_dense TSparse (s_nc c) n (fun i j => vt j i) Hc Hn) as Vv. cbn [of_dense] in Vu, Vv.
  destruct (m_is_mostly_positive _); cbn [bind].
  - destruct (scale_pair _ _ _ _ _ _ s Vu Hs Hv) as (us & -> & V). cbn [bind]. eexists us, _, 1%R. split; [reflexivity|]. split; [left; reflexivity|].
    split; [eapply vals_ext; [exact V|]|eapply vals_ext; [exact Vv|]]; intros; cbn beta; rring.
  - destruct (scale_pair _ _ _ _ _ _ s (vals_neg _ _ _ _ _ Vu) Hs Hv) as (us & -> & V). cbn [bind]. eexists us, _, (-1)%R. split; [reflexivity|]. split; [right; reflexivity|].
    split; [eapply vals_ext; [exact V|]|eapply vals_ext; [exact (vals_neg _ _ _ _ _ Vv)|]]; intros; cbn beta; rring.
Qed.

(** projecting the matrix itself gives the same entries *)
Lemma svd_project_value m us v n N u s vt z k : mwf m -> svd_result k m us v n u s vt z -> n <= N -> sign z ->
  singular_triples (m_nr m) (m_nc m) N (ment m) u s vt ->
  op_project (OpDim DSvd k (Some v)) m = Ok (conv TDense us).
Proof.
  intros Hm (Vu & Vv) Hn Hz HT. cbn [op_project]. unfold dim_project. cbn [bind].
  rewrite resolve2_same by (rewrite (vals_type _ _ _ _ _ Vv); reflexivity). cbn [bind].
  destruct (vals_mul m v _ _ _ _ _ _ (vals_self m Hm) Vv) as (r & -> & V). cbn [bind]. f_equal.
  unfold conv. f_equal. apply (vals_dense_eq r us (type_of m) (type_of m) (m_nr m) n (fun i a => z * u i a * s a)%R).
  - eapply vals_ext; [exact V|]. intros i a Hi Ha. cbn beta. rewrite sumn_rsum. change (@fmul RNum) with Rmult.
    transitivity (z * rsum (m_nc m) (fun j => ment m i j * vt a j))%R.
    + rewrite <- rsum_scal_l. apply rsum_ext. intros. ring.
    + rewrite (st_mul _ _ _ _ _ _ _ HT) by (assumption || lia). rring.
  - exact Vu.
Qed.

(** Gram matrix of a full decomposition *)
Lemma gram_full r c N f u s vt i i' : singular_triples r c N f u s vt -> reconstructs r c N f u s vt -> i < r -> i' < r ->
  dot c (f i) (f i') = rsum N (fun a => s a * u i a * (s a * u i' a))%R.
Proof.
  intros HT HR Hi Hi'. unfold dot.
  transitivity (rsum c (fun j => rsum N (fun a => u i a * s a * vt a j) * f i' j))%R.
  { apply rsum_ext. intros j Hj. rewrite (HR i j Hi Hj) at 1. reflexivity. }
  transitivity (rsum c (fun j => rsum N (fun a => u i a * s a * (f i' j * vt a j))))%R.
  { apply rsum_ext. intros j Hj. rewrite <- rsum_scal_r. apply rsum_ext. intros. ring. }
  rewrite rsum_swap. apply rsum_ext. intros a Ha. rewrite rsum_scal_l, (st_mul _ _ _ _ _ _ _ HT) by assumption. ring.
Qed.
Lemma gram_reduced k m us v n u s vt z i i' : svd_result k m us v n u s vt z -> sign z -> i < m_nr m -> i' < m_nr m ->
  dot n (ment us i) (ment us i') = rsum n (fun a => s a * u i a * (s a * u i' a))%R.
Proof.
  intros (Vu & _) Hz Hi Hi'. unfold dot. apply rsum_ext. intros a Ha. rewrite !(vals_ent _ _ _ _ _ _ _ Vu) by assumption.
  pose proof (sign_sq z Hz). transitivity (z * z * (s a * u i a * (s a * u i' a)))%R; [ring|]. rewrite H. ring.
Qed.
(** singular values beyond the counted rank are below the tolerance *)
Lemma count_threshold (s : nat -> R) t n : non_increasing n s -> forall a, a < n ->
  (a < count (Rltb t) (map s (seq 0 n)) <-> (t < s a)%R).
Proof.
  induction n as [|n IH]; intros H a Ha; [lia|]. rewrite seq_S, map_app, count_app. cbn [map plus]. unfold count at 2. cbn [filter].
  assert (H' : non_increasing n s) by (intros x y Hxy Hy; apply H; lia).
  assert (Hc : count (Rltb t) (map s (seq 0 n)) <= n).
  { unfold count. etransitivity; [apply filter_length_le|]. rewrite map_length, seq_length. reflexivity. }
  unfold Rltb at 2. destruct (Rlt_dec t (s n)) as [L|L]; cbn [length].
  - assert (Full : count (Rltb t) (map s (seq 0 n)) = n).
    { unfold count. clear -H L. assert (K : forall x, In x (seq 0 n) -> Rltb t (s x) = true).
      { intros x Hx. apply in_seq in Hx. apply Rltb_true. specialize (H x n ltac:(lia) ltac:(lia)). lra. }
      rewrite <- (seq_length n 0) at 2. induction (seq 0 n) as [|x q IHq]; [reflexivity|]. cbn. rewrite K by (left; reflexivity). cbn. f_equal. apply IHq. intros; apply K; right; assumption. }
    rewrite Full. split; [|lia]. intros _. specialize (H a n ltac:(lia) ltac:(lia)). lra.
  - rewrite Nat.add_0_r. destruct (Nat.eq_dec a n) as [->|Hne]; [split; intros; [lia|lra]|]. apply IH; [exact H'|lia].
Qed.

(** ** C21 *)
(** dense input: U S truncated to min(k, rank) columns, where rank counts the singular values above 1e-12; the result is dense
    whatever is applied; a matrix of rank 0 raises ValueError; projecting the matrix with the stored transformation gives
    exactly the same matrix *)
Theorem C21_apply_dense : forall k d u s vt, mwf (MD d) -> 0 < k -> numpy_svd_correct -> e_svd d = Ok (u, s, vt) ->
  let rank := count (Rltb tolerance) (map s (seq 0 (Nat.min (d_nr d) (d_nc d)))) in
  (rank = 0 -> op_apply (create_operation (TDim DSvd k)) (MD d) = Err ValueError) /\
  (rank <> 0 -> exists r o z, op_apply (create_operation (TDim DSvd k)) (MD d) = Ok (r, o) /\ sign z /\
     mwf r /\ type_of r = TDense /\ m_nr r = d_nr d /\ m_nc r = Nat.min k rank /\
     (forall i a, i < d_nr d -> a < Nat.min k rank -> ment r i a = (z * u i a * s a)%R) /\
     op_project o (MD d) = Ok r).
Proof.
  intros k d u s vt Hd Hk HC Es rank. cbn [create_operation op_apply dimred_apply].
  pose proof (dense_svd_value k d Hd Hk HC u s vt Es) as HV. cbn zeta in HV.
  assert (Hrank : rank <= Nat.min (d_nr d) (d_nc d)).
  { unfold rank, count. etransitivity; [apply filter_length_le|]. rewrite map_length, seq_length. reflexivity. }
  assert (Hn : dense_dims d s k = Nat.min k rank) by (change (Nat.min (Nat.min (d_nr d) (d_nc d)) (Nat.min k rank) = Nat.min k rank); lia). rewrite Hn in HV.
  split; intros Hr.
  - rewrite Hr, Nat.min_0_r in HV. cbn [Nat.eqb] in HV. rewrite HV. reflexivity.
  - destruct (Nat.eqb_spec (Nat.min k rank) 0); [lia|]. destruct HV as (us & v & z & E1 & Hz & HR). rewrite E1. cbn [bind].
    exists (conv TDense us), (OpDim DSvd k (Some v)), z. split; [reflexivity|]. split; [exact Hz|].
    pose proof (vals_conv TDense _ _ _ _ _ (proj1 HR)) as V. cbn [m_nr m_nc type_of] in V.
    split; [exact (vals_wf _ _ _ _ _ V)|]. split; [exact (vals_type _ _ _ _ _ V)|]. split; [exact (vals_nr _ _ _ _ _ V)|]. split; [exact (vals_nc _ _ _ _ _ V)|].
    split; [intros i a Hi Ha; exact (vals_ent _ _ _ _ _ _ _ V Hi Ha)|].
    destruct (HC d u s vt Hd Es) as (HT & _). eapply svd_project_value; [exact Hd|exact HR| |exact Hz|exact HT]. lia.
Qed.
Theorem C21_apply_sparse : forall k c dim ut s vt, mwf (MS c) -> 0 < k -> sparsesvd_correct -> e_sparsesvd c (k + k / 10) = Ok (dim, ut, s, vt) ->
  (dim = 0 -> op_apply (create_operation (TDim DSvd k)) (MS c) = Err ValueError) /\
  (dim <> 0 -> exists r o z, op_apply (create_operation (TDim DSvd k)) (MS c) = Ok (r, o) /\ sign z /\
     mwf r /\ type_of r = TDense /\ m_nr r = s_nr c /\ m_nc r = Nat.min k dim /\
     (forall i a, i < s_nr c -> a < Nat.min k dim -> ment r i a = (z * ut a i * s a)%R) /\
     op_project o (MS c) = Ok r).
Proof.
  intros k c dim ut s vt Hd Hk HC Es. cbn [create_operation op_apply dimred_apply].
  pose proof (sparse_svd_value k c Hd Hk dim ut s vt Es) as HV. cbn zeta in HV. rewrite (Nat.min_comm dim k) in HV.
  split; intros Hr.
  - rewrite Hr, Nat.min_0_r in HV. cbn [Nat.eqb] in HV. rewrite HV. reflexivity.
  - destruct (Nat.eqb_spec (Nat.min k dim) 0); [lia|]. destruct HV as (us & v & z & E1 & Hz & HR). rewrite E1. cbn [bind].
    exists (conv TDense us), (OpDim DSvd k (Some v)), z. split; [reflexivity|]. split; [exact Hz|].
    pose proof (vals_conv TDense _ _ _ _ _ (proj1 HR)) as V. cbn [m_nr m_nc type_of] in V.
    split; [exact (vals_wf _ _ _ _ _ V)|]. split; [exact (vals_type _ _ _ _ _ V)|]. split; [exact (vals_nr _ _ _ _ _ V)|]. split; [exact (vals_nc _ _ _ _ _ V)|].
    split; [intros i a Hi Ha; exact (vals_ent _ _ _ _ _ _ _ V Hi Ha)|].
    pose proof (HC c _ dim ut s vt Hd Es) as HT. eapply svd_project_value; [exact Hd|exact HR| |exact Hz|exact HT]. lia.
Qed.
(** k at least the rank: dot products of rows are preserved up to min(nr,nc) * 1e-24 ... *)
Theorem C21_dot_products : forall k d u s vt r o, mwf (MD d) -> 0 < k -> numpy_svd_correct -> e_svd d = Ok (u, s, vt) ->
  count (Rltb tolerance) (map s (seq 0 (Nat.min (d_nr d) (d_nc d)))) <= k ->
  op_apply (create_operation (TDim DSvd k)) (MD d) = Ok (r, o) ->
  forall i i', i < d_nr d -> i' < d_nr d ->
    (Rabs (dot (d_nc d) (dent d i) (dent d i') - dot (m_nc r) (ment r i) (ment r i')) <= INR (Nat.min (d_nr d) (d_nc d)) * (tolerance * tolerance))%R /\
    ((forall a, a < Nat.min (d_nr d) (d_nc d) -> s a <> 0%R -> (tolerance < s a)%R) ->
     dot (m_nc r) (ment r i) (ment r i') = dot (d_nc d) (dent d i) (dent d i')).
Proof.
  intros k d u s vt r o Hd Hk HC Es Hrank HA i i' Hi Hi'. set (p := Nat.min (d_nr d) (d_nc d)) in *.
  destruct (HC d u s vt Hd Es) as (HT & HRec & HNI & HNN). fold p in HT, HRec, HNI, HNN.
  cbn [create_operation op_apply dimred_apply] in HA. pose proof (dense_svd_value k d Hd Hk HC u s vt Es) as HV. cbn zeta in HV.
  set (rank := count (Rltb tolerance) (map s (seq 0 p))) in *.
  assert (Hrp : rank <= p). { unfold rank, count. etransitivity; [apply filter_length_le|]. rewrite map_length, seq_length. reflexivity. }
  assert (Hn : dense_dims d s k = rank) by (change (Nat.min p (Nat.min k rank) = rank); lia). rewrite Hn in HV.
  destruct (Nat.eqb rank 0); [rewrite HV in HA; discriminate|]. destruct HV as (us & v & z & E1 & Hz & HR). rewrite E1 in HA. cbn [bind] in HA. assert (Er : r = conv TDense us) by (injection HA as HA _; symmetry; exact HA). subst r.
  match goal with |- context [dot (m_nc ?q) ?x ?y] => assert (G : dot (m_nc q) x y = rsum rank (fun a => s a * u i a * (s a * u i' a))%R) end.
  { pose proof (vals_conv TDense _ _ _ _ _ (proj1 HR)) as V. rewrite (vals_nc _ _ _ _ _ V). rewrite <- (gram_reduced k (MD d) us v rank u s vt z i i' HR Hz Hi Hi').
    cbn [m_nr type_of] in V. pose proof (proj1 HR) as V0. cbn [m_nr type_of] in V0.
    apply dot_ext; intros a Ha; rewrite (vals_ent _ _ _ _ _ _ _ V), (vals_ent _ _ _ _ _ _ _ V0) by assumption; reflexivity. }
  rewrite G, (gram_full _ _ p _ u s vt i i' HT HRec Hi Hi').
  assert (Split : rsum p (fun a => s a * u i a * (s a * u i' a))%R = (rsum rank (fun a => s a * u i a * (s a * u i' a)) + rsum (p - rank) (fun a => s (rank + a)%nat * u i (rank + a)%nat * (s (rank + a)%nat * u i' (rank + a)%nat)))%R).
  { rewrite <- rsum_app. f_equal. lia. }
  rewrite Split.
  assert (Small : forall a, a < p - rank -> (s (rank + a)%nat <= tolerance)%R).
  { intros a Ha. destruct (Rle_dec (s (rank + a)) tolerance) as [L|L]; [exact L|exfalso].
    assert (K : rank + a < rank) by (apply (count_threshold s tolerance p HNI (rank + a)); [lia|lra]). lia. }
  split.
  - match goal with |- (Rabs (?x + ?y - ?x) <= _)%R => replace (x + y - x)%R with y by ring end.
    assert (U1 : forall i a, i < d_nr d -> a < p -> (Rabs (u i a) <= 1)%R).
    { intros i0 a Hi0 Ha. pose proof (st_left _ _ _ _ _ _ _ HT a a Ha Ha) as K. unfold delta in K. rewrite Nat.eqb_refl in K.
      assert (u i0 a * u i0 a <= 1)%R. { rewrite <- K. apply (rsum_term_le (d_nr d) (fun i => u i a * u i a)%R); [intros; nra|exact Hi0]. }
      apply Rabs_le. nra. }
    assert (B : forall q, q <= p - rank -> (Rabs (rsum q (fun a => s (rank + a)%nat * u i (rank + a)%nat * (s (rank + a)%nat * u i' (rank + a)%nat))) <= INR q * (tolerance * tolerance))%R).
    { induction q as [|q IH]; intros Hq; [cbn; rewrite Rabs_R0; lra|]. cbn [rsum]. rewrite S_INR. eapply Rle_trans; [apply Rabs_triang|].
      specialize (IH ltac:(lia)). rewrite !Rabs_mult.
      pose proof (U1 i (rank + q) Hi ltac:(lia)) as A1. pose proof (U1 i' (rank + q) Hi' ltac:(lia)) as A2.
      pose proof (Small q ltac:(lia)) as A3. pose proof (HNN (rank + q) ltac:(lia)) as A4. rewrite (Rabs_right (s (rank + q))) by lra.
      pose proof (Rabs_pos (u i (rank + q))). pose proof (Rabs_pos (u i' (rank + q))). set (x := Rabs (u i (rank + q))) in *. set (y := Rabs (u i' (rank + q))) in *. set (w := s (rank + q)) in *.
      assert (w * w <= tolerance * tolerance)%R by nra. assert (x * y <= 1)%R by nra. assert (0 <= x * y)%R by nra. assert (0 <= w * w)%R by nra.
      assert (w * x * (w * y) <= tolerance * tolerance)%R. { replace (w * x * (w * y))%R with ((w * w) * (x * y))%R by ring. nra. }
      lra. }
    eapply Rle_trans; [apply B; lia|]. apply Rmult_le_compat_r; [unfold tolerance; nra|]. apply le_INR. lia.
  - intros Hex. rewrite (rsum_zero (p - rank)); [ring|]. intros a Ha. assert (E0 : s (rank + a) = 0%R).
    { destruct (Req_dec (s (rank + a)) 0) as [Z|Z]; [exact Z|exfalso]. pose proof (Hex (rank + a) ltac:(lia) Z). pose proof (Small a Ha). lra. }
    rewrite E0. ring.
Qed.
(** ... and therefore cosines and distances are preserved exactly when dot products are *)
Theorem C21_geometry : forall d (r : matrix), (forall i i', i < d_nr d -> i' < d_nr d -> dot (m_nc r) (ment r i) (ment r i') = dot (d_nc d) (dent d i) (dent d i')) ->
  forall i i', i < d_nr d -> i' < d_nr d ->
  cosine (m_nc r) (ment r i) (ment r i') = cosine (d_nc d) (dent d i) (dent d i') /\
  norm (m_nc r) (fun a => ment r i a - ment r i' a)%R = norm (d_nc d) (fun j => dent d i j - dent d i' j)%R.
Proof.
  intros d r H i i' Hi Hi'.
  assert (Hn : forall x, x < d_nr d -> norm (m_nc r) (ment r x) = norm (d_nc d) (dent d x)) by (intros x Hx; unfold norm; rewrite H by assumption; reflexivity).
  split.
  - unfold cosine. rewrite !Hn, H by assumption. reflexivity.
  - unfold norm. f_equal.
    assert (P : forall n (u v : nat -> R), dot n (fun i => u i - v i)%R (fun i => u i - v i)%R = (dot n u u - 2 * dot n u v + dot n v v)%R).
    { intros n u v. rewrite dot_minus_l. rewrite (dot_sym n u), (dot_sym n v). rewrite !dot_minus_l. rewrite (dot_sym n v u). ring. }
    rewrite !P, !H by assumption. reflexivity.
Qed.
(** sparse input: exact preservation when the routine's triples reconstruct the matrix and all are kept *)
Theorem C21_dot_products_sparse : forall k c dim ut s vt r o, mwf (MS c) -> 0 < k -> sparsesvd_correct -> e_sparsesvd c (k + k / 10) = Ok (dim, ut, s, vt) ->
  reconstructs (s_nr c) (s_nc c) dim (sent c) (fun i a => ut a i) s vt -> dim <= k ->
  op_apply (create_operation (TDim DSvd k)) (MS c) = Ok (r, o) ->
  forall i i', i < s_nr c -> i' < s_nr c -> dot (m_nc r) (ment r i) (ment r i') = dot (s_nc c) (sent c i) (sent c i').
Proof.
  intros k c dim ut s vt r o Hd Hk HC Es HRec Hdim HA i i' Hi Hi'.
  pose proof (HC c _ dim ut s vt Hd Es) as HT.
  cbn [create_operation op_apply dimred_apply] in HA. pose proof (sparse_svd_value k c Hd Hk dim ut s vt Es) as HV. cbn zeta in HV.
  replace (Nat.min dim k) with dim in HV by lia.
  destruct (Nat.eqb dim 0); [rewrite HV in HA; discriminate|]. destruct HV as (us & v & z & E1 & Hz & HR). rewrite E1 in HA. cbn [bind] in HA. assert (Er : r = conv TDense us) by (injection HA as HA _; symmetry; exact HA). subst r.
  rewrite (gram_full _ _ dim _ _ s vt i i' HT HRec Hi Hi').
  pose proof (vals_conv TDense _ _ _ _ _ (proj1 HR)) as V. rewrite (vals_nc _ _ _ _ _ V). rewrite <- (gram_reduced k (MS c) us v dim _ s vt z i i' HR Hz Hi Hi').
  cbn [m_nr type_of] in V. pose proof (proj1 HR) as V0. cbn [m_nr type_of] in V0.
  apply dot_ext; intros a Ha; rewrite (vals_ent _ _ _ _ _ _ _ V), (vals_ent _ _ _ _ _ _ _ V0) by assumption; reflexivity.
Qed.
End WithExt.

(** *** example: routines that return the exact decomposition of the 2x2 identity and refuse everything else *)
Definition eye2 : @dmat RNum := (@DM RNum 2 2 [[1;0];[0;1]])%R.
Definition Eex : @Ext RNum := {|
  e_svd := fun d => if andb (Nat.eqb (d_nr d) 2) (Nat.eqb (d_nc d) 2)
     && (Reqb (dent d 0 0) 1 && Reqb (dent d 1 1) 1 && Reqb (dent d 0 1) 0 && Reqb (dent d 1 0) 0) then Ok (delta, (fun _ => 1%R), delta) else Err LinAlgError;
  e_sparsesvd := fun _ _ => Err LinAlgError;
  e_pinv := fun _ => Err LinAlgError;
  e_lstsq := fun _ _ => Err LinAlgError;
  e_rndcol := fun _ _ => O; e_rndrow := fun _ _ => O; e_timeout := fun _ => false |}.
Example C21_example : mwf (MD eye2) /\ @numpy_svd_correct Eex /\ @sparsesvd_correct Eex /\ (exists x, @e_svd RNum Eex eye2 = Ok x) /\
  count (Rltb tolerance) (map (fun _ : nat => 1%R) (seq 0 2)) = 2.
Proof.
  split; [repeat split; cbn; try lia; repeat constructor|]. split; [|split; [|split]].
  - intros d u s vt Hd H. cbn in H. destruct (_ && _) eqn:B in H; [|discriminate]. injection H as <- <- <-.
    repeat (apply andb_true_iff in B; destruct B as (B & ?)). apply andb_true_iff in H; destruct H. repeat match goal with K : andb _ _ = true |- _ => apply andb_true_iff in K; destruct K end.
    repeat match goal with K : Reqb _ _ = true |- _ => apply Reqb_eq in K | K : Nat.eqb _ _ = true |- _ => apply Nat.eqb_eq in K end.
    repeat match goal with K : d_nr d = _ |- _ => rewrite K; clear K | K : d_nc d = _ |- _ => rewrite K; clear K end. cbn [Nat.min]. 
    assert (D : forall i, i < 2 -> i = 0 \/ i = 1) by (intros; lia).
    split; [|split; [|split]].
    + constructor.
      * intros a b Ha Hb. destruct (D a Ha) as [-> | ->], (D b Hb) as [-> | ->]; unfold delta; cbn; ring.
      * intros a b Ha Hb. destruct (D a Ha) as [-> | ->], (D b Hb) as [-> | ->]; unfold delta; cbn; ring.
      * intros i a Hi Ha. destruct (D i Hi) as [-> | ->], (D a Ha) as [-> | ->]; unfold delta; cbn; repeat match goal with K : dent d _ _ = _ |- _ => rewrite K end; ring.
    + intros i j Hi Hj. destruct (D i Hi) as [-> | ->], (D j Hj) as [-> | ->]; unfold delta; cbn; repeat match goal with K : dent d _ _ = _ |- _ => rewrite K end; ring.
    + intros a b _ _. lra.
    + intros a _. lra.
  - intros c k dim ut s vt _ H. discriminate.
  - cbn. unfold Reqb. unfold dent; cbn. destruct (Req_EM_T 1 1), (Req_EM_T 0 0); try lra. cbn. eauto.
  - unfold count. cbn. unfold Rltb, tolerance. destruct (Rlt_dec _ _); [reflexivity|lra].
Qed.
