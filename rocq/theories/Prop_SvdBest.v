(** Prop_SvdBest.v -- property C83: the SVD reduction is the best linear representation of its size (Eckart-Young), projection gives
    the nearest point, and dot products are off by at most the square of the largest discarded singular value. *)
From Coq Require Import Reals Lra Psatz.
From Verif Require Import Base PyList Dict Num SpecReal Dense Sparse Matrix PSparse PMatrix PMatOps PShape PVals PReal PPos Scaling Linalg Operation
  Prop_Scaling Prop_Alike Prop_Svd PEckart.
#[local] Existing Instance RNum.
Open Scope R_scope.
Open Scope nat_scope.

(** ** specification *)
(** the vector that a decoder D rebuilds from n coordinates *)
Definition decode (n : nat) (x : nat -> R) (D : nat -> nat -> R) (j : nat) : R := rsum n (fun a => x a * D a j)%R.
Definition sq_distance (c : nat) (x y : nat -> R) : R := rsum c (fun j => (x j - y j) * (x j - y j))%R.
(** total squared error of rebuilding the rows of m from n coordinates each *)
Definition rebuild_error (m : matrix) (n : nat) (X D : nat -> nat -> R) : R :=
  rsum (m_nr m) (fun i => sq_distance (m_nc m) (ment m i) (decode n (X i) D)).
(** r is a representation of the rows of m with at most k coordinates, from which some linear decoder rebuilds m; no
    representation with k coordinates and no linear decoder does better, up to [slack] *)
Definition best_representation (m : matrix) (k : nat) (r : matrix) (o : operation) (slack : R) : Prop :=
  m_nr r = m_nr m /\ m_nc r <= k /\
  exists D, (forall X Y, (rebuild_error m (m_nc r) (ment r) D <= rebuild_error m k X Y + slack)%R) /\
    (* the coordinates that projection gives any other vector are those of the nearest point the decoder can reach *)
    (forall m2 r2, mwf m2 -> op_project o m2 = Ok r2 -> m_nc m2 = m_nc m /\ m_nr r2 = m_nr m2 /\ m_nc r2 = m_nc r /\
       forall i y, i < m_nr m2 -> (sq_distance (m_nc m) (ment m2 i) (decode (m_nc r) (ment r2 i) D) <= sq_distance (m_nc m) (ment m2 i) (decode (m_nc r) y D))%R).

Section WithExt.
Context {E : @Ext RNum}.
(** sparsesvd returns the leading triples of a full decomposition, all of the non-zero ones if it returns fewer than asked for *)
Definition sparsesvd_leading : Prop := forall c k dim ut s vt, swf c -> e_sparsesvd c k = Ok (dim, ut, s, vt) ->
  exists N u' s' v', singular_triples (s_nr c) (s_nc c) N (sent c) u' s' v' /\ reconstructs (s_nr c) (s_nc c) N (sent c) u' s' v' /\
    non_increasing N s' /\ (forall a, a < N -> (0 <= s' a)%R) /\ dim <= N /\
    (forall a, a < dim -> s' a = s a /\ (forall i, i < s_nr c -> u' i a = ut a i) /\ (forall j, j < s_nc c -> v' a j = vt a j)) /\
    (dim < k -> forall a, dim <= a -> a < N -> s' a = 0%R).

Lemma project_nearest m v n z (q : nat -> nat -> R) k m2 r2 : sign z -> vals v (type_of m) (m_nc m) n (fun j a => z * q a j)%R -> orthonormal n (m_nc m) q ->
  mwf m2 -> op_project (OpDim DSvd k (Some v)) m2 = Ok r2 ->
  m_nc m2 = m_nc m /\ m_nr r2 = m_nr m2 /\ m_nc r2 = n /\ forall i y, i < m_nr m2 ->
    (sq_distance (m_nc m) (ment m2 i) (decode n (ment r2 i) (fun a j => z * q a j)) <= sq_distance (m_nc m) (ment m2 i) (decode n y (fun a j => z * q a j)))%R.
Proof.
  intros Hz Vv Ho W H. cbn [op_project] in H. unfold dim_project in H. cbn [bind] in H.
  apply bind_ok in H. destruct H as ([m' tm'] & H1 & H). apply bind_ok in H. destruct H as (p & Hp & H). assert (Er : r2 = conv TDense p) by congruence. subst r2. clear H.
  destruct (resolve2_ok _ _ _ _ _ W (vals_wf _ _ _ _ _ Vv) H1) as (W' & Wt' & Tt & D1 & D2).
  destruct (m_mul_ok _ _ _ W' Wt' Hp) as (_ & Hc & _).
  assert (N1 : m_nr m' = m_nr m2 /\ m_nc m' = m_nc m2). { rewrite <- (to_dense_nr m'), <- (to_dense_nr m2), <- (to_dense_nc m'), <- (to_dense_nc m2), D1. auto. }
  assert (N2 : m_nr tm' = m_nc m /\ m_nc tm' = n). { rewrite <- (to_dense_nr tm'), <- (to_dense_nc tm'), D2, to_dense_nr, to_dense_nc. split; [exact (vals_nr _ _ _ _ _ Vv)|exact (vals_nc _ _ _ _ _ Vv)]. }
  destruct N1 as (R1 & C1), N2 as (R2 & C2).
  assert (V1 : vals m' (type_of m') (m_nr m2) (m_nc m) (ment m2)).
  { eapply vals_ext; [pose proof (vals_self m' W') as V; rewrite R1 in V; replace (m_nc m') with (m_nc m) in V by congruence; exact V|].
    intros i j Hi Hj. rewrite <- (dent_to_dense m' i j) by lia. rewrite <- (dent_to_dense m2 i j) by lia. rewrite D1. reflexivity. }
  assert (V2 : vals tm' (type_of m') (m_nc m) n (fun j a => z * q a j)%R).
  { rewrite Tt. eapply vals_ext; [pose proof (vals_self tm' Wt') as V; rewrite R2, C2 in V; exact V|].
    intros j a Hj Ha. rewrite <- (dent_to_dense tm' j a) by lia. rewrite D2, (dent_to_dense v j a) by (rewrite ?(vals_nr _ _ _ _ _ Vv), ?(vals_nc _ _ _ _ _ Vv); assumption). exact (vals_ent _ _ _ _ _ j a Vv Hj Ha). }
  destruct (vals_mul _ _ _ _ _ _ _ _ V1 V2) as (p' & Ep & Vp). rewrite Ep in Hp. assert (Er : p' = p) by congruence. subst p'.
  pose proof (vals_conv TDense _ _ _ _ _ Vp) as V.
  split; [congruence|]. split; [exact (vals_nr _ _ _ _ _ V)|]. split; [exact (vals_nc _ _ _ _ _ V)|]. intros i y Hi.
  assert (EC : forall w, sq_distance (m_nc m) (ment m2 i) (decode n w (fun a j => z * q a j)%R) = sqd (m_nc m) (ment m2 i) (comb n (fun a => z * w a)%R q)).
  { intros w. unfold sq_distance, sqd. apply rsum_ext. intros j Hj. assert (ED : decode n w (fun a j => z * q a j)%R j = comb n (fun a => z * w a)%R q j) by (unfold decode, comb; apply rsum_ext; intros; ring). rewrite ED. reflexivity. }
  rewrite !EC. eapply Rle_trans; [|apply (nearest (m_nc m) n q (ment m2 i) (fun a => z * y a)%R Ho)]. apply Req_le. unfold sqd. apply rsum_ext. intros j Hj.
  assert (ED : comb n (fun a => z * ment (conv TDense p) i a)%R q j = comb n (fun b => dot (m_nc m) (ment m2 i) (q b)) q j).
  { unfold comb. apply rsum_ext. intros a Ha. rewrite (vals_ent _ _ _ _ _ i a V Hi Ha). cbn beta. rewrite sumn_rsum. change (@fmul RNum) with Rmult.
    assert (ES : rsum (m_nc m) (fun l => ment m2 i l * (z * q a l))%R = (z * dot (m_nc m) (ment m2 i) (q a))%R) by (unfold dot; rewrite <- rsum_scal_l; apply rsum_ext; intros; ring).
    rewrite ES. pose proof (sign_sq z Hz) as Q. transitivity (z * z * dot (m_nc m) (ment m2 i) (q a) * q a j)%R; [ring|]. rewrite Q. ring. }
  rewrite ED. reflexivity.
Qed.

(** truncating a full decomposition to n <= k columns; the discarded ones beyond k are counted in [slack] *)
Lemma best_of m us v n N u s vt z k slack : mwf m -> svd_result k m us v n u s vt z -> sign z -> n <= N -> n <= k ->
  singular_triples (m_nr m) (m_nc m) N (ment m) u s vt -> reconstructs (m_nr m) (m_nc m) N (ment m) u s vt -> non_increasing N s -> (forall a, a < N -> (0 <= s a)%R) ->
  (rsum (Nat.min k N) (fun a => s a * s a) <= rsum n (fun a => s a * s a) + slack)%R ->
  best_representation m k (conv TDense us) (OpDim DSvd k (Some v)) slack /\
  exists D, rebuild_error m n (ment (conv TDense us)) D = rsum (N - n) (fun a => s (n + a)%nat * s (n + a)%nat)%R.
Proof.
  intros W (Vu & Vv) Hz Hn Hk HT HR HD HN Hs.
  pose proof (vals_conv TDense _ _ _ _ _ Vu) as V. pose proof (sign_sq z Hz) as Q.
  assert (EE : rebuild_error m n (ment (conv TDense us)) (fun a j => z * vt a j)%R = (rsum N (fun a => s a * s a) - rsum n (fun a => s a * s a))%R).
  { rewrite <- (truncation (m_nr m) (m_nc m) N (ment m) u s vt HT HR n Hn). unfold rebuild_error. apply rsum_ext. intros i Hi. unfold sq_distance, sqd. apply rsum_ext. intros j Hj.
    assert (ED : decode n (ment (conv TDense us) i) (fun a j => z * vt a j)%R j = comb n (fun a => s a * u i a)%R vt j).
    { unfold decode, comb. apply rsum_ext. intros a Ha. rewrite (vals_ent _ _ _ _ _ i a V Hi Ha). transitivity (z * z * (s a * u i a * vt a j))%R; [ring|]. rewrite Q. ring. }
    rewrite ED. reflexivity. }
  split.
  - unfold best_representation. rewrite (vals_nr _ _ _ _ _ V), (vals_nc _ _ _ _ _ V). split; [reflexivity|]. split; [exact Hk|]. exists (fun a j => z * vt a j)%R. split.
    + intros X Y. rewrite EE. pose proof (eckart_young (m_nr m) (m_nc m) N (ment m) u s vt HT HR HD HN k X Y) as K.
      change (rebuild_error m k X Y) with (rsum (m_nr m) (fun i => sqd (m_nc m) (ment m i) (comb k (X i) Y))). lra.
    + intros m2 r2 W2 H2. refine (project_nearest m v n z vt k m2 r2 Hz Vv _ W2 H2).
      intros a b Ha Hb. exact (st_right _ _ _ _ _ _ _ HT a b ltac:(lia) ltac:(lia)).
  - exists (fun a j => z * vt a j)%R. rewrite EE. replace N with (n + (N - n)) at 1 by lia. rewrite rsum_app. lra.
Qed.

(** ** C83 *)
(** dense matrices: singular values of at most 1e-12 are dropped, which costs at most min(rows, columns) * 1e-24 *)
Theorem C83_best_dense : forall k d r o, mwf (MD d) -> 0 < k -> numpy_svd_correct ->
  op_apply (create_operation (TDim DSvd k)) (MD d) = Ok (r, o) ->
  best_representation (MD d) k r o (INR (Nat.min (d_nr d) (d_nc d)) * (tolerance * tolerance)).
Proof.
  intros k d r o Hd Hk HC HA. destruct (e_svd d) as [[[u s] vt]|e] eqn:Es.
  2:{ cbn [create_operation op_apply dimred_apply] in HA. unfold svd_apply, linalg_svd in HA. destruct (negb (Nat.eqb k 0)); cbn [check bind] in HA; [|discriminate].
      unfold dense_svd in HA. rewrite Es in HA. discriminate. }
  destruct (HC d u s vt Hd Es) as (HT & HRec & HNI & HNN). set (N := Nat.min (d_nr d) (d_nc d)) in *.
  cbn [create_operation op_apply dimred_apply] in HA. pose proof (dense_svd_value k d Hd Hk HC u s vt Es) as HV. cbn zeta in HV.
  set (rank := count (Rltb tolerance) (map s (seq 0 N))).
  assert (Hn : dense_dims d s k = Nat.min N (Nat.min k rank)) by reflexivity.
  assert (Hrp : rank <= N). { unfold rank, count. etransitivity; [apply filter_length_le|]. rewrite map_length, seq_length. reflexivity. }
  set (n := dense_dims d s k) in *. destruct (Nat.eqb n 0); [rewrite HV in HA; discriminate|]. destruct HV as (us & v & z & E1 & Hz & HR). rewrite E1 in HA. cbn [bind] in HA.
  assert (Er : r = conv TDense us /\ o = OpDim DSvd k (Some v)) by (injection HA as HA1 HA2; auto). destruct Er as (-> & ->).
  apply (best_of (MD d) us v n N u s vt z k); try assumption; try lia.
  assert (Small : forall a, rank <= a -> a < N -> (s a <= tolerance)%R).
  { intros a Ha Ha'. destruct (Rle_dec (s a) tolerance) as [L|L]; [exact L|exfalso].
    assert (K : a < rank) by (apply (count_threshold s tolerance N HNI a Ha'); lra). lia. }
  replace (Nat.min k N) with (n + (Nat.min k N - n)) by lia. rewrite rsum_app. apply Rplus_le_compat_l.
  assert (B : forall q, q <= Nat.min k N - n -> (rsum q (fun i => s (n + i)%nat * s (n + i)%nat) <= INR q * (tolerance * tolerance))%R).
  { induction q as [|q IH]; intros Hq; [cbn; lra|]. cbn [rsum]. rewrite S_INR. specialize (IH ltac:(lia)).
    pose proof (Small (n + q) ltac:(lia) ltac:(lia)). pose proof (HNN (n + q) ltac:(lia)). assert (s (n + q)%nat * s (n + q)%nat <= tolerance * tolerance)%R by (apply Rmult_le_compat; assumption). lra. }
  eapply Rle_trans; [apply B; lia|]. apply Rmult_le_compat_r; [apply Rle_0_sqr|]. apply le_INR. lia.
Qed.
(** sparse matrices, when sparsesvd finds the leading triples: no slack at all *)
Theorem C83_best_sparse : forall k c r o, mwf (MS c) -> 0 < k -> sparsesvd_leading ->
  op_apply (create_operation (TDim DSvd k)) (MS c) = Ok (r, o) -> best_representation (MS c) k r o 0.
Proof.
  intros k c r o Hd Hk HC HA. destruct (e_sparsesvd c (k + k / 10)) as [[[[dim ut] s] vt]|e] eqn:Es.
  2:{ cbn [create_operation op_apply dimred_apply] in HA. unfold svd_apply, linalg_svd in HA. destruct (negb (Nat.eqb k 0)); cbn [check bind] in HA; [|discriminate].
      unfold sparse_svd in HA. rewrite Es in HA. discriminate. }
  destruct (HC c _ dim ut s vt Hd Es) as (N & u' & s' & v' & HT & HRec & HNI & HNN & Hdim & Hag & Hz0).
  cbn [create_operation op_apply dimred_apply] in HA. pose proof (sparse_svd_value k c Hd Hk dim ut s vt Es) as HV. cbn zeta in HV.
  set (n := Nat.min dim k) in *. destruct (Nat.eqb n 0); [rewrite HV in HA; discriminate|]. destruct HV as (us & v & z & E1 & Hz & HR). rewrite E1 in HA. cbn [bind] in HA.
  assert (Er : r = conv TDense us /\ o = OpDim DSvd k (Some v)) by (injection HA as HA1 HA2; auto). destruct Er as (-> & ->).
  assert (HR' : svd_result k (MS c) us v n u' s' v' z).
  { destruct HR as (Vu & Vv). cbn [m_nr m_nc] in Vu, Vv. split; cbn [m_nr m_nc].
    - eapply vals_ext; [exact Vu|]. intros i a Hi Ha. destruct (Hag a ltac:(lia)) as (-> & Hu & _). cbn beta. rewrite (Hu i Hi). reflexivity.
    - eapply vals_ext; [exact Vv|]. intros j a Hj Ha. destruct (Hag a ltac:(lia)) as (_ & _ & Hv). cbn beta. rewrite (Hv j Hj). reflexivity. }
  apply (best_of (MS c) us v n N u' s' v' z k); try assumption; try lia.
  rewrite Rplus_0_r. destruct (le_lt_dec k dim) as [L|L].
  - replace (Nat.min k N) with n by lia. lra.
  - replace (Nat.min k N) with (n + (Nat.min k N - n)) by lia. rewrite rsum_app. rewrite (rsum_zero (Nat.min k N - n)); [lra|].
    intros a Ha. rewrite (Hz0 ltac:(lia) (n + a)) by lia. ring.
Qed.
(** and the error is exactly the sum of the squares of the discarded singular values *)
Theorem C83_error : forall k d u s vt r o, mwf (MD d) -> 0 < k -> numpy_svd_correct -> e_svd d = Ok (u, s, vt) ->
  op_apply (create_operation (TDim DSvd k)) (MD d) = Ok (r, o) ->
  exists D, rebuild_error (MD d) (m_nc r) (ment r) D = rsum (Nat.min (d_nr d) (d_nc d) - m_nc r) (fun a => s (m_nc r + a)%nat * s (m_nc r + a)%nat)%R.
Proof.
  intros k d u s vt r o Hd Hk HC Es HA.
  destruct (HC d u s vt Hd Es) as (HT & HRec & HNI & HNN). set (N := Nat.min (d_nr d) (d_nc d)) in *.
  cbn [create_operation op_apply dimred_apply] in HA. pose proof (dense_svd_value k d Hd Hk HC u s vt Es) as HV. cbn zeta in HV.
  assert (Hn : dense_dims d s k = Nat.min N (Nat.min k (count (Rltb tolerance) (map s (seq 0 N))))) by reflexivity.
  set (n := dense_dims d s k) in *. destruct (Nat.eqb n 0); [rewrite HV in HA; discriminate|]. destruct HV as (us & v & z & E1 & Hz & HR). rewrite E1 in HA. cbn [bind] in HA.
  assert (Er : r = conv TDense us) by (injection HA as HA1 HA2; auto). subst r.
  rewrite (vals_nc _ _ _ _ _ (vals_conv TDense _ _ _ _ _ (proj1 HR))).
  apply (best_of (MD d) us v n N u s vt z k (rsum (Nat.min k N) (fun a => s a * s a))%R); try assumption; try lia.
  assert (0 <= rsum n (fun a => s a * s a))%R by (apply rsum_nonneg; intros; apply Rle_0_sqr). lra.
Qed.
(** for every k: dot products of rows are off by at most the square of the first discarded singular value *)
Theorem C83_dot_products : forall k d u s vt r o i i', mwf (MD d) -> 0 < k -> numpy_svd_correct -> e_svd d = Ok (u, s, vt) ->
  op_apply (create_operation (TDim DSvd k)) (MD d) = Ok (r, o) -> i < d_nr d -> i' < d_nr d ->
  (Rabs (dot (d_nc d) (dent d i) (dent d i') - dot (m_nc r) (ment r i) (ment r i')) <=
   if Nat.ltb (m_nc r) (Nat.min (d_nr d) (d_nc d)) then s (m_nc r) * s (m_nc r) else 0)%R.
Proof.
  intros k d u s vt r o i i' Hd Hk HC Es HA Hi Hi'.
  destruct (HC d u s vt Hd Es) as (HT & HRec & HNI & HNN). set (N := Nat.min (d_nr d) (d_nc d)) in *.
  cbn [create_operation op_apply dimred_apply] in HA. pose proof (dense_svd_value k d Hd Hk HC u s vt Es) as HV. cbn zeta in HV.
  assert (Hn : dense_dims d s k = Nat.min N (Nat.min k (count (Rltb tolerance) (map s (seq 0 N))))) by reflexivity.
  set (n := dense_dims d s k) in *. destruct (Nat.eqb n 0); [rewrite HV in HA; discriminate|]. destruct HV as (us & v & z & E1 & Hz & HR). rewrite E1 in HA. cbn [bind] in HA.
  assert (Er : r = conv TDense us) by (injection HA as HA1 HA2; auto). subst r. pose proof (vals_conv TDense _ _ _ _ _ (proj1 HR)) as V.
  rewrite (vals_nc _ _ _ _ _ V).
  assert (G : dot n (ment (conv TDense us) i) (ment (conv TDense us) i') = rsum n (fun a => s a * u i a * (s a * u i' a))%R).
  { rewrite <- (gram_reduced k (MD d) us v n u s vt z i i' HR Hz Hi Hi'). pose proof (proj1 HR) as V0. cbn [m_nr type_of] in V, V0.
    apply dot_ext; intros a Ha; rewrite (vals_ent _ _ _ _ _ _ _ V), (vals_ent _ _ _ _ _ _ _ V0) by assumption; reflexivity. }
  rewrite G. destruct (Nat.ltb_spec n N) as [L|L].
  - exact (gram_tail (d_nr d) (d_nc d) N (dent d) u s vt HT HRec HNI HNN i i' n Hi Hi' L).
  - replace n with N by lia. rewrite (gram_full _ _ N _ u s vt i i' HT HRec Hi Hi'). rewrite Rminus_eq_0, Rabs_R0. lra.
Qed.
End WithExt.

(** *** example: routines that decompose the matrix ((3, 0), (0, 1)) and refuse everything else; k = 1 really discards a dimension *)
Definition diag31 (i j : nat) : R := match i, j with 0, 0 => 3%R | 1, 1 => 1%R | _, _ => 0%R end.
Definition s31 (a : nat) : R := match a with 0 => 3%R | _ => 1%R end.
Definition is31 (f : nat -> nat -> R) : bool := (Reqb (f 0 0) 3 && Reqb (f 0 1) 0 && Reqb (f 1 0) 0 && Reqb (f 1 1) 1)%bool.
Definition E31 : @Ext RNum := {|
  e_svd := fun d => if (Nat.eqb (d_nr d) 2 && Nat.eqb (d_nc d) 2 && is31 (dent d))%bool then Ok (delta, s31, delta) else Err LinAlgError;
  e_sparsesvd := fun c k => if (Nat.eqb (s_nr c) 2 && Nat.eqb (s_nc c) 2 && is31 (sent c))%bool then Ok (Nat.min k 2, delta, s31, delta) else Err LinAlgError;
  e_pinv := fun _ => Err LinAlgError; e_lstsq := fun _ _ => Err LinAlgError;
  e_rndcol := fun _ _ => O; e_rndrow := fun _ _ => O; e_timeout := fun _ => false |}.
Lemma is31_entries f : is31 f = true -> f 0 0 = 3%R /\ f 0 1 = 0%R /\ f 1 0 = 0%R /\ f 1 1 = 1%R.
Proof. unfold is31. rewrite !andb_true_iff. intros (((A & B) & C) & D). rewrite !Reqb_eq in *. auto. Qed.
Lemma triples31 f : is31 f = true -> singular_triples 2 2 2 f delta s31 delta /\ reconstructs 2 2 2 f delta s31 delta /\ non_increasing 2 s31 /\ (forall a, a < 2 -> (0 <= s31 a)%R).
Proof.
  intros H. destruct (is31_entries f H) as (A & B & C & D). assert (T : forall i, i < 2 -> i = 0 \/ i = 1) by (intros; lia).
  split; [|split; [|split]].
  - constructor; intros i a Hi Ha; destruct (T i Hi) as [-> | ->], (T a Ha) as [-> | ->]; unfold delta; cbn; rewrite ?A, ?B, ?C, ?D; ring.
  - intros i j Hi Hj; destruct (T i Hi) as [-> | ->], (T j Hj) as [-> | ->]; unfold delta; cbn; rewrite ?A, ?B, ?C, ?D; ring.
  - intros a b Hab Hb. destruct (T b Hb) as [-> | ->]; destruct a as [|[|a]]; try lia; cbn; lra.
  - intros a Ha. destruct (T a Ha) as [-> | ->]; cbn; lra.
Qed.
Lemma E31_svd : @numpy_svd_correct E31.
Proof.
  intros d u s vt W H. cbn [e_svd E31] in H. destruct (Nat.eqb_spec (d_nr d) 2) as [R2|]; [|discriminate]. destruct (Nat.eqb_spec (d_nc d) 2) as [C2|]; [|discriminate].
  destruct (is31 (dent d)) eqn:Q; [|discriminate]. cbn [andb] in H. injection H as <- <- <-. rewrite R2, C2. exact (triples31 _ Q).
Qed.
Lemma E31_sparse : @sparsesvd_leading E31.
Proof.
  intros c k dim ut s vt W H. cbn [e_sparsesvd E31] in H. destruct (Nat.eqb_spec (s_nr c) 2) as [R2|]; [|discriminate]. destruct (Nat.eqb_spec (s_nc c) 2) as [C2|]; [|discriminate].
  destruct (is31 (sent c)) eqn:Q; [|discriminate]. cbn [andb] in H. injection H as <- <- <- <-. rewrite R2, C2. destruct (triples31 _ Q) as (A & B & C & D).
  exists 2, delta, s31, delta. split; [exact A|]. split; [exact B|]. split; [exact C|]. split; [exact D|]. split; [lia|]. split.
  - intros a Ha. split; [reflexivity|]. split; [|reflexivity]. intros i Hi. unfold delta. rewrite Nat.eqb_sym. reflexivity.
  - intros Hk a Ha Ha'. exfalso. lia.
Qed.
Example C83_example : exists d c r o r' o', mwf (MD d) /\ mwf (MS c) /\ @numpy_svd_correct E31 /\ @sparsesvd_leading E31 /\
  @op_apply RNum E31 (create_operation (TDim DSvd 1)) (MD d) = Ok (r, o) /\ @op_apply RNum E31 (create_operation (TDim DSvd 1)) (MS c) = Ok (r', o') /\
  (exists D, rebuild_error (MD d) (m_nc r) (ment r) D = 1%R).
Proof.
  set (d := tab 2 2 diag31). assert (W : mwf (MD d)) by (apply tab_wf; lia).
  assert (V : vals (of_dense TSparse d) TSparse 2 2 diag31) by (apply vals_of_dense; lia).
  remember (of_dense TSparse d) as ms eqn:Em. destruct ms as [x|c]; [discriminate Em|].
  assert (Qd : is31 (dent d) = true) by (cbn; unfold is31, Reqb; cbn; repeat destruct (Req_EM_T _ _); try reflexivity; exfalso; lra).
  assert (Qc : is31 (sent c) = true).
  { unfold is31. rewrite !andb_true_iff, !Reqb_eq. pose proof (fun i j => vals_ent _ _ _ _ _ i j V) as T. cbn [ment] in T. repeat split; rewrite T by lia; reflexivity. }
  pose proof (vals_nr _ _ _ _ _ V) as R2. pose proof (vals_nc _ _ _ _ _ V) as C2. cbn [m_nr m_nc] in R2, C2.
  assert (Es : @e_svd RNum E31 d = Ok (delta, s31, delta)) by (cbn [e_svd E31]; rewrite Qd; reflexivity).
  assert (Ec : @e_sparsesvd RNum E31 c (1 + 1 / 10) = Ok (1, delta, s31, delta)) by (cbn [e_sparsesvd E31]; rewrite R2, C2, Qc; reflexivity).
  assert (HCs : @sparsesvd_correct E31).
  { intros c0 k dim ut s vt W0 H. destruct (E31_sparse c0 k dim ut s vt W0 H) as (N & u' & s' & v' & HT & _ & _ & _ & Hd & Hag & _). constructor.
    - intros a b Ha Hb. rewrite <- (st_left _ _ _ _ _ _ _ HT a b) by lia. apply rsum_ext. intros i Hi.
      destruct (Hag a Ha) as (_ & U1 & _), (Hag b Hb) as (_ & U2 & _). rewrite (U1 i Hi), (U2 i Hi). reflexivity.
    - intros a b Ha Hb. rewrite <- (st_right _ _ _ _ _ _ _ HT a b) by lia. apply rsum_ext. intros j Hj.
      destruct (Hag a Ha) as (_ & _ & U1), (Hag b Hb) as (_ & _ & U2). rewrite (U1 j Hj), (U2 j Hj). reflexivity.
    - intros i a Hi Ha. destruct (Hag a Ha) as (S1 & U1 & V1). rewrite <- S1, <- (U1 i Hi), <- (st_mul _ _ _ _ _ _ _ HT i a Hi) by lia. apply rsum_ext. intros j Hj. rewrite (V1 j Hj). reflexivity. }
  assert (Rk : count (Rltb tolerance) (map s31 (seq 0 2)) = 2).
  { unfold count. cbn. unfold Rltb, tolerance. repeat (destruct (Rlt_dec _ _); [|lra]). reflexivity. }
  destruct (@C21_apply_dense E31 1 d delta s31 delta W ltac:(lia) E31_svd Es) as (_ & H1). cbv zeta in H1.
  destruct (H1 (fun Z => O_S 1 (eq_trans (eq_sym Z) Rk))) as (r & o & z & Ho & _ & _ & _ & _ & Hnc0 & _).
  assert (Hnc : m_nc r = 1) by (etransitivity; [exact Hnc0|exact (f_equal (Nat.min 1) Rk)]). clear H1 Hnc0.
  destruct (@C21_apply_sparse E31 1 c 1 delta s31 delta (vals_wf _ _ _ _ _ V) ltac:(lia) HCs Ec) as (_ & H2). destruct (H2 ltac:(lia)) as (r' & o' & z' & Ho' & _).
  exists d, c, r, o, r', o'. split; [exact W|]. split; [exact (vals_wf _ _ _ _ _ V)|]. split; [exact E31_svd|]. split; [exact E31_sparse|]. split; [exact Ho|]. split; [exact Ho'|].
  destruct (@C83_error E31 1 d delta s31 delta r o W ltac:(lia) E31_svd Es Ho) as (D & HD). exists D. rewrite HD, Hnc. cbn. ring.
Qed.
