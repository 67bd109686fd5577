(** PLsq.v -- regularised least squares on vectors: the normal equations characterise minimisers, and a generalised
    inverse of the regularised Gram matrix solves them. *)
From Coq Require Import Reals Lra Psatz.
From Verif Require Import Base SpecReal PReal.
Open Scope R_scope.
Open Scope nat_scope.

Definition mv (d : nat) (A : nat -> nat -> R) (x : nat -> R) (i : nat) : R := rsum d (fun k => A i k * x k)%R.
(** sum of squared residuals plus a weighted penalty *)
Definition lsq (n d : nat) (A : nat -> nat -> R) (L : nat -> R) (b x : nat -> R) : R :=
  (rsum n (fun i => (mv d A x i - b i) * (mv d A x i - b i)) + rsum d (fun k => L k * (x k * x k)))%R.
Definition gram (n : nat) (A : nat -> nat -> R) (L : nat -> R) (k l : nat) : R :=
  (rsum n (fun i => A i k * A i l) + (if Nat.eqb k l then L k else 0))%R.

Section Lsq.
Variables (n d : nat) (A : nat -> nat -> R) (L : nat -> R).
Hypothesis Lpos : forall k, k < d -> (0 <= L k)%R.

Lemma gram_sym k l : gram n A L k l = gram n A L l k.
Proof.
  unfold gram. f_equal; [apply rsum_ext; intros; ring|]. destruct (Nat.eqb_spec k l) as [->|H]; [rewrite Nat.eqb_refl; reflexivity|].
  destruct (Nat.eqb_spec l k); [congruence|reflexivity].
Qed.

Lemma rsum_delta m k (f : nat -> R) : k < m -> rsum m (fun l => (if Nat.eqb k l then f l else 0)%R) = f k.
Proof.
  intros H. rewrite (rsum_single m k); [rewrite Nat.eqb_refl; reflexivity|exact H|]. intros i _ Hi.
  destruct (Nat.eqb_spec k i); [congruence|reflexivity].
Qed.

(** Gram matrix times vector *)
Lemma gram_mv x k : k < d -> rsum d (fun l => gram n A L k l * x l)%R = (rsum n (fun i => A i k * mv d A x i) + L k * x k)%R.
Proof.
  intros Hk. unfold gram. rewrite (rsum_ext d _ (fun l => rsum n (fun i => A i k * A i l) * x l + (if Nat.eqb k l then L l * x l else 0))%R).
  2: { intros l _. destruct (Nat.eqb_spec k l) as [->|]; ring. }
  rewrite rsum_plus, rsum_delta by exact Hk. f_equal.
  rewrite (rsum_ext d _ (fun l => rsum n (fun i => A i k * A i l * x l)%R)) by (intros; rewrite <- rsum_scal_r; reflexivity).
  rewrite rsum_swap. apply rsum_ext. intros i _. unfold mv. rewrite <- rsum_scal_l. apply rsum_ext. intros; ring.
Qed.

Lemma gram_quad x y : rsum d (fun k => y k * rsum d (fun l => gram n A L k l * x l))%R =
  (rsum n (fun i => mv d A y i * mv d A x i) + rsum d (fun k => L k * (y k * x k)))%R.
Proof.
  rewrite (rsum_ext d _ (fun k => rsum n (fun i => y k * (A i k * mv d A x i)) + L k * (y k * x k))%R).
  2: { intros k Hk. rewrite gram_mv by exact Hk. rewrite Rmult_plus_distr_l, <- rsum_scal_l. f_equal. ring. }
  rewrite rsum_plus. f_equal. rewrite rsum_swap. apply rsum_ext. intros i _. unfold mv at 2. rewrite <- rsum_scal_r.
  apply rsum_ext. intros; ring.
Qed.

Definition normal_eq (b x : nat -> R) : Prop :=
  forall k, k < d -> rsum d (fun l => gram n A L k l * x l)%R = rsum n (fun i => A i k * b i)%R.

Lemma mv_minus x y i : mv d A (fun k => y k - x k)%R i = (mv d A y i - mv d A x i)%R.
Proof. unfold mv. rewrite <- rsum_minus. apply rsum_ext. intros; ring. Qed.

Lemma lsq_expand b x y : normal_eq b x ->
  lsq n d A L b y = (lsq n d A L b x + (rsum n (fun i => (mv d A y i - mv d A x i) * (mv d A y i - mv d A x i))
                     + rsum d (fun k => L k * ((y k - x k) * (y k - x k)))))%R.
Proof.
  intros Hn. pose proof (gram_quad x (fun k => y k - x k)%R) as Q.
  rewrite (rsum_ext d _ (fun k => (y k - x k) * rsum n (fun i => A i k * b i))%R) in Q by (intros k Hk; rewrite Hn by exact Hk; reflexivity).
  assert (Q2 : rsum d (fun k => (y k - x k) * rsum n (fun i => A i k * b i))%R = rsum n (fun i => (mv d A y i - mv d A x i) * b i)%R).
  { rewrite (rsum_ext d _ (fun k => rsum n (fun i => (y k - x k) * (A i k * b i)))%R) by (intros; rewrite <- rsum_scal_l; reflexivity).
    rewrite rsum_swap. apply rsum_ext. intros i _. rewrite <- mv_minus. unfold mv. rewrite <- rsum_scal_r. apply rsum_ext. intros; ring. }
  rewrite Q2 in Q. unfold lsq.
  rewrite (rsum_ext n (fun i => (mv d A y i - b i) * (mv d A y i - b i))%R
    (fun i => (mv d A x i - b i) * (mv d A x i - b i) + (mv d A y i - mv d A x i) * (mv d A y i - mv d A x i)
              + 2 * (mv d A (fun k => (y k - x k)%R) i * mv d A x i - (mv d A y i - mv d A x i) * b i))%R).
  2: { intros i _. rewrite mv_minus. ring. }
  rewrite (rsum_ext d (fun k => L k * (y k * y k))%R
    (fun k => L k * (x k * x k) + L k * ((y k - x k) * (y k - x k)) + 2 * (L k * ((y k - x k) * x k)))%R) by (intros; ring).
  rewrite !rsum_plus, !rsum_scal_l, rsum_minus. lra.
Qed.

Lemma lsq_optimal b x y : normal_eq b x -> (lsq n d A L b x <= lsq n d A L b y)%R.
Proof.
  intros Hn. rewrite (lsq_expand b x y Hn).
  assert (0 <= rsum n (fun i => (mv d A y i - mv d A x i) * (mv d A y i - mv d A x i)))%R by (apply rsum_nonneg; intros; apply Rle_0_sqr).
  assert (0 <= rsum d (fun k => L k * ((y k - x k) * (y k - x k))))%R by (apply rsum_nonneg; intros k Hk; apply Rmult_le_pos; [exact (Lpos k Hk)|apply Rle_0_sqr]).
  lra.
Qed.

(** a vector in the kernel of the Gram matrix is in the kernel of A *)
Lemma gram_kernel z : (forall k, k < d -> rsum d (fun l => gram n A L k l * z l)%R = 0%R) -> forall i, i < n -> mv d A z i = 0%R.
Proof.
  intros Hz. pose proof (gram_quad z z) as Q. rewrite rsum_zero in Q by (intros k Hk; rewrite Hz by exact Hk; ring).
  assert (H1 : (0 <= rsum n (fun i => mv d A z i * mv d A z i))%R) by (apply rsum_nonneg; intros; apply Rle_0_sqr).
  assert (H2 : (0 <= rsum d (fun k => L k * (z k * z k)))%R) by (apply rsum_nonneg; intros k Hk; apply Rmult_le_pos; [exact (Lpos k Hk)|apply Rle_0_sqr]).
  assert (H3 : rsum n (fun i => mv d A z i * mv d A z i)%R = 0%R) by lra.
  intros i Hi. pose proof (rsum_nonneg_zero n (fun i => mv d A z i * mv d A z i)%R ltac:(intros; apply Rle_0_sqr) H3 i Hi) as K. cbn beta in K. apply Rsqr_0_uniq. exact K.
Qed.

(** P with M P M = M: x = P A^T b solves the normal equations *)
Lemma ginv_normal (P : nat -> nat -> R) b x :
  (forall k l, k < d -> l < d -> rsum d (fun p => rsum d (fun q => gram n A L k p * P p q * gram n A L q l))%R = gram n A L k l) ->
  (forall k, k < d -> x k = rsum d (fun q => P k q * rsum n (fun i => A i q * b i))%R) ->
  normal_eq b x.
Proof.
  intros HP Hx k Hk.
  (* row k of Z = I - M P *)
  set (z := fun q : nat => ((if Nat.eqb k q then 1 else 0) - rsum d (fun p => gram n A L k p * P p q))%R).
  assert (Hz : forall l, l < d -> rsum d (fun q => gram n A L l q * z q)%R = 0%R).
  { intros l Hl. unfold z.
    rewrite (rsum_ext d _ (fun q => (if Nat.eqb k q then gram n A L q l else 0) - rsum d (fun p => gram n A L k p * P p q * gram n A L q l))%R).
    2: { intros q _. rewrite (gram_sym l q). rewrite rsum_scal_r. destruct (Nat.eqb k q); ring. }
    rewrite rsum_minus, (rsum_delta d k (fun q => gram n A L q l) Hk), rsum_swap, HP by assumption. lra. }
  pose proof (gram_kernel z Hz) as Kz.
  rewrite (rsum_ext d _ (fun p => gram n A L k p * rsum d (fun q => P p q * rsum n (fun i => A i q * b i)))%R) by (intros p Hp; rewrite Hx by exact Hp; reflexivity).
  transitivity (rsum n (fun i => rsum d (fun q => rsum d (fun p => gram n A L k p * P p q) * A i q) * b i)%R).
  - rewrite (rsum_ext d _ (fun p => rsum d (fun q => rsum n (fun i => gram n A L k p * P p q * (A i q * b i))))%R).
    2: { intros p _. rewrite <- rsum_scal_l. apply rsum_ext. intros q _. rewrite <- Rmult_assoc, <- rsum_scal_l. reflexivity. }
    rewrite rsum_swap. rewrite (rsum_ext d _ (fun q => rsum n (fun i => rsum d (fun p => gram n A L k p * P p q) * (A i q * b i)))%R).
    2: { intros q _. rewrite rsum_swap. apply rsum_ext. intros i _. rewrite <- rsum_scal_r. reflexivity. }
    rewrite rsum_swap. apply rsum_ext. intros i _. rewrite <- rsum_scal_r. apply rsum_ext. intros; ring.
  - apply rsum_ext. intros i Hi. f_equal. specialize (Kz i Hi). unfold mv, z in Kz.
    rewrite (rsum_ext d _ (fun q => (if Nat.eqb k q then A i q else 0) - rsum d (fun p => gram n A L k p * P p q) * A i q)%R) in Kz
      by (intros q _; destruct (Nat.eqb k q); ring).
    rewrite rsum_minus, (rsum_delta d k (fun q => A i q) Hk) in Kz. lra.
Qed.
End Lsq.
