(** PEckart.v -- orthonormal systems of vectors over exact reals: Bessel, best approximation in a subspace, Gram-Schmidt, Eckart-Young. *)
From Coq Require Import Reals Lra Psatz.
From Verif Require Import Base Num SpecReal PReal PPos Prop_Svd.
#[local] Existing Instance RNum.
Open Scope R_scope.
Open Scope nat_scope.

(** q_0 .. q_(k-1) are orthonormal vectors of c coordinates *)
Definition orthonormal (k c : nat) (q : nat -> nat -> R) : Prop := forall a b, a < k -> b < k -> dot c (q a) (q b) = delta a b.
Definition comb (k : nat) (z : nat -> R) (q : nat -> nat -> R) (j : nat) : R := rsum k (fun b => z b * q b j)%R.
Definition sqd (c : nat) (x y : nat -> R) : R := rsum c (fun j => (x j - y j) * (x j - y j))%R.

Lemma sqd_nonneg c x y : (0 <= sqd c x y)%R.
Proof. apply rsum_nonneg. intros. apply Rle_0_sqr. Qed.
Lemma dot_comb_l c k z q x : dot c (comb k z q) x = rsum k (fun b => z b * dot c (q b) x)%R.
Proof.
  unfold dot, comb. transitivity (rsum c (fun j => rsum k (fun b => z b * (q b j * x j)))%R).
  - apply rsum_ext. intros j Hj. rewrite <- rsum_scal_r. apply rsum_ext. intros. ring.
  - rewrite rsum_swap. apply rsum_ext. intros. apply rsum_scal_l.
Qed.
Lemma rsum_delta k (f : nat -> R) a : a < k -> rsum k (fun b => f b * delta a b)%R = f a.
Proof.
  intros Ha. rewrite (rsum_single k a _ Ha).
  - unfold delta. rewrite Nat.eqb_refl. ring.
  - intros b _ Hb. unfold delta. destruct (Nat.eqb_spec a b); [congruence|ring].
Qed.
Lemma dot_comb_ortho c k z q a : orthonormal k c q -> a < k -> dot c (comb k z q) (q a) = z a.
Proof.
  intros H Ha. rewrite dot_comb_l. rewrite <- (rsum_delta k z a Ha). apply rsum_ext. intros b Hb. rewrite (H b a Hb Ha).
  unfold delta. rewrite (Nat.eqb_sym b a). reflexivity.
Qed.
Lemma sqd_expand c x y : sqd c x y = (dot c x x - 2 * dot c y x + dot c y y)%R.
Proof.
  unfold sqd, dot. rewrite <- rsum_scal_l, <- rsum_minus, <- rsum_plus. apply rsum_ext. intros. ring.
Qed.
(** distance from x to a combination of orthonormal vectors *)
Lemma sqd_comb c k q x z : orthonormal k c q ->
  sqd c x (comb k z q) = (dot c x x - rsum k (fun b => dot c x (q b) * dot c x (q b)) + rsum k (fun b => (z b - dot c x (q b)) * (z b - dot c x (q b))))%R.
Proof.
  intros H. rewrite sqd_expand. rewrite (dot_comb_l c k z q x), (dot_comb_l c k z q (comb k z q)).
  rewrite (rsum_ext k (fun b => z b * dot c (q b) (comb k z q))%R (fun b => z b * z b)%R).
  2:{ intros b Hb. rewrite dot_sym, (dot_comb_ortho c k z q b H Hb). reflexivity. }
  assert (K : (- 2 * rsum k (fun b => z b * dot c (q b) x) + rsum k (fun b => z b * z b) = - rsum k (fun b => dot c x (q b) * dot c x (q b)) + rsum k (fun b => (z b - dot c x (q b)) * (z b - dot c x (q b))))%R).
  { rewrite <- rsum_scal_l, <- rsum_opp, <- !rsum_plus. apply rsum_ext. intros b Hb. rewrite (dot_sym c (q b) x). ring. }
  lra.
Qed.
Lemma bessel c k q x : orthonormal k c q -> (rsum k (fun b => dot c x (q b) * dot c x (q b)) <= dot c x x)%R.
Proof.
  intros H. pose proof (sqd_comb c k q x (fun b => dot c x (q b)) H) as K. pose proof (sqd_nonneg c x (comb k (fun b => dot c x (q b)) q)).
  cbv beta in K. rewrite (rsum_zero k (fun b => (dot c x (q b) - dot c x (q b)) * (dot c x (q b) - dot c x (q b)))%R) in K by (intros; ring). lra.
Qed.
(** the coefficients x.q_b give the nearest point *)
Lemma nearest c k q x z : orthonormal k c q -> (sqd c x (comb k (fun b => dot c x (q b)) q) <= sqd c x (comb k z q))%R.
Proof.
  intros H. rewrite !sqd_comb by exact H. cbv beta. rewrite (rsum_zero k (fun b => (dot c x (q b) - dot c x (q b)) * (dot c x (q b) - dot c x (q b)))%R) by (intros; ring).
  assert (0 <= rsum k (fun b => (z b - dot c x (q b)) * (z b - dot c x (q b))))%R by (apply rsum_nonneg; intros; apply Rle_0_sqr). lra.
Qed.

(** Gram-Schmidt: k vectors are combinations of at most k orthonormal ones *)
Lemma gram_schmidt c k (y : nat -> nat -> R) : exists k' q w, k' <= k /\ orthonormal k' c q /\
  forall a j, a < k -> j < c -> y a j = comb k' (w a) q j.
Proof.
  induction k as [|k (k' & q & w & Hk & Ho & Hy)].
  - exists 0, (fun _ _ => 0%R), (fun _ _ => 0%R). split; [lia|]. split; [intros a b Ha; lia|]. intros a j Ha; lia.
  - set (p := comb k' (fun b => dot c (y k) (q b)) q). set (v := fun j => (y k j - p j)%R). set (N := dot c v v).
    assert (Ov : forall b, b < k' -> dot c v (q b) = 0%R).
    { intros b Hb. unfold v. rewrite dot_minus_l. unfold p. rewrite (dot_comb_ortho c k' _ q b Ho Hb). ring. }
    destruct (Req_dec N 0) as [Z|Z].
    + exists k', q, (fun a => if Nat.eqb a k then (fun b => dot c (y k) (q b)) else w a). split; [lia|]. split; [exact Ho|].
      intros a j Ha Hj. destruct (Nat.eqb_spec a k) as [->|Hne].
      * pose proof (dot_self_zero c v Z j Hj) as K. unfold v in K. fold p. lra.
      * apply Hy; [lia|exact Hj].
    + assert (HN : (0 < N)%R) by (pose proof (dot_self_nonneg c v); unfold N in *; lra).
      assert (Hs : (0 < sqrt N)%R) by (apply sqrt_lt_R0, HN). assert (Hss : (sqrt N * sqrt N = N)%R) by (apply sqrt_sqrt; lra).
      set (e := fun j => (v j / sqrt N)%R).
      assert (De : forall x, dot c e x = (dot c v x / sqrt N)%R).
      { intros x. unfold dot, e, Rdiv. rewrite <- rsum_scal_r. apply rsum_ext. intros. ring. }
      exists (S k'), (fun b => if Nat.eqb b k' then e else q b), (fun a b => if Nat.eqb a k then (if Nat.eqb b k' then sqrt N else dot c (y k) (q b)) else if Nat.eqb b k' then 0%R else w a b).
      split; [lia|]. split.
      * intros a b Ha Hb. destruct (Nat.eqb_spec a k') as [->|Na], (Nat.eqb_spec b k') as [->|Nb].
        -- rewrite De, dot_sym, De. fold N. unfold delta. rewrite Nat.eqb_refl.
           transitivity (N / (sqrt N * sqrt N))%R; [field; lra|]. rewrite Hss. field. exact Z.
        -- rewrite De, Ov by lia. unfold delta. destruct (Nat.eqb_spec k' b); [congruence|]. field. lra.
        -- rewrite dot_sym, De, Ov by lia. unfold delta. destruct (Nat.eqb_spec a k'); [congruence|]. field. lra.
        -- apply Ho; lia.
      * intros a j Ha Hj. unfold comb. cbn [rsum]. rewrite Nat.eqb_refl. destruct (Nat.eqb_spec a k) as [->|Na].
        -- rewrite (rsum_ext k' _ (fun b => dot c (y k) (q b) * q b j)%R).
           2:{ intros b Hb. destruct (Nat.eqb_spec b k'); [lia|reflexivity]. }
           change (rsum k' (fun b => dot c (y k) (q b) * q b j)%R) with (p j). unfold e, v. field. lra.
        -- rewrite (rsum_ext k' _ (fun b => w a b * q b j)%R).
           2:{ intros b Hb. destruct (Nat.eqb_spec b k'); [lia|reflexivity]. }
           rewrite (Hy a j) by lia. unfold comb. ring.
Qed.

(** a weighted sum with weights in decreasing order and coefficients between 0 and 1 of total at most k *)
Lemma weights N k (s t : nat -> R) : (forall a b, a <= b -> b < N -> (s b <= s a)%R) -> (forall a, a < N -> (0 <= s a)%R) ->
  (forall a, a < N -> (0 <= t a <= 1)%R) -> (rsum N t <= INR k)%R -> (rsum N (fun a => s a * t a) <= rsum (Nat.min k N) s)%R.
Proof.
  intros Hd Hs Ht Hk. destruct (le_lt_dec N k) as [L|L].
  - rewrite Nat.min_r by exact L. apply rsum_le. intros a Ha. specialize (Hs a Ha). specialize (Ht a Ha). nra.
  - rewrite Nat.min_l by lia. destruct k as [|k].
    { cbn [rsum]. assert (Z : forall a, a < N -> t a = 0%R).
      { apply rsum_nonneg_zero; [intros a Ha; apply Ht, Ha|]. assert (0 <= rsum N t)%R by (apply rsum_nonneg; intros a Ha; apply Ht, Ha). cbn in Hk. lra. }
      rewrite rsum_zero; [lra|]. intros a Ha. rewrite (Z a Ha). ring. }
    set (m := s k). assert (Hm : (0 <= m)%R) by (apply Hs; lia).
    assert (K : (rsum N (fun a => s a * t a) - rsum (S k) s <= m * (rsum N t - INR (S k)))%R).
    { replace N with (S k + (N - S k)) at 1 2 by lia. rewrite !rsum_app.
      assert (A : (rsum (S k) (fun a => s a * t a) - rsum (S k) s <= m * (rsum (S k) t - INR (S k)))%R).
      { assert (EI : INR (S k) = rsum (S k) (fun _ => 1%R)). { clear. induction (S k) as [|n IH]; [reflexivity|]. rewrite S_INR, IH. reflexivity. }
        rewrite EI, <- !rsum_minus, <- rsum_scal_l. apply rsum_le. intros a Ha. pose proof (Ht a ltac:(lia)). pose proof (Hd a k ltac:(lia) ltac:(lia)). fold m in H0. nra. }
      assert (B : (rsum (N - S k) (fun i => s (S k + i)%nat * t (S k + i)%nat) <= m * rsum (N - S k) (fun i => t (S k + i)%nat))%R).
      { rewrite <- rsum_scal_l. apply rsum_le. intros a Ha. pose proof (Ht (S k + a) ltac:(lia)). pose proof (Hd k (S k + a) ltac:(lia) ltac:(lia)). fold m in H0. nra. }
      lra. }
    nra.
Qed.

(** ** Eckart-Young *)
Section SVD.
Variables (r c N : nat) (f u : nat -> nat -> R) (s : nat -> R) (v : nat -> nat -> R).
Hypothesis HT : singular_triples r c N f u s v.
Hypothesis HR : reconstructs r c N f u s v.
Hypothesis HD : non_increasing N s.
Hypothesis HN : forall a, a < N -> (0 <= s a)%R.

Lemma right_orthonormal : orthonormal N c v.
Proof. intros a b Ha Hb. exact (st_right _ _ _ _ _ _ _ HT a b Ha Hb). Qed.
Lemma row_comb i j : i < r -> j < c -> f i j = comb N (fun a => s a * u i a)%R v j.
Proof. intros Hi Hj. rewrite (HR i j Hi Hj). unfold comb. apply rsum_ext. intros. ring. Qed.
Lemma row_dot i x : i < r -> dot c (f i) x = rsum N (fun a => s a * u i a * dot c (v a) x)%R.
Proof.
  intros Hi. rewrite <- dot_comb_l. unfold dot. apply rsum_ext. intros j Hj. rewrite (row_comb i j Hi Hj). reflexivity.
Qed.
(** sum over the rows of (f_i . x)^2 *)
Lemma energy_dir x : rsum r (fun i => dot c (f i) x * dot c (f i) x)%R = rsum N (fun a => s a * s a * (dot c (v a) x * dot c (v a) x))%R.
Proof.
  rewrite (rsum_ext r _ (fun i => rsum N (fun a => rsum N (fun b => s a * dot c (v a) x * (s b * dot c (v b) x) * (u i a * u i b))))%R).
  2:{ intros i Hi. rewrite !(row_dot i x Hi), rsum_mul. apply rsum_ext. intros a Ha. apply rsum_ext. intros. ring. }
  rewrite rsum_swap. apply rsum_ext. intros a Ha. rewrite rsum_swap.
  rewrite (rsum_ext N _ (fun b => s a * dot c (v a) x * (s b * dot c (v b) x) * delta a b)%R).
  2:{ intros b Hb. rewrite rsum_scal_l, (st_left _ _ _ _ _ _ _ HT a b Ha Hb). reflexivity. }
  rewrite (rsum_delta N (fun b => s a * dot c (v a) x * (s b * dot c (v b) x))%R a Ha). ring.
Qed.
(** total energy *)
Lemma energy : rsum r (fun i => dot c (f i) (f i)) = rsum N (fun a => s a * s a)%R.
Proof.
  rewrite (rsum_ext r _ (fun i => rsum N (fun a => s a * s a * (u i a * u i a)))%R).
  2:{ intros i Hi. rewrite (row_dot i (f i) Hi). apply rsum_ext. intros a Ha.
      assert (K : dot c (v a) (f i) = (s a * u i a)%R) by (rewrite <- (st_mul _ _ _ _ _ _ _ HT i a Hi Ha); unfold dot; apply rsum_ext; intros; ring). rewrite K. ring. }
  rewrite rsum_swap. apply rsum_ext. intros a Ha. rewrite rsum_scal_l, (st_left _ _ _ _ _ _ _ HT a a Ha Ha). unfold delta. rewrite Nat.eqb_refl. ring.
Qed.
(** the energy any k-dimensional subspace captures *)
Lemma captured k q : orthonormal k c q -> (rsum r (fun i => rsum k (fun b => dot c (f i) (q b) * dot c (f i) (q b))) <= rsum (Nat.min k N) (fun a => s a * s a))%R.
Proof.
  intros Ho. rewrite rsum_swap. rewrite (rsum_ext k _ (fun b => rsum N (fun a => s a * s a * (dot c (v a) (q b) * dot c (v a) (q b))))%R) by (intros; apply energy_dir).
  rewrite rsum_swap. rewrite (rsum_ext N _ (fun a => s a * s a * rsum k (fun b => dot c (v a) (q b) * dot c (v a) (q b)))%R) by (intros; apply rsum_scal_l).
  apply (weights N k (fun a => s a * s a)%R).
  - intros a b Hab Hb. pose proof (HD a b Hab Hb). pose proof (HN b Hb). nra.
  - intros a Ha. apply Rle_0_sqr.
  - intros a Ha. split; [apply rsum_nonneg; intros; apply Rle_0_sqr|]. eapply Rle_trans; [apply (bessel c k q (v a) Ho)|].
    rewrite (right_orthonormal a a Ha Ha). unfold delta. rewrite Nat.eqb_refl. lra.
  - rewrite rsum_swap. assert (EI : INR k = rsum k (fun _ => 1%R)). { clear. induction k as [|n IH]; [reflexivity|]. rewrite S_INR, IH. reflexivity. }
    rewrite EI. apply rsum_le. intros b Hb. rewrite (rsum_ext N _ (fun a => dot c (q b) (v a) * dot c (q b) (v a))%R) by (intros; rewrite (dot_sym c (v i)); reflexivity).
    eapply Rle_trans; [apply (bessel c N v (q b) right_orthonormal)|]. rewrite (Ho b b Hb Hb). unfold delta. rewrite Nat.eqb_refl. lra.
Qed.
(** no X Y with an inner dimension of k comes closer to f than the discarded singular values *)
Lemma eckart_young k (X Y : nat -> nat -> R) :
  (rsum N (fun a => s a * s a) - rsum (Nat.min k N) (fun a => s a * s a) <= rsum r (fun i => sqd c (f i) (comb k (X i) Y)))%R.
Proof.
  destruct (gram_schmidt c k Y) as (k' & q & w & Hk & Ho & Hy).
  assert (EC : forall i j, j < c -> comb k (X i) Y j = comb k' (fun b => rsum k (fun a => X i a * w a b))%R q j).
  { intros i j Hj. unfold comb. rewrite (rsum_ext k _ (fun a => rsum k' (fun b => X i a * w a b * q b j))%R).
    2:{ intros a Ha. rewrite (Hy a j Ha Hj). unfold comb. rewrite <- rsum_scal_l. apply rsum_ext. intros. ring. }
    rewrite rsum_swap. apply rsum_ext. intros b Hb. rewrite <- rsum_scal_r. reflexivity. }
  rewrite (rsum_ext r (fun i => sqd c (f i) (comb k (X i) Y)) (fun i => sqd c (f i) (comb k' (fun b => rsum k (fun a => X i a * w a b))%R q))).
  2:{ intros i Hi. unfold sqd. apply rsum_ext. intros j Hj. rewrite (EC i j Hj). reflexivity. }
  eapply Rle_trans; [|apply (rsum_le r (fun i => dot c (f i) (f i) - rsum k' (fun b => dot c (f i) (q b) * dot c (f i) (q b)))%R)].
  - rewrite rsum_minus, energy. pose proof (captured k' q Ho) as C.
    assert (M : (rsum (Nat.min k' N) (fun a => s a * s a) <= rsum (Nat.min k N) (fun a => s a * s a))%R).
    { replace (Nat.min k N) with (Nat.min k' N + (Nat.min k N - Nat.min k' N)) by lia. rewrite rsum_app.
      assert (0 <= rsum (Nat.min k N - Nat.min k' N) (fun i => s (Nat.min k' N + i)%nat * s (Nat.min k' N + i)%nat))%R by (apply rsum_nonneg; intros; apply Rle_0_sqr). lra. }
    lra.
  - intros i Hi. rewrite (sqd_comb c k' q (f i) _ Ho).
    match goal with |- (_ <= _ + rsum k' ?g)%R => assert (0 <= rsum k' g)%R by (apply rsum_nonneg; intros; apply Rle_0_sqr) end. lra.
Qed.
(** truncation to n triples leaves exactly the discarded singular values *)
Lemma truncation n : n <= N -> rsum r (fun i => sqd c (f i) (comb n (fun a => s a * u i a)%R v)) = (rsum N (fun a => s a * s a) - rsum n (fun a => s a * s a))%R.
Proof.
  intros Hn. assert (Ho : orthonormal n c v) by (intros a b Ha Hb; apply right_orthonormal; lia).
  assert (Hd : forall i a, i < r -> a < n -> dot c (f i) (v a) = (s a * u i a)%R) by (intros i a Hi Ha; exact (st_mul _ _ _ _ _ _ _ HT i a Hi ltac:(lia))).
  rewrite (rsum_ext r _ (fun i => dot c (f i) (f i) - rsum n (fun b => s b * s b * (u i b * u i b)))%R).
  2:{ intros i Hi. rewrite (sqd_comb c n v (f i) _ Ho).
      rewrite (rsum_ext n (fun b => dot c (f i) (v b) * dot c (f i) (v b))%R (fun b => s b * s b * (u i b * u i b))%R) by (intros b Hb; rewrite (Hd i b Hi Hb); ring).
      rewrite (rsum_zero n (fun b => (s b * u i b - dot c (f i) (v b)) * (s b * u i b - dot c (f i) (v b)))%R); [ring|]. intros b Hb. rewrite (Hd i b Hi Hb). ring. }
  rewrite rsum_minus, energy. f_equal. rewrite rsum_swap. apply rsum_ext. intros a Ha. rewrite rsum_scal_l, (st_left _ _ _ _ _ _ _ HT a a) by lia.
  unfold delta. rewrite Nat.eqb_refl. ring.
Qed.
(** coordinates of a row of u are at most 1 in norm *)
Lemma u_row i n : i < r -> n <= N -> (rsum n (fun a => u i a * u i a) <= 1)%R.
Proof.
  intros Hi Hn. pose proof (bessel r n (fun a i => u i a) (fun k => delta i k)) as B.
  assert (O : orthonormal n r (fun a i => u i a)) by (intros a b Ha Hb; apply (st_left _ _ _ _ _ _ _ HT); lia).
  specialize (B O). assert (D : forall x, dot r (fun k => delta i k) x = x i) by (intros x; unfold dot; rewrite <- (rsum_delta r x i Hi); apply rsum_ext; intros; ring).
  rewrite D in B. unfold delta in B at 3. rewrite Nat.eqb_refl in B. rewrite (rsum_ext n (fun b => dot r (fun k => delta i k) (fun i0 => u i0 b) * dot r (fun k => delta i k) (fun i0 => u i0 b))%R (fun a => u i a * u i a)%R) in B by (intros; rewrite D; reflexivity).
  exact B.
Qed.
Lemma gram_tail i i' n : i < r -> i' < r -> n < N ->
  (Rabs (dot c (f i) (f i') - rsum n (fun a => s a * u i a * (s a * u i' a))) <= s n * s n)%R.
Proof.
  intros Hi Hi' Hn. rewrite (gram_full r c N f u s v i i' HT HR Hi Hi'). replace N with (n + (N - n)) by lia. rewrite rsum_app.
  match goal with |- (Rabs (?x + ?y - ?x) <= _)%R => replace (x + y - x)%R with y by ring end.
  assert (B : forall q, q <= N - n -> (Rabs (rsum q (fun a => s (n + a)%nat * u i (n + a)%nat * (s (n + a)%nat * u i' (n + a)%nat)))
    <= s n * s n * (/ 2 * (rsum q (fun a => u i (n + a)%nat * u i (n + a)%nat) + rsum q (fun a => u i' (n + a)%nat * u i' (n + a)%nat))))%R).
  { induction q as [|q IH]; intros Hq; [cbn; rewrite Rabs_R0; lra|]. cbn [rsum]. eapply Rle_trans; [apply Rabs_triang|]. specialize (IH ltac:(lia)).
    pose proof (HN (n + q) ltac:(lia)) as A1. pose proof (HD n (n + q) ltac:(lia) ltac:(lia)) as A2. set (w := s (n + q)) in *. set (x := u i (n + q)) in *. set (y := u i' (n + q)) in *.
    assert (Q : (Rabs (w * x * (w * y)) <= s n * s n * (/ 2 * (x * x + y * y)))%R).
    { replace (w * x * (w * y))%R with (w * w * (x * y))%R by ring. rewrite Rabs_mult, (Rabs_right (w * w)) by (apply Rle_ge, Rle_0_sqr).
      assert (X : (Rabs (x * y) <= / 2 * (x * x + y * y))%R) by (apply Rabs_le; pose proof (Rle_0_sqr (x - y)); pose proof (Rle_0_sqr (x + y)); unfold Rsqr in *; split; lra). assert (w * w <= s n * s n)%R by (apply Rmult_le_compat; lra).
      apply Rmult_le_compat; [apply Rle_0_sqr|apply Rabs_pos|lra|exact X]. }
    lra. }
  eapply Rle_trans; [apply (B (N - n)); lia|].
  assert (T : forall k, k < r -> (rsum (N - n) (fun a => u k (n + a)%nat * u k (n + a)%nat) <= 1)%R).
  { intros k Hk. pose proof (u_row k N Hk (le_n _)) as U. replace N with (n + (N - n)) in U at 1 by lia. rewrite rsum_app in U.
    assert (0 <= rsum n (fun a => u k a * u k a))%R by (apply rsum_nonneg; intros; apply Rle_0_sqr). lra. }
  pose proof (T i Hi). pose proof (T i' Hi'). assert (0 <= s n * s n)%R by apply Rle_0_sqr. nra.
Qed.
End SVD.
