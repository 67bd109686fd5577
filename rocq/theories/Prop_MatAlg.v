(** Prop_MatAlg.v -- property C100: the laws of matrix algebra hold for the toolkit's two matrix classes, over exact reals. *)
From Coq Require Import Reals Lra Psatz QArith Qcanon Permutation.
From Verif Require Import Base PyList Num SpecReal Dense Sparse Matrix PSparse PMatrix PMatOps PShape PVals PReal PPos PReshape PSort Prop_Scaling.
From Verif Require PLexFun.
From Verif Require Import Prop_Methods.
#[local] Existing Instance RNum.
Open Scope R_scope.
Open Scope nat_scope.

(** ** vocabulary *)
(** both computations succeed with matrices of the same class, shape and entries *)
Definition equal (x y : res matrix) : Prop :=
  exists a b, x = Ok a /\ y = Ok b /\ mwf a /\ mwf b /\ type_of a = type_of b /\ m_nr a = m_nr b /\ m_nc a = m_nc b /\
  forall i j, i < m_nr a -> j < m_nc a -> ment a i j = ment b i j.
(** the same matrix operations on results of other computations: the first exception wins *)
Definition on2 (op : matrix -> matrix -> res matrix) (x y : res matrix) : res matrix := let* a := x in let* b := y in op a b.
Definition on1 (op : matrix -> matrix) (x : res matrix) : res matrix := rmap op x.
Notation "x ⊕ y" := (on2 m_add x y) (at level 50, left associativity).
Notation "x ⊖ y" := (on2 m_sub x y) (at level 50, left associativity).
Notation "x ⊙ y" := (on2 m_mul x y) (at level 40, left associativity).
Notation "x ⊗ y" := (on2 m_multiply x y) (at level 40, left associativity).
Notation "x ⊘ y" := (on2 m_vstack x y) (at level 45, left associativity).
Notation "x ⊚ y" := (on2 m_hstack x y) (at level 45, left associativity).
Notation tr := (on1 m_transpose).
Notation "k ⋅ x" := (on1 (m_scal k) x) (at level 35).
Notation neg := (on1 m_neg).

(** a computation returning the entries [f] *)
Definition cv (x : res matrix) t r c f : Prop := exists z, x = Ok z /\ vals z t r c f.
Lemma cv_self a : mwf a -> cv (Ok a) (type_of a) (m_nr a) (m_nc a) (ment a).
Proof. intros W. exists a. split; [reflexivity|apply vals_self, W]. Qed.
Lemma cv_add x y t r c f g : cv x t r c f -> cv y t r c g -> cv (x ⊕ y) t r c (fun i j => f i j + g i j)%R.
Proof. intros (a & -> & Va) (b & -> & Vb). exact (vals_add _ _ _ _ _ _ _ Va Vb). Qed.
Lemma cv_sub x y t r c f g : cv x t r c f -> cv y t r c g -> cv (x ⊖ y) t r c (fun i j => f i j - g i j)%R.
Proof. intros (a & -> & Va) (b & -> & Vb). exact (vals_sub _ _ _ _ _ _ _ Va Vb). Qed.
Lemma cv_multiply x y t r c f g : cv x t r c f -> cv y t r c g -> cv (x ⊗ y) t r c (fun i j => f i j * g i j)%R.
Proof. intros (a & -> & Va) (b & -> & Vb). exact (vals_multiply _ _ _ _ _ _ _ Va Vb). Qed.
Lemma cv_mul x y t r k c f g : cv x t r k f -> cv y t k c g -> cv (x ⊙ y) t r c (fun i j => rsum k (fun l => f i l * g l j)%R).
Proof.
  intros (a & -> & Va) (b & -> & Vb). destruct (vals_mul _ _ _ _ _ _ _ _ Va Vb) as (z & E & V). exists z. split; [exact E|].
  eapply vals_ext; [exact V|]. intros i j _ _. apply sumn_rsum.
Qed.
Lemma cv_vstack x y t r1 r2 c f g : cv x t r1 c f -> cv y t r2 c g -> cv (x ⊘ y) t (r1 + r2) c (fun i j => if Nat.ltb i r1 then f i j else g (i - r1) j).
Proof. intros (a & -> & Va) (b & -> & Vb). exact (vals_vstack _ _ _ _ _ _ _ _ Va Vb). Qed.
Lemma cv_hstack x y t r c1 c2 f g : cv x t r c1 f -> cv y t r c2 g -> cv (x ⊚ y) t r (c1 + c2) (fun i j => if Nat.ltb j c1 then f i j else g i (j - c1)).
Proof. intros (a & -> & Va) (b & -> & Vb). exact (vals_hstack _ _ _ _ _ _ _ _ Va Vb). Qed.
Lemma cv_transpose x t r c f : cv x t r c f -> cv (tr x) t c r (fun i j => f j i).
Proof. intros (a & -> & Va). eexists. split; [reflexivity|]. exact (vals_transpose _ _ _ _ _ Va). Qed.
Lemma cv_scal k x t r c f : cv x t r c f -> cv (k ⋅ x) t r c (fun i j => f i j * k)%R.
Proof. intros (a & -> & Va). eexists. split; [reflexivity|]. exact (vals_scal k _ _ _ _ _ Va). Qed.
Lemma cv_neg x t r c f : cv x t r c f -> cv (neg x) t r c (fun i j => - f i j)%R.
Proof. intros (a & -> & Va). eexists. split; [reflexivity|]. exact (vals_neg _ _ _ _ _ Va). Qed.
Lemma cv_eye t n : 0 < n -> cv (Ok (m_identity t n)) t n n (fun i j => if Nat.eqb i j then 1%R else 0%R).
Proof. intros H. eexists. split; [reflexivity|]. exact (vals_identity t n H). Qed.
Lemma cv_equal x y t r c f g : cv x t r c f -> cv y t r c g -> (forall i j, i < r -> j < c -> f i j = g i j) -> equal x y.
Proof.
  intros (a & -> & ((A1&A2&A3&A4)&A5)) (b & -> & ((B1&B2&B3&B4)&B5)) E. exists a, b. repeat split; try congruence. rewrite A3, A4. intros i j Hi Hj.
  rewrite A5, B5 by assumption. apply E; assumption.
Qed.
#[local] Hint Resolve cv_self cv_add cv_sub cv_multiply cv_mul cv_vstack cv_hstack cv_transpose cv_scal cv_neg cv_eye : cv.
Ltac cvs := match goal with |- equal _ _ => eapply cv_equal; [eauto 12 with cv|eauto 12 with cv|cbv beta; intros i j Hi Hj; match goal with |- @eq _ ?x ?y => change (@eq R x y) end] end.

(** *** C100: + and scalar multiplication *)
Theorem C100_addition : forall a b c, mwf a -> mwf b -> mwf c -> type_of b = type_of a -> type_of c = type_of a ->
  m_nr b = m_nr a -> m_nc b = m_nc a -> m_nr c = m_nr a -> m_nc c = m_nc a ->
  let A := Ok a in let B := Ok b in let C := Ok c in
  equal (A ⊕ B) (B ⊕ A) /\ equal (A ⊕ B ⊕ C) (A ⊕ (B ⊕ C)) /\ equal (A ⊖ B) (A ⊕ neg B) /\ equal (neg (neg A)) A /\ equal (A ⊕ B ⊖ B) A /\
  equal (A ⊗ B) (B ⊗ A) /\ equal (A ⊗ B ⊗ C) (A ⊗ (B ⊗ C)) /\ equal (A ⊗ (B ⊕ C)) (A ⊗ B ⊕ A ⊗ C) /\
  (forall k, equal (k ⋅ (A ⊕ B)) (k ⋅ A ⊕ k ⋅ B)) /\ (forall k l, equal (k ⋅ (l ⋅ A)) ((k * l)%R ⋅ A)) /\ (forall k l, equal ((k + l)%R ⋅ A) (k ⋅ A ⊕ l ⋅ A)) /\
  equal (1%R ⋅ A) A /\ equal ((-1)%R ⋅ A) (neg A).
Proof.
  intros a b c Wa Wb Wc Tb Tc Rb Cb Rc Cc A B C.
  assert (VA : cv A (type_of a) (m_nr a) (m_nc a) (ment a)) by (apply cv_self, Wa).
  assert (VB : cv B (type_of a) (m_nr a) (m_nc a) (ment b)) by (rewrite <- Tb, <- Rb, <- Cb; apply cv_self, Wb).
  assert (VC : cv C (type_of a) (m_nr a) (m_nc a) (ment c)) by (rewrite <- Tc, <- Rc, <- Cc; apply cv_self, Wc).
  clearbody A B C. do 12 (split; [intros; cvs; ring|]). cvs. ring.
Qed.

(** *** C100: the matrix product and transposition *)
Lemma rsum_assoc n m (f : nat -> R) (g : nat -> nat -> R) (h : nat -> R) :
  rsum m (fun l => rsum n (fun k => f k * g k l) * h l)%R = rsum n (fun k => f k * rsum m (fun l => g k l * h l))%R.
Proof.
  rewrite (rsum_ext m _ (fun l => rsum n (fun k => f k * g k l * h l)%R)) by (intros; symmetry; apply rsum_scal_r).
  rewrite rsum_swap. apply rsum_ext. intros k _. rewrite <- rsum_scal_l. apply rsum_ext. intros l _. ring.
Qed.
Theorem C100_product : forall a b c, mwf a -> mwf b -> mwf c -> type_of b = type_of a -> type_of c = type_of a -> m_nc a = m_nr b -> m_nc b = m_nr c ->
  let A := Ok a in let B := Ok b in let C := Ok c in
  equal (A ⊙ B ⊙ C) (A ⊙ (B ⊙ C)) /\
  equal (tr (A ⊙ B)) (tr B ⊙ tr A) /\ equal (tr (tr A)) A /\
  equal (Ok (m_identity (type_of a) (m_nr a)) ⊙ A) A /\ equal (A ⊙ Ok (m_identity (type_of a) (m_nc a))) A /\
  (forall k, equal (k ⋅ (A ⊙ B)) ((k ⋅ A) ⊙ B)) /\ (forall k, equal (k ⋅ (A ⊙ B)) (A ⊙ (k ⋅ B))).
Proof.
  intros a b c Wa Wb Wc Tb Tc H1 H2 A B C.
  assert (VA : cv A (type_of a) (m_nr a) (m_nc a) (ment a)) by (apply cv_self, Wa).
  assert (VB : cv B (type_of a) (m_nc a) (m_nc b) (ment b)) by (rewrite <- Tb, H1; apply cv_self, Wb).
  assert (VC : cv C (type_of a) (m_nc b) (m_nc c) (ment c)) by (rewrite <- Tc, H2; apply cv_self, Wc).
  pose proof (vals_pos _ _ _ _ _ (vals_self a Wa)) as (P1 & P2).
  pose proof (cv_eye (type_of a) _ P1) as E1. pose proof (cv_eye (type_of a) _ P2) as E2.
  clearbody A B C. split; [cvs; apply rsum_assoc|]. split; [cvs; apply rsum_ext; intros; ring|]. split; [cvs; reflexivity|].
  split. { cvs. rewrite (rsum_single _ i) by (try assumption; intros k _ K; rewrite (proj2 (Nat.eqb_neq i k)) by congruence; ring). rewrite Nat.eqb_refl. ring. }
  split. { cvs. rewrite (rsum_single _ j) by (try assumption; intros k _ K; rewrite (proj2 (Nat.eqb_neq k j)) by congruence; ring). rewrite Nat.eqb_refl. ring. }
  split; intros k; cvs; rewrite <- rsum_scal_r; apply rsum_ext; intros; ring.
Qed.
Theorem C100_distributes : forall a b c, mwf a -> mwf b -> mwf c -> type_of b = type_of a -> type_of c = type_of a ->
  let A := Ok a in let B := Ok b in let C := Ok c in
  m_nr b = m_nr c -> m_nc b = m_nc c ->
  (m_nc a = m_nr b -> equal (A ⊙ (B ⊕ C)) (A ⊙ B ⊕ A ⊙ C)) /\ (m_nc b = m_nr a -> equal ((B ⊕ C) ⊙ A) (B ⊙ A ⊕ C ⊙ A)) /\ equal (tr (B ⊕ C)) (tr B ⊕ tr C).
Proof.
  intros a b c Wa Wb Wc Tb Tc A B C HR HC.
  assert (VA : cv A (type_of a) (m_nr a) (m_nc a) (ment a)) by (apply cv_self, Wa).
  assert (VB : cv B (type_of a) (m_nr b) (m_nc b) (ment b)) by (rewrite <- Tb; apply cv_self, Wb).
  assert (VC : cv C (type_of a) (m_nr b) (m_nc b) (ment c)) by (rewrite <- Tc, HR, HC; apply cv_self, Wc).
  clearbody A B C. split; [intros H; rewrite H in VA|split; [intros H; rewrite <- H in VA|]].
  - cvs. rewrite <- rsum_plus. apply rsum_ext. intros. ring.
  - cvs. rewrite <- rsum_plus. apply rsum_ext. intros. ring.
  - cvs. reflexivity.
Qed.

(** *** C100: stacking, scaling and block products *)
Theorem C100_blocks : forall a b c d, mwf a -> mwf b -> mwf c -> mwf d -> type_of b = type_of a -> type_of c = type_of a -> type_of d = type_of a ->
  let A := Ok a in let B := Ok b in let C := Ok c in let D := Ok d in
  (m_nc a = m_nc b -> equal (tr (A ⊘ B)) (tr A ⊚ tr B)) /\
  (m_nr a = m_nr b -> equal (tr (A ⊚ B)) (tr A ⊘ tr B)) /\
  (m_nc a = m_nc b -> m_nc b = m_nc c -> equal (A ⊘ B ⊘ C) (A ⊘ (B ⊘ C))) /\
  (m_nc a = m_nc b -> m_nc b = m_nr c -> equal ((A ⊘ B) ⊙ C) ((A ⊙ C) ⊘ (B ⊙ C))) /\
  (m_nr a = m_nr b -> m_nc a = m_nr c -> m_nc b = m_nr d -> m_nc c = m_nc d -> equal ((A ⊚ B) ⊙ (C ⊘ D)) (A ⊙ C ⊕ B ⊙ D)).
Proof.
  intros a b c d Wa Wb Wc Wd Tb Tc Td A B C D.
  assert (VA : cv A (type_of a) (m_nr a) (m_nc a) (ment a)) by (apply cv_self, Wa).
  assert (VB : cv B (type_of a) (m_nr b) (m_nc b) (ment b)) by (rewrite <- Tb; apply cv_self, Wb).
  assert (VC : cv C (type_of a) (m_nr c) (m_nc c) (ment c)) by (rewrite <- Tc; apply cv_self, Wc).
  assert (VD : cv D (type_of a) (m_nr d) (m_nc d) (ment d)) by (rewrite <- Td; apply cv_self, Wd).
  clearbody A B C D. split; [|split; [|split; [|split]]].
  - intros H. rewrite <- H in VB. cvs. reflexivity.
  - intros H. rewrite <- H in VB. cvs. reflexivity.
  - intros H H'. rewrite <- H in *. rewrite <- H' in *. eapply cv_equal; [eauto 12 with cv|rewrite <- Nat.add_assoc; eauto 12 with cv|]. cbv beta. intros i j Hi Hj.
    destruct (Nat.ltb_spec i (m_nr a + m_nr b)), (Nat.ltb_spec i (m_nr a)), (Nat.ltb_spec (i - m_nr a) (m_nr b)); try lia; try reflexivity.
    f_equal. lia.
  - intros H H'. rewrite <- H in *. rewrite <- H' in *. cvs. destruct (Nat.ltb_spec i (m_nr a)); reflexivity.
  - intros H1 H2 H3 H4. rewrite <- H1 in *. rewrite <- H2 in *. rewrite <- H3 in *. rewrite <- H4 in *. cvs. rewrite rsum_app. f_equal; apply rsum_ext; intros k Hk.
    + rewrite (proj2 (Nat.ltb_lt _ _)) by exact Hk. reflexivity.
    + rewrite (proj2 (Nat.ltb_ge _ _)) by lia. replace (m_nc a + k - m_nc a) with k by lia. reflexivity.
Qed.
(** scaling the rows is multiplying by a diagonal matrix on the left, scaling the columns on the right *)
Theorem C100_scaling : forall a, mwf a ->
  (forall v dg, length v = m_nr a -> grid dg (type_of a) (m_nr a) (m_nr a) (fun i j => if Nat.eqb i j then nth i v 0%R else 0%R) ->
     equal (m_scale_rows a v) (Ok dg ⊙ Ok a) /\ equal (tr (m_scale_rows a v)) (on2 (fun x _ => m_scale_cols x v) (tr (Ok a)) (Ok a))) /\
  (forall v dg, length v = m_nc a -> grid dg (type_of a) (m_nc a) (m_nc a) (fun i j => if Nat.eqb i j then nth i v 0%R else 0%R) ->
     equal (m_scale_cols a v) (Ok a ⊙ Ok dg)).
Proof.
  intros a W. pose proof (cv_self a W) as V. split.
  - intros v dg Hv Hd. assert (VD : cv (Ok dg) (type_of a) (m_nr a) (m_nr a) (fun i j => if Nat.eqb i j then nth i v 0%R else 0%R)) by (eexists; split; [reflexivity|apply grid_vals, Hd]).
    assert (VS : cv (m_scale_rows a v) (type_of a) (m_nr a) (m_nc a) (fun i j => ment a i j * nth i v 0)%R) by exact (vals_scale_rows _ _ _ _ _ v (vals_self a W) Hv).
    split.
    + cvs. rewrite (rsum_single _ i) by (try assumption; intros k _ K; rewrite (proj2 (Nat.eqb_neq i k)) by congruence; ring). rewrite Nat.eqb_refl. ring.
    + assert (VT : cv (on2 (fun x _ => m_scale_cols x v) (tr (Ok a)) (Ok a)) (type_of a) (m_nc a) (m_nr a) (fun i j => ment a j i * nth j v 0)%R).
      { exact (vals_scale_cols _ _ _ _ _ v (vals_transpose _ _ _ _ _ (vals_self a W)) Hv). }
      cvs. reflexivity.
  - intros v dg Hv Hd. assert (VD : cv (Ok dg) (type_of a) (m_nc a) (m_nc a) (fun i j => if Nat.eqb i j then nth i v 0%R else 0%R)) by (eexists; split; [reflexivity|apply grid_vals, Hd]).
    assert (VS : cv (m_scale_cols a v) (type_of a) (m_nr a) (m_nc a) (fun i j => ment a i j * nth j v 0)%R) by exact (vals_scale_cols _ _ _ _ _ v (vals_self a W) Hv).
    cvs. rewrite (rsum_single _ j) by (try assumption; intros k _ K; rewrite (proj2 (Nat.eqb_neq k j)) by congruence; ring). rewrite Nat.eqb_refl. reflexivity.
Qed.

(** *** C100: sums and norms of transposed, stacked and scaled matrices *)
Lemma list_eq_nthR (l l' : list R) n : length l = n -> length l' = n -> (forall i, i < n -> nth i l 0%R = nth i l' 0%R) -> l = l'.
Proof. intros L L' H. apply (nth_ext l l' 0%R 0%R); [congruence|]. rewrite L. exact H. Qed.
Theorem C100_reductions : forall a, mwf a ->
  m_sum0 (m_transpose a) = m_sum1 a /\ m_sum1 (m_transpose a) = m_sum0 a /\ m_sum (m_transpose a) = m_sum a /\ m_norm (m_transpose a) = m_norm a /\
  (forall x, m_norm (m_scal x a) = (Rabs x * m_norm a)%R) /\ (forall x, m_sum (m_scal x a) = (x * m_sum a)%R) /\
  (m_norm a = 0%R <-> forall i j, i < m_nr a -> j < m_nc a -> ment a i j = 0%R) /\
  (forall b z, mwf b -> m_vstack a b = Ok z -> m_sum z = (m_sum a + m_sum b)%R) /\
  (forall b z, mwf b -> m_nr a = m_nr b -> m_nc a = m_nc b -> m_add a b = Ok z -> m_sum z = (m_sum a + m_sum b)%R).
Proof.
  intros a W. pose proof (vals_self a W) as V. destruct (C99_sums a W) as (S & L0 & S0 & L1 & S1 & N & _).
  destruct (C99_access a W) as ((WT & TT & RT & CT & ET) & _). destruct (C99_sums _ WT) as (S' & L0' & S0' & L1' & S1' & N' & _). rewrite RT, CT in *.
  split. { apply (list_eq_nthR _ _ (m_nr a)); [exact L0'|exact L1|]. intros i Hi. rewrite S0', S1 by assumption. apply rsum_ext. intros j Hj. apply ET; assumption. }
  split. { apply (list_eq_nthR _ _ (m_nc a)); [exact L1'|exact L0|]. intros i Hi. rewrite S1', S0 by assumption. apply rsum_ext. intros j Hj. apply ET; assumption. }
  split. { rewrite S', S, rsum_swap. apply rsum_ext. intros i Hi. apply rsum_ext. intros j Hj. apply ET; assumption. }
  split. { rewrite N', N, rsum_swap. f_equal. apply rsum_ext. intros i Hi. apply rsum_ext. intros j Hj. rewrite ET by assumption. reflexivity. }
  split. { intros x. destruct (C99_entrywise a W) as (_ & Sc & _). destruct (Sc x) as (Wx & Tx & Rx & Cx & Ex). destruct (C99_sums _ Wx) as (_&_&_&_&_&Nx&_). rewrite Nx, N, Rx, Cx.
    rewrite <- sqrt_Rsqr_abs. rewrite <- sqrt_mult_alt by apply Rle_0_sqr. f_equal. rewrite <- rsum_scal_l. apply rsum_ext. intros i Hi. rewrite <- rsum_scal_l. apply rsum_ext. intros j Hj.
    rewrite Ex by assumption. unfold Rsqr. ring. }
  split. { intros x. destruct (C99_entrywise a W) as (_ & Sc & _). destruct (Sc x) as (Wx & Tx & Rx & Cx & Ex). destruct (C99_sums _ Wx) as (Sx&_). rewrite Sx, S, Rx, Cx.
    rewrite <- rsum_scal_l. apply rsum_ext. intros i Hi. rewrite <- rsum_scal_l. apply rsum_ext. intros j Hj. rewrite Ex by assumption. ring. }
  split. { rewrite N. split.
    - intros E. apply sqrt_eq_0 in E.
      2:{ apply rsum_nonneg. intros i Hi. apply rsum_nonneg. intros j Hj. apply Rle_0_sqr. }
      intros i j Hi Hj. pose proof (rsum_nonneg_zero _ _ (fun i Hi => rsum_nonneg _ _ (fun j Hj => Rle_0_sqr (ment a i j))) E i Hi) as E'. cbv beta in E'.
      pose proof (rsum_nonneg_zero _ _ (fun j Hj => Rle_0_sqr (ment a i j)) E' j Hj) as E''. exact (Rsqr_0_uniq _ E'').
    - intros E. rewrite <- sqrt_0. f_equal. apply rsum_zero. intros i Hi. apply rsum_zero. intros j Hj. rewrite E by assumption. ring. }
  split.
  - intros b z Wb Ez. assert (T : type_of a = type_of b). { destruct (type_of a) eqn:Ta, (type_of b) eqn:Tb; try reflexivity; exfalso; destruct (C99_classes a b) as (_&_&_&_&K&_); try congruence. }
    destruct (C99_pairs a b W Wb T) as (_&_&_&_&V1&V2&_). destruct (Nat.eq_dec (m_nc a) (m_nc b)) as [C|C]; [|rewrite V2 in Ez by exact C; discriminate].
    destruct (V1 C) as (z' & Ez' & (A1&A2&A3&A4&A5)). assert (z' = z) by congruence. subst z'. destruct (C99_sums z A1) as (Sz & _). destruct (C99_sums b Wb) as (Sb & _).
    rewrite Sz, S, Sb, A3, A4, rsum_app, C. f_equal; apply rsum_ext; intros i Hi; apply rsum_ext; intros j Hj; rewrite A5 by lia.
    + rewrite (proj2 (Nat.ltb_lt _ _)) by lia. reflexivity.
    + rewrite (proj2 (Nat.ltb_ge _ _)) by lia. f_equal. lia.
  - intros b z Wb HR HC Ez. assert (T : type_of a = type_of b). { destruct (type_of a) eqn:Ta, (type_of b) eqn:Tb; try reflexivity; exfalso; destruct (C99_classes a b) as (K&_); try congruence. }
    destruct (C99_pairs a b W Wb T) as (V1&_). destruct (V1 HR HC) as ((z' & Ez' & (A1&A2&A3&A4&A5))&_). assert (z' = z) by congruence. subst z'. destruct (C99_sums z A1) as (Sz & _). destruct (C99_sums b Wb) as (Sb & _).
    rewrite Sz, S, Sb, A3, A4, <- HR, <- HC, <- rsum_plus. apply rsum_ext; intros i Hi. rewrite <- rsum_plus. apply rsum_ext; intros j Hj. apply A5; assumption.
Qed.
(** reshaping loses nothing: any chain of reshapes is one reshape, and the way back restores the matrix *)
Theorem C100_reshape : forall a r c r' c', mwf a -> (Z.of_nat (m_nr a) * Z.of_nat (m_nc a) < 2 ^ 63)%Z -> m_nr a * m_nc a = r * c -> m_nr a * m_nc a = r' * c' ->
  equal (on2 (fun x _ => m_reshape x r' c') (m_reshape a r c) (Ok a)) (m_reshape a r' c') /\
  equal (on2 (fun x _ => m_reshape x (m_nr a) (m_nc a)) (m_reshape a r c) (Ok a)) (Ok a).
Proof.
  intros a r c r' c' W Hs H1 H2. pose proof (vals_self a W) as V. pose proof (vals_pos _ _ _ _ _ V) as (P1 & P2).
  destruct (PLexFun.vals_reshape _ _ _ _ _ r c V Hs H1) as (z & Ez & Vz). rewrite Ez. cbn [on2 bind]. pose proof (vals_pos _ _ _ _ _ Vz) as (Q1 & Q2).
  assert (Hs' : (Z.of_nat r * Z.of_nat c < 2 ^ 63)%Z) by (rewrite <- Nat2Z.inj_mul, <- H1, Nat2Z.inj_mul; exact Hs).
  assert (K2 : forall n, n / c * c + n mod c = n). { intros n. rewrite Nat.mul_comm. symmetry. apply Nat.div_mod. lia. }
  split.
  - pose proof (PLexFun.vals_reshape _ _ _ _ _ r' c' Vz Hs' (eq_trans (eq_sym H1) H2)) as V1. pose proof (PLexFun.vals_reshape _ _ _ _ _ r' c' V Hs H2) as V2.
    eapply cv_equal; [exact V1|exact V2|]. cbv beta. intros i j Hi Hj. rewrite !K2. reflexivity.
  - pose proof (PLexFun.vals_reshape _ _ _ _ _ (m_nr a) (m_nc a) Vz Hs' (eq_sym H1)) as V1.
    eapply cv_equal; [exact V1|exact (cv_self a W)|]. cbv beta. intros i j Hi Hj. rewrite !K2.
    rewrite Nat.div_add_l by lia. rewrite (Nat.div_small j) by exact Hj. rewrite Nat.add_0_r. f_equal. rewrite Nat.add_comm, Nat.mod_add by lia. apply Nat.mod_small. exact Hj.
Qed.

(** *** example *)
Example C100_example : let A := Ok ex_a in equal (tr (A ⊙ tr A)) (A ⊙ tr A) /\ equal (tr A ⊙ A ⊙ tr A) (tr A ⊙ (A ⊙ tr A)).
Proof.
  pose proof ex_a_wf as W. destruct (C99_access ex_a W) as ((WT & TT & RT & CT & _) & _). intros A. split.
  - destruct (C100_product ex_a (m_transpose ex_a) ex_a W WT W TT eq_refl (eq_sym RT) CT) as (_ & H & _).
    assert (VA := cv_self ex_a W). fold A in VA. clear H. cvs. apply rsum_ext. intros. ring.
  - destruct (C100_product (m_transpose ex_a) ex_a (m_transpose ex_a) WT W WT (eq_sym TT) eq_refl CT (eq_sym RT)) as (H & _). exact H.
Qed.
