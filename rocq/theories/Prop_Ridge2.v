(** Prop_Ridge2.v -- property C78: how the ridge solution depends on its parameter, and that it does not depend on the numerical
    routines; over exact reals. *)
From Coq Require Import Reals Lra Psatz.
From Verif Require Import Base PyList Dict Num SpecReal Dense Sparse Matrix PSparse PMatrix PMatOps PShape PVals PReal PPos Scaling Linalg
  PLsq Learner Operation Similarity Space Peripheral SpecSpace PSpace Composition SpecComp PComp Prop_Ridge.
#[local] Existing Instance RNum.
Open Scope R_scope.
Open Scope nat_scope.

(** ** specification *)
(** sum of the squares of the first [rows] rows and [cols] columns of X *)
Definition size (rows cols : nat) (X : nat -> nat -> R) : R := rsum rows (fun k => rsum cols (fun c => X k c * X k c))%R.

(** ** lemmas *)
Lemma size_nonneg r c X : (0 <= size r c X)%R.
Proof. apply rsum_nonneg. intros. apply rsum_nonneg. intros. apply Rle_0_sqr. Qed.
Lemma ridge_cost_split n dim m lambda icpt f g X : ridge_cost n dim m lambda icpt f g X = (ridge_cost n dim m 0 icpt f g X + lambda * size dim m X)%R.
Proof. unfold ridge_cost, size. rewrite Rmult_0_l, Rplus_0_r. reflexivity. Qed.

Section WithExt.
Context {E : @Ext RNum}.
(** the solution solves the normal equations, and is a pseudo-inverse applied to a vector *)
Lemma ridge_normal a b lambda icpt X tr dist : pinv_correct -> pinv_converges -> mwf a -> mwf b -> (0 <= lambda)%R ->
  ridge_regression a b lambda icpt = Ok (X, tr, dist) ->
  type_of a = type_of b /\ m_nr a = m_nr b /\ (0 <= dist)%R /\
  exists P, moore_penrose (xdim (m_nc a) icpt) (xdim (m_nc a) icpt) (gram (m_nr a) (padm (m_nc a) (ment a)) (pen (m_nc a) lambda)) P /\
  vals X (type_of a) (xdim (m_nc a) icpt) (m_nc b) (fun k c => rsum (xdim (m_nc a) icpt) (fun q => P k q * rsum (m_nr a) (fun i => padm (m_nc a) (ment a) i q * ment b i c)))%R /\
  forall c, c < m_nc b -> normal_eq (m_nr a) (xdim (m_nc a) icpt) (padm (m_nc a) (ment a)) (pen (m_nc a) lambda) (fun i => ment b i c) (fun k => ment X k c).
Proof.
  intros HP HC Wa Wb Hl H.
  assert (Ht : type_of a = type_of b /\ m_nr a = m_nr b).
  { unfold ridge_regression in H. apply bind_ok in H. destruct H as (? & H1 & H). apply bind_ok in H. destruct H as (? & H2 & _).
    apply same_type_ok in H1. apply check_ok in H2. apply Nat.eqb_eq in H2. auto. }
  destruct Ht as (Ht & Hr). split; [exact Ht|]. split; [exact Hr|]. pose proof (vals_self a Wa) as Va. pose proof (vals_self b Wb) as Vb. rewrite <- Ht, <- Hr in Vb.
  destruct (ridge_value a b _ _ _ _ _ _ lambda icpt Va Vb) as (reg & Wr & Rr & Cr & Hg & He & Hv).
  destruct (e_pinv reg) as [P|e] eqn:EP.
  2: { destruct (exn_eq_dec e LinAlgError) as [->|Hne]; [exfalso; exact (HC reg Wr EP)|]. rewrite (He e eq_refl Hne) in H. discriminate. }
  destruct (Hv P eq_refl) as (X' & dist' & Ex & VX & Ed). rewrite Ex in H. injection H as H1 H2 H3. subst X'.
  split; [rewrite <- H3, Ed; apply sqrt_pos|]. exists P. pose proof (HP reg P Wr EP) as MP. rewrite Rr, Cr in MP.
  assert (MG : moore_penrose (xdim (m_nc a) icpt) (xdim (m_nc a) icpt) (gram (m_nr a) (padm (m_nc a) (ment a)) (pen (m_nc a) lambda)) P).
  { destruct MP as [M1 M2 M3 M4]. constructor.
    + intros i j Hi Hj. rewrite <- (Hg i j Hi Hj). rewrite <- (M1 i j Hi Hj). apply rsum_ext. intros p Hp. apply rsum_ext. intros q Hq. rewrite !Hg by assumption. reflexivity.
    + intros i j Hi Hj. rewrite <- (M2 i j Hi Hj). apply rsum_ext. intros p Hp. apply rsum_ext. intros q Hq. rewrite !Hg by assumption. reflexivity.
    + intros i j Hi Hj. rewrite (rsum_ext _ _ (fun p => dent reg i p * P p j)%R) by (intros p Hp; rewrite Hg by assumption; reflexivity). rewrite (M3 i j Hi Hj).
      apply rsum_ext. intros p Hp. rewrite Hg by assumption. reflexivity.
    + intros i j Hi Hj. rewrite (rsum_ext _ _ (fun p => P i p * dent reg p j)%R) by (intros p Hp; rewrite Hg by assumption; reflexivity). rewrite (M4 i j Hi Hj).
      apply rsum_ext. intros p Hp. rewrite Hg by assumption. reflexivity. }
  split; [exact MG|]. split; [exact VX|]. intros c Hc. apply (ginv_normal _ _ _ _) with (P := P).
  { intros k Hk. unfold pen. destruct (Nat.ltb k (m_nc a)); lra. }
  { intros k l Hk Hl'. apply (mp_mpm _ _ _ _ MG); assumption. }
  intros k Hk. rewrite (vals_ent _ _ _ _ _ k c VX Hk Hc). reflexivity.
Qed.

(** ** C78 *)
(** a larger parameter never gives a larger solution, nor a smaller training error *)
Theorem C78_monotone : forall a b icpt l1 l2 X1 t1 d1 X2 t2 d2, pinv_correct -> pinv_converges -> mwf a -> mwf b -> (0 <= l1 < l2)%R ->
  ridge_regression a b l1 icpt = Ok (X1, t1, d1) -> ridge_regression a b l2 icpt = Ok (X2, t2, d2) ->
  (size (m_nc a) (m_nc b) (ment X2) <= size (m_nc a) (m_nc b) (ment X1))%R /\ (0 <= d1 <= d2)%R.
Proof.
  intros a b icpt l1 l2 X1 t1 d1 X2 t2 d2 HP HC Wa Wb Hl H1 H2.
  destruct (ridge_normal a b l1 icpt X1 t1 d1 HP HC Wa Wb ltac:(lra) H1) as (_ & _ & D1 & _).
  destruct (ridge_normal a b l2 icpt X2 t2 d2 HP HC Wa Wb ltac:(lra) H2) as (_ & _ & D2 & _).
  destruct (C38_ridge_optimal a b l1 icpt X1 t1 d1 HP HC Wa Wb ltac:(lra) H1) as (_ & _ & _ & _ & O1 & E1).
  destruct (C38_ridge_optimal a b l2 icpt X2 t2 d2 HP HC Wa Wb ltac:(lra) H2) as (_ & _ & _ & _ & O2 & E2).
  specialize (O1 (ment X2)). specialize (O2 (ment X1)). rewrite (ridge_cost_split _ _ _ l1), (ridge_cost_split _ _ _ l1 _ _ _ (ment X2)) in O1.
  rewrite (ridge_cost_split _ _ _ l2), (ridge_cost_split _ _ _ l2 _ _ _ (ment X1)) in O2. rewrite <- E1, <- E2 in O1, O2. change (@F RNum) with R in *.
  set (s1 := size _ _ (ment X1)) in *. set (s2 := size _ _ (ment X2)) in *.
  assert (K : (s2 <= s1)%R).
  { destruct (Rle_dec s2 s1) as [L|L]; [exact L|]. exfalso. assert (0 < (l2 - l1) * (s2 - s1))%R by (apply Rmult_lt_0_compat; lra). lra. }
  split; [exact K|]. split; [exact D1|]. assert (Q : (d1 * d1 <= d2 * d2)%R).
  { assert (0 <= l1 * (s1 - s2))%R by (apply Rmult_le_pos; lra). lra. }
  destruct (Rle_dec d1 d2) as [L|L]; [exact L|]. exfalso. assert (d2 * d2 < d1 * d1)%R by (apply Rmult_le_0_lt_compat; lra). lra.
Qed.
(** ... and the size of the solution is at most ||B||^2 / lambda *)
Theorem C78_shrinks : forall a b icpt lambda X tr dist, pinv_correct -> pinv_converges -> mwf a -> mwf b -> (0 < lambda)%R ->
  ridge_regression a b lambda icpt = Ok (X, tr, dist) ->
  (size (m_nc a) (m_nc b) (ment X) <= size (m_nr a) (m_nc b) (ment b) / lambda)%R.
Proof.
  intros a b icpt lambda X tr dist HP HC Wa Wb Hl H.
  destruct (C38_ridge_optimal a b lambda icpt X tr dist HP HC Wa Wb ltac:(lra) H) as (_ & _ & _ & _ & O1 & E1).
  specialize (O1 (fun _ _ => 0%R)). rewrite (ridge_cost_split _ _ _ lambda), (ridge_cost_split _ _ _ lambda _ _ _ (fun _ _ => 0%R)) in O1.
  assert (Z : ridge_cost (m_nr a) (m_nc a) (m_nc b) 0 icpt (ment a) (ment b) (fun _ _ => 0%R) = size (m_nr a) (m_nc b) (ment b)).
  { unfold ridge_cost, size. rewrite Rmult_0_l, Rplus_0_r. apply rsum_ext. intros i Hi. apply rsum_ext. intros c Hc.
    unfold predict. rewrite rsum_zero by (intros; ring). destruct icpt; change (@F RNum) with R; ring. }
  assert (Z2 : size (m_nc a) (m_nc b) (fun _ _ => 0%R) = 0%R) by (unfold size; apply rsum_zero; intros; apply rsum_zero; intros; ring).
  rewrite Z, Z2 in O1. assert (0 <= ridge_cost (m_nr a) (m_nc a) (m_nc b) 0 icpt (ment a) (ment b) (ment X))%R by (rewrite <- E1; apply Rle_0_sqr).
  apply Rmult_le_reg_l with (r := lambda); [exact Hl|]. replace (lambda * (size (m_nr a) (m_nc b) (ment b) / lambda))%R with (size (m_nr a) (m_nc b) (ment b)) by (field; lra).
  change (@F RNum) with R in *. lra.
Qed.

Lemma same_cost a b icpt lambda X tr dist Y : pinv_correct -> pinv_converges -> mwf a -> mwf b -> (0 <= lambda)%R ->
  ridge_regression a b lambda icpt = Ok (X, tr, dist) ->
  (ridge_cost (m_nr a) (m_nc a) (m_nc b) lambda icpt (ment a) (ment b) Y <= ridge_cost (m_nr a) (m_nc a) (m_nc b) lambda icpt (ment a) (ment b) (ment X))%R ->
  forall c, c < m_nc b ->
   (forall i, i < m_nr a -> mv (xdim (m_nc a) icpt) (padm (m_nc a) (ment a)) (fun k => Y k c - ment X k c)%R i = 0%R) /\
   (forall k, k < xdim (m_nc a) icpt -> (pen (m_nc a) lambda k * ((Y k c - ment X k c) * (Y k c - ment X k c)))%R = 0%R).
Proof.
  intros HP HC Wa Wb Hl H L. destruct (ridge_normal _ _ _ _ _ _ _ HP HC Wa Wb Hl H) as (_ & _ & _ & P & _ & _ & HN).
  rewrite !ridge_cost_cols in L.
  set (F1 := fun c => (rsum (m_nr a) (fun i => (mv (xdim (m_nc a) icpt) (padm (m_nc a) (ment a)) (fun k => Y k c) i - mv (xdim (m_nc a) icpt) (padm (m_nc a) (ment a)) (fun k => ment X k c) i)
      * (mv (xdim (m_nc a) icpt) (padm (m_nc a) (ment a)) (fun k => Y k c) i - mv (xdim (m_nc a) icpt) (padm (m_nc a) (ment a)) (fun k => ment X k c) i)))%R).
  set (F2 := fun c => rsum (xdim (m_nc a) icpt) (fun k => pen (m_nc a) lambda k * ((Y k c - ment X k c) * (Y k c - ment X k c)))%R).
  assert (P0 : forall k, (0 <= pen (m_nc a) lambda k)%R) by (intros k; unfold pen; destruct (Nat.ltb k (m_nc a)); lra).
  assert (N1 : forall c, (0 <= F1 c)%R) by (intros c; apply rsum_nonneg; intros; apply Rle_0_sqr).
  assert (N2 : forall c, (0 <= F2 c)%R) by (intros c; apply rsum_nonneg; intros; apply Rmult_le_pos; [apply P0|apply Rle_0_sqr]).
  rewrite (rsum_ext (m_nc b) _ (fun c => lsq (m_nr a) (xdim (m_nc a) icpt) (padm (m_nc a) (ment a)) (pen (m_nc a) lambda) (fun i => ment b i c) (fun k => ment X k c) + (F1 c + F2 c))%R) in L
    by (intros c Hc; apply (lsq_expand _ _ _ _ _ _ (fun k => Y k c) (HN c Hc))).
  rewrite rsum_plus in L. assert (Z : rsum (m_nc b) (fun c => F1 c + F2 c)%R = 0%R).
  { assert (0 <= rsum (m_nc b) (fun c => F1 c + F2 c))%R by (apply rsum_nonneg; intros c _; specialize (N1 c); specialize (N2 c); lra). lra. }
  intros c Hc. pose proof (rsum_nonneg_zero (m_nc b) (fun c => F1 c + F2 c)%R ltac:(intros c' _; specialize (N1 c'); specialize (N2 c'); cbn beta; lra) Z c Hc) as K. cbn beta in K.
  specialize (N1 c). specialize (N2 c). assert (K1 : F1 c = 0%R) by lra. assert (K2 : F2 c = 0%R) by lra. split.
  - intros i Hi. rewrite mv_minus. pose proof ((fun G => rsum_nonneg_zero (m_nr a) _ G K1 i Hi) (fun q _ => Rle_0_sqr _)) as Q. cbn beta in Q. apply Rsqr_0_uniq, Q.
  - intros k Hk. refine (rsum_nonneg_zero (xdim (m_nc a) icpt) _ _ K2 k Hk); intros; apply Rmult_le_pos; [apply P0|apply Rle_0_sqr].
Qed.
(** with a positive parameter there is exactly one solution *)
Theorem C78_unique : forall a b icpt lambda X tr dist Y, pinv_correct -> pinv_converges -> mwf a -> mwf b -> (0 < lambda)%R ->
  ridge_regression a b lambda icpt = Ok (X, tr, dist) ->
  (ridge_cost (m_nr a) (m_nc a) (m_nc b) lambda icpt (ment a) (ment b) Y <= ridge_cost (m_nr a) (m_nc a) (m_nc b) lambda icpt (ment a) (ment b) (ment X))%R ->
  forall k c, k < m_nr X -> c < m_nc X -> Y k c = ment X k c.
Proof.
  intros a b icpt lambda X tr dist Y HP HC Wa Wb Hl H L k c Hk Hc.
  destruct (C38_ridge_optimal a b lambda icpt X tr dist HP HC Wa Wb ltac:(lra) H) as (_ & _ & RX & CX & _ & _).
  rewrite RX in Hk. rewrite CX in Hc. destruct (same_cost a b icpt lambda X tr dist Y HP HC Wa Wb ltac:(lra) H L c Hc) as (A & B).
  assert (K : forall k, k < m_nc a -> Y k c = ment X k c).
  { intros q Hq. specialize (B q ltac:(unfold xdim; destruct icpt; lia)). unfold pen in B. destruct (Nat.ltb_spec q (m_nc a)); [|lia].
    apply Rmult_integral in B. destruct B as [B|B]; [lra|]. apply Rsqr_0_uniq in B. lra. }
  destruct (Nat.lt_ge_cases k (m_nc a)) as [Lt|Ge]; [exact (K k Lt)|]. destruct icpt; [|lia]. assert (k = m_nc a) as -> by lia.
  pose proof (mwf_pos a Wa) as (Hn & _). specialize (A 0 Hn). unfold mv, xdim in A. rewrite rsum_app in A. cbn [rsum] in A. rewrite Nat.add_0_r in A.
  rewrite rsum_zero in A by (intros q Hq; rewrite (K q Hq); ring). unfold padm in A. destruct (Nat.ltb_spec (m_nc a) (m_nc a)); [lia|]. lra.
Qed.
(** in all cases (also with parameter 0) it is the smallest of the optimal solutions, the intercept counted *)
Theorem C78_smallest : forall a b icpt lambda X tr dist Y, pinv_correct -> pinv_converges -> mwf a -> mwf b -> (0 <= lambda)%R ->
  ridge_regression a b lambda icpt = Ok (X, tr, dist) ->
  (ridge_cost (m_nr a) (m_nc a) (m_nc b) lambda icpt (ment a) (ment b) Y <= ridge_cost (m_nr a) (m_nc a) (m_nc b) lambda icpt (ment a) (ment b) (ment X))%R ->
  (size (m_nr X) (m_nc X) (ment X) <= size (m_nr X) (m_nc X) Y)%R.
Proof.
  intros a b icpt lambda X tr dist Y HP HC Wa Wb Hl H L.
  destruct (C38_ridge_optimal _ _ _ _ _ _ _ HP HC Wa Wb Hl H) as (_ & _ & RX & CX & _ & _).
  destruct (ridge_normal _ _ _ _ _ _ _ HP HC Wa Wb Hl H) as (_ & _ & _ & P & MP & VX & HN).
  rewrite CX. change (m_nr X = xdim (m_nc a) icpt) in RX. rewrite RX. unfold size. rewrite (rsum_swap (xdim (m_nc a) icpt)), (rsum_swap (xdim (m_nc a) icpt) _ (fun k c => Y k c * Y k c)%R).
  apply rsum_le. intros c Hc. set (d := xdim (m_nc a) icpt) in *. set (G := gram (m_nr a) (padm (m_nc a) (ment a)) (pen (m_nc a) lambda)) in *.
  set (x := fun k => ment X k c). set (y := fun k => Y k c). destruct (same_cost _ _ _ _ _ _ _ Y HP HC Wa Wb Hl H L c Hc) as (A & B).
  assert (GY : forall k, k < d -> rsum d (fun l => G k l * (y l - x l))%R = 0%R).
  { intros k Hk. unfold G. rewrite (gram_mv _ _ _ _ (fun l => y l - x l)%R) by exact Hk. rewrite rsum_zero; [|intros i Hi; fold d in A; unfold x, y; rewrite (A i Hi); ring].
    specialize (B k Hk). apply Rmult_integral in B. destruct B as [B|B]; [rewrite B; ring|]. apply Rsqr_0_uniq in B. unfold x, y. rewrite B. ring. }
  (* Q = P G is a symmetric projection with Q y = Q x = x *)
  set (Q := fun k l => rsum d (fun p => P k p * G p l)%R).
  assert (Qs : forall k l, k < d -> l < d -> Q k l = Q l k) by (intros k l Hk Hl'; exact (mp_pm_sym _ _ _ _ MP k l Hk Hl')).
  assert (QX : forall k, k < d -> rsum d (fun l => Q k l * x l)%R = x k).
  { intros k Hk. unfold Q. set (z := fun q => rsum (m_nr a) (fun i => padm (m_nc a) (ment a) i q * ment b i c)%R).
    assert (Xk : forall l, l < d -> x l = rsum d (fun q => P l q * z q)%R) by (intros l Hl'; unfold x; rewrite (vals_ent _ _ _ _ _ l c VX Hl' Hc); reflexivity).
    rewrite (Xk k Hk). transitivity (rsum d (fun q => rsum d (fun p => rsum d (fun l => P k p * G p l * P l q)) * z q))%R.
    - transitivity (rsum d (fun l => rsum d (fun q => rsum d (fun p => P k p * G p l) * P l q * z q)))%R.
      { apply rsum_ext. intros l Hl'. rewrite (Xk l Hl'). rewrite <- rsum_scal_l. apply rsum_ext. intros; ring. }
      rewrite rsum_swap. apply rsum_ext. intros q Hq. rewrite rsum_scal_r. f_equal. rewrite rsum_swap. apply rsum_ext. intros l Hl'. rewrite <- rsum_scal_r. reflexivity.
    - apply rsum_ext. intros q Hq. rewrite (mp_pmp _ _ _ _ MP k q Hk Hq). reflexivity. }
  assert (QY : forall k, k < d -> rsum d (fun l => Q k l * y l)%R = x k).
  { intros k Hk. rewrite <- (QX k Hk). apply Rminus_diag_uniq. rewrite <- rsum_minus. transitivity (rsum d (fun p => P k p * rsum d (fun l => G p l * (y l - x l))))%R.
    - rewrite (rsum_ext d _ (fun l => rsum d (fun p => P k p * (G p l * (y l - x l))))%R).
      + rewrite rsum_swap. apply rsum_ext. intros p Hp. rewrite rsum_scal_l. reflexivity.
      + intros l Hl'. unfold Q. transitivity (rsum d (fun p => P k p * G p l) * (y l - x l))%R; [ring|]. rewrite <- rsum_scal_r. apply rsum_ext. intros; ring.
    - apply rsum_zero. intros p Hp. rewrite (GY p Hp). ring. }
  (* x.x = x.y *)
  assert (XY : rsum d (fun k => x k * x k)%R = rsum d (fun k => x k * y k)%R).
  { transitivity (rsum d (fun k => rsum d (fun l => x k * Q k l * y l)))%R.
    - apply rsum_ext. intros k Hk. rewrite <- (QY k Hk) at 2. rewrite <- rsum_scal_l. apply rsum_ext. intros; ring.
    - rewrite rsum_swap. apply rsum_ext. intros l Hl'. rewrite rsum_scal_r. f_equal. rewrite <- (QX l Hl'). apply rsum_ext. intros k Hk. rewrite (Qs l k Hl' Hk). ring. }
  assert (D : (0 <= rsum d (fun k => (y k - x k) * (y k - x k)))%R) by (apply rsum_nonneg; intros; apply Rle_0_sqr).
  assert (D2 : rsum d (fun k => (y k - x k) * (y k - x k))%R = (rsum d (fun k => y k * y k) - rsum d (fun k => x k * x k))%R).
  { rewrite (rsum_ext d _ (fun k => y k * y k - x k * x k - 2 * (x k * y k - x k * x k))%R) by (intros; ring).
    rewrite !rsum_minus, rsum_scal_l, rsum_minus, <- XY. ring. }
  fold (x) (y). change (rsum d (fun k => x k * x k) <= rsum d (fun k => y k * y k))%R. lra.
Qed.
End WithExt.
(** ... so two correct numerical libraries give the same solution, for a dense and for a sparse matrix *)
Theorem C78_library_independent : forall (E1 E2 : @Ext RNum) a1 b1 a2 b2 icpt lambda X1 t1 d1 X2 t2 d2,
  @pinv_correct E1 -> @pinv_converges E1 -> @pinv_correct E2 -> @pinv_converges E2 -> mwf a1 -> mwf b1 -> mwf a2 -> mwf b2 -> (0 < lambda)%R ->
  m_nr a2 = m_nr a1 -> m_nc a2 = m_nc a1 -> m_nc b2 = m_nc b1 ->
  (forall i k, i < m_nr a1 -> k < m_nc a1 -> ment a2 i k = ment a1 i k) -> (forall i c, i < m_nr a1 -> c < m_nc b1 -> ment b2 i c = ment b1 i c) ->
  @ridge_regression RNum E1 a1 b1 lambda icpt = Ok (X1, t1, d1) -> @ridge_regression RNum E2 a2 b2 lambda icpt = Ok (X2, t2, d2) ->
  m_nr X2 = m_nr X1 /\ m_nc X2 = m_nc X1 /\ (forall k c, k < m_nr X1 -> c < m_nc X1 -> ment X2 k c = ment X1 k c) /\ d2 = d1.
Proof.
  intros E1 E2 a1 b1 a2 b2 icpt lambda X1 t1 d1 X2 t2 d2 P1 C1 P2 C2 Wa1 Wb1 Wa2 Wb2 Hl R1 R2 R3 HA HB H1 H2.
  destruct (@C38_ridge_optimal E1 a1 b1 lambda icpt X1 t1 d1 P1 C1 Wa1 Wb1 ltac:(lra) H1) as (_ & _ & A1 & A2 & O1 & D1).
  destruct (@C38_ridge_optimal E2 a2 b2 lambda icpt X2 t2 d2 P2 C2 Wa2 Wb2 ltac:(lra) H2) as (_ & _ & B1 & B2 & O2 & D2).
  destruct (@ridge_normal E1 a1 b1 lambda icpt X1 t1 d1 P1 C1 Wa1 Wb1 ltac:(lra) H1) as (_ & _ & N1 & _).
  destruct (@ridge_normal E2 a2 b2 lambda icpt X2 t2 d2 P2 C2 Wa2 Wb2 ltac:(lra) H2) as (_ & _ & N2 & _).
  assert (EQ : m_nr X2 = m_nr X1 /\ m_nc X2 = m_nc X1) by (rewrite A1, A2, B1, B2, R2, R3; auto). destruct EQ as (EQ1 & EQ2).
  assert (CE : forall l X, ridge_cost (m_nr a2) (m_nc a2) (m_nc b2) l icpt (ment a2) (ment b2) X = ridge_cost (m_nr a1) (m_nc a1) (m_nc b1) l icpt (ment a1) (ment b1) X).
  { intros l X. rewrite R1, R2, R3. apply ridge_cost_ext; [exact HA|exact HB|reflexivity]. }
  specialize (O2 (ment X1)). rewrite !CE in O2. rewrite CE in D2.
  pose proof (@C78_unique E1 a1 b1 icpt lambda X1 t1 d1 (ment X2) P1 C1 Wa1 Wb1 Hl H1 O2) as U.
  split; [exact EQ1|]. split; [exact EQ2|]. split; [exact U|].
  assert (Q : (d2 * d2 = d1 * d1)%R).
  { rewrite D1, D2. apply ridge_cost_ext; try reflexivity. intros k c Hk Hc. apply U; [rewrite A1; exact Hk|rewrite A2; exact Hc]. }
  assert (S : forall x, (0 <= x)%R -> sqrt (x * x) = x) by (intros; apply sqrt_square; assumption).
  rewrite <- (S d1 N1), <- (S d2 N2). f_equal. exact Q.
Qed.

(** ** example *)
(** a correct, converging library, and a problem it solves for every parameter, dense and (the same numbers) with another library *)
From Verif Require Import Prop_Train Prop_TrainOrder.
Example C78_example : @pinv_correct Epi /\ @pinv_converges Epi /\ @pinv_correct Els /\ @pinv_converges Els /\ mwf ex_a /\ mwf ex_b /\ m_nr ex_a = 3 /\ m_nc ex_a = 1 /\ m_nc ex_b = 2 /\
  forall lambda icpt, (exists X tr dist, @ridge_regression RNum Epi ex_a ex_b lambda icpt = Ok (X, tr, dist)) /\
                      (exists X tr dist, @ridge_regression RNum Els ex_a ex_b lambda icpt = Ok (X, tr, dist)).
Proof.
  split; [exact Epi_correct|]. split; [exact Epi_converges|]. split; [exact Els_pinv|]. split; [exact Els_converges|].
  split; [cbn; repeat constructor|]. split; [cbn; repeat constructor|]. do 3 (split; [reflexivity|]).
  intros lambda icpt. split; [apply Epi_ridge|]. destruct (Epi_ridge lambda icpt) as (X & tr & dist & H). exists X, tr, dist. rewrite <- H. reflexivity.
Qed.
