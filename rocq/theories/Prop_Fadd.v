(** Prop_Fadd.v -- property C39: FullAdditive.train minimises the (regularised) squared error of FullAdditive.compose. *)
From Coq Require Import Reals Lra Psatz.
From Verif Require Import Base PyList Dict Num SpecReal Dense Sparse Matrix PSparse PMatrix PMatOps PShape PVals PReal PPos Scaling Linalg
  PLsq Learner Operation Similarity Space Peripheral SpecSpace PDictList PSpace Prop_Periph Composition SpecComp PComp Prop_Ridge Prop_Train Prop_Comp.
#[local] Existing Instance RNum.
Open Scope string_scope.
Open Scope list_scope.
Open Scope R_scope.
Open Scope nat_scope.

(** ** specification *)
(** the composed vector of u and v: A u + B v, plus the intercept stored as the last row of the transpose of B *)
Definition fadd_vec (n1 n2 : nat) (icpt : bool) (At Bt : nat -> nat -> R) (u v : nat -> R) (j : nat) : R :=
  (rsum n1 (fun k => At k j * u k) + rsum n2 (fun k => Bt k j * v k) + (if icpt then Bt n2 j else 0))%R.
(** total squared error over the tuples plus lambda times the squared norm of A and B (intercept not penalised) *)
Definition fadd_error (s1 s2 sp : space) (l : list tuple3) (lambda : R) (icpt : bool) (At Bt : nat -> nat -> R) : R :=
  let n1 := m_nc (s_mat s1) in let n2 := m_nc (s_mat s2) in let m := m_nc (s_mat sp) in
  (lsum (fun '(w1, w2, ph) => sqdist m (fadd_vec n1 n2 icpt At Bt (vec s1 w1) (vec s2 w2)) (vec sp ph)) l
   + lambda * (rsum n1 (fun k => rsum m (fun c => At k c * At k c)) + rsum n2 (fun k => rsum m (fun c => Bt k c * Bt k c))))%R.
(** the regularisation parameter a learner uses *)
Definition uses_lambda (L : learner) (lambda : R) : Prop :=
  match L with
  | LLstsq _ => lambda = 0%R
  | LRidge _ false _ (Some p) => lambda = p
  | LRidge _ false _ None => False
  | LRidge _ true range _ => In lambda range \/ lambda = 0%R
  end.
Definition nonneg_params (L : learner) : Prop :=
  match L with
  | LLstsq _ => True
  | LRidge _ false _ (Some p) => (0 <= p)%R
  | LRidge _ false _ None => False
  | LRidge _ true range _ => Forall (fun p => (0 <= p)%R) range
  end.

Section WithExt.
Context {E : @Ext RNum}.
(** numpy.linalg.lstsq returns a minimiser whenever it returns *)
Definition lstsq_correct : Prop := forall a b X, dwfm a -> dwfm b -> d_nr a = d_nr b -> e_lstsq a b = Ok X ->
  forall Y, (rsum (d_nr a) (fun i => rsum (d_nc b) (fun c => (rsum (d_nc a) (fun k => dent a i k * X k c) - dent b i c) * (rsum (d_nc a) (fun k => dent a i k * X k c) - dent b i c)))
             <= rsum (d_nr a) (fun i => rsum (d_nc b) (fun c => (rsum (d_nc a) (fun k => dent a i k * Y k c) - dent b i c) * (rsum (d_nc a) (fun k => dent a i k * Y k c) - dent b i c))))%R.

Definition optimal (n dim m : nat) (lambda : R) (icpt : bool) (f g : nat -> nat -> R) (X : nat -> nat -> R) : Prop :=
  forall Y, (ridge_cost n dim m lambda icpt f g X <= ridge_cost n dim m lambda icpt f g Y)%R.

Lemma ridge_opt a b t n dim m f g lambda icpt X tr dist : pinv_correct -> pinv_converges -> vals a t n dim f -> vals b t n m g -> (0 <= lambda)%R ->
  ridge_regression a b lambda icpt = Ok (X, tr, dist) ->
  vals X t (xdim dim icpt) m (ment X) /\ optimal n dim m lambda icpt f g (ment X).
Proof.
  intros HP HC Va Vb Hl H.
  destruct (C38_ridge_optimal a b lambda icpt X tr dist HP HC (vals_wf _ _ _ _ _ Va) (vals_wf _ _ _ _ _ Vb) Hl H) as (W & T & R1 & C1 & Ho & _).
  rewrite (vals_type _ _ _ _ _ Va) in T. rewrite (vals_nc _ _ _ _ _ Va) in R1. rewrite (vals_nc _ _ _ _ _ Vb) in C1.
  split; [split; [repeat split; assumption|reflexivity]|].
  intros Y. specialize (Ho Y). rewrite (vals_nr _ _ _ _ _ Va), (vals_nc _ _ _ _ _ Va), (vals_nc _ _ _ _ _ Vb) in Ho.
  assert (HE : forall Z, ridge_cost n dim m lambda icpt (ment a) (ment b) Z = ridge_cost n dim m lambda icpt f g Z).
  { intros Z. apply ridge_cost_ext; [| |reflexivity].
    - intros i k Hi Hk. exact (vals_ent _ _ _ _ _ i k Va Hi Hk).
    - intros i c Hi Hc. exact (vals_ent _ _ _ _ _ i c Vb Hi Hc). }
  rewrite !HE in Ho. exact Ho.
Qed.

Lemma cost_icpt n dim m f g X : ridge_cost n (xdim dim true) m 0 false (padm dim f) g X = ridge_cost n dim m 0 true f g X.
Proof.
  unfold ridge_cost. rewrite !Rmult_0_l. f_equal. apply rsum_ext. intros i _. apply rsum_ext. intros c _.
  rewrite (predict_mv dim true f X i c). unfold predict, mv. rewrite Rplus_0_r. reflexivity.
Qed.
Lemma pad_vals a t n dim f (icpt : bool) : vals a t n dim f ->
  exists a', (if icpt then m_hstack a (of_dense (type_of a) (d_const (m_nr a) 1 f1)) else Ok a) = Ok a' /\ vals a' t n (xdim dim icpt) (padm dim f).
Proof.
  intros Va. pose proof (vals_pos _ _ _ _ _ Va) as (Hn & Hd). rewrite (vals_type _ _ _ _ _ Va), (vals_nr _ _ _ _ _ Va). unfold xdim. destruct icpt.
  - destruct (vals_hstack a _ t n dim 1 f (fun _ _ => f1) Va (vals_const t n 1 f1 Hn ltac:(lia))) as (a' & -> & V). exists a'. split; [reflexivity|exact V].
  - exists a. split; [reflexivity|]. eapply vals_ext; [exact Va|]. intros i j Hi Hj. unfold padm. destruct (Nat.ltb_spec j dim); [reflexivity|lia].
Qed.

Lemma lstsq_opt a b t n dim m f g icpt X : pinv_correct -> pinv_converges -> lstsq_correct -> vals a t n dim f -> vals b t n m g ->
  lstsq_regression a b icpt = Ok X ->
  vals X t (xdim dim icpt) m (ment X) /\ optimal n dim m 0 icpt f g (ment X).
Proof.
  intros HP HC HL Va Vb H. unfold lstsq_regression in H.
  apply bind_ok in H. destruct H as (y0 & _ & H). apply bind_ok in H. destruct H as (y1 & _ & H).
  destruct (pad_vals a t n dim f icpt Va) as (a' & E1 & Va'). rewrite E1 in H. cbn [bind] in H.
  assert (HI : forall Z, ridge_cost n (xdim dim icpt) m 0 false (padm dim f) g Z = ridge_cost n dim m 0 icpt f g Z).
  { intros Z. destruct icpt; [apply cost_icpt|]. unfold xdim. apply ridge_cost_ext; [|reflexivity|reflexivity].
    intros i k Hi Hk. unfold padm. destruct (Nat.ltb_spec k dim); [reflexivity|lia]. }
  destruct a' as [d|c].
  - apply bind_ok in H. destruct H as (x & Hx & H). injection H as <-.
    pose proof (vals_type _ _ _ _ _ Va') as Ht. cbn in Ht. subst t.
    pose proof (vals_nc _ _ _ _ _ Va') as Dc. pose proof (vals_nr _ _ _ _ _ Va') as Dr. cbn [m_nr m_nc] in Dc, Dr.
    pose proof (vals_pos _ _ _ _ _ Va') as (Hn & Hd). pose proof (vals_pos _ _ _ _ _ Vb) as (_ & Hm).
    assert (VX : vals (MD (tab (d_nc d) (m_nc b) x)) TDense (xdim dim icpt) m x).
    { rewrite Dc, (vals_nc _ _ _ _ _ Vb). exact (vals_of_dense TDense (xdim dim icpt) m x Hd Hm). }
    split; [exact (vals_of _ _ _ _ (vals_has _ _ _ _ _ VX))|]. intros Y.
    pose proof (HL d (to_dense b) x (vals_wf _ _ _ _ _ Va') (to_dense_wf b (vals_wf _ _ _ _ _ Vb))) as K.
    rewrite to_dense_nr, to_dense_nc, Dr, Dc, (vals_nr _ _ _ _ _ Vb), (vals_nc _ _ _ _ _ Vb) in K. specialize (K eq_refl Hx Y).
    rewrite <- !HI.
    assert (HZ : forall Z, ridge_cost n (xdim dim icpt) m 0 false (padm dim f) g Z =
      rsum n (fun i => rsum m (fun c => (rsum (xdim dim icpt) (fun k => dent d i k * Z k c) - dent (to_dense b) i c) * (rsum (xdim dim icpt) (fun k => dent d i k * Z k c) - dent (to_dense b) i c)))%R).
    { intros Z. unfold ridge_cost. rewrite Rmult_0_l, Rplus_0_r. apply rsum_ext. intros i Hi. apply rsum_ext. intros c Hc.
      assert (EQ : predict (xdim dim icpt) false (padm dim f) Z i c = rsum (xdim dim icpt) (fun k => dent d i k * Z k c)%R).
      { unfold predict. rewrite Rplus_0_r. apply rsum_ext. intros k Hk. pose proof (vals_ent _ _ _ _ _ i k Va' Hi Hk) as Q. cbn [ment] in Q. rewrite Q. reflexivity. }
      rewrite EQ. rewrite (vals_dent b _ _ _ _ i c Vb Hi Hc). reflexivity. }
    rewrite !HZ.
    assert (HX : rsum n (fun i => rsum m (fun c => (rsum (xdim dim icpt) (fun k => dent d i k * ment (MD (tab (d_nc d) (m_nc b) x)) k c) - dent (to_dense b) i c) * (rsum (xdim dim icpt) (fun k => dent d i k * ment (MD (tab (d_nc d) (m_nc b) x)) k c) - dent (to_dense b) i c)))%R
      = rsum n (fun i => rsum m (fun c => (rsum (xdim dim icpt) (fun k => dent d i k * x k c) - dent (to_dense b) i c) * (rsum (xdim dim icpt) (fun k => dent d i k * x k c) - dent (to_dense b) i c)))%R).
    { apply rsum_ext. intros i Hi. apply rsum_ext. intros c Hc.
      assert (EQ : rsum (xdim dim icpt) (fun k => dent d i k * ment (MD (tab (d_nc d) (m_nc b) x)) k c)%R = rsum (xdim dim icpt) (fun k => dent d i k * x k c)%R).
      { apply rsum_ext. intros k Hk. rewrite (vals_ent _ _ _ _ _ k c VX Hk Hc). reflexivity. }
      rewrite EQ. reflexivity. }
    rewrite HX. exact K.
  - apply bind_ok in H. destruct H as ([[x tr] dist] & Hr & H). injection H as <-. cbn [fst].
    destruct (ridge_opt _ b t n _ m _ g 0%R false x tr dist HP HC Va' Vb ltac:(lra) Hr) as (VX & Ho).
    split; [exact VX|]. intros Y. rewrite <- !HI. apply Ho.
Qed.

Lemma learner_opt L a b t n dim m f g X : pinv_correct -> pinv_converges -> lstsq_correct -> nonneg_params L -> vals a t n dim f -> vals b t n m g ->
  learner_train L a b = Ok X ->
  exists lambda, uses_lambda L lambda /\ vals X t (xdim dim (has_intercept L)) m (ment X) /\ optimal n dim m lambda (has_intercept L) f g (ment X).
Proof.
  intros HP HC HL Hnn Va Vb H. destruct L as [i|i [|] rg p]; cbn [has_intercept].
  - cbn [learner_train] in H. exists 0%R. split; [reflexivity|]. exact (lstsq_opt a b t n dim m f g i X HP HC HL Va Vb H).
  - destruct (C43_cv_picks_best i rg p a b X H) as (q & tr & dist & Hr & Hq). cbn in Hnn. rewrite Forall_forall in Hnn.
    assert (Hin : In q rg \/ q = 0%R).
    { destruct Hq as [(l1 & l2 & s & -> & _)|(_ & ->)]; [left; apply in_app_iff; right; left; reflexivity|right; reflexivity]. }
    exists q. split; [exact Hin|]. apply (ridge_opt a b t n dim m f g q i X tr dist HP HC Va Vb); [|exact Hr]. destruct Hin as [Hin| ->]; [auto|lra].
  - destruct p as [p|]; cbn in Hnn; [|contradiction]. cbn [learner_train] in H. apply bind_ok in H. destruct H as ([[x tr] dist] & Hr & H). injection H as <-. cbn [fst].
    exists p. split; [reflexivity|]. exact (ridge_opt a b t n dim m f g p i x tr dist HP HC Va Vb Hnn Hr).
Qed.

(** ** from the stacked regression problem to A and B *)
Lemma slice_rows_vals X t r c f b e : vals X t r c f -> b < e -> e <= r ->
  exists z, m_slice_rows X b e = Ok z /\ vals z t (e - b) c (fun k j => f (b + k) j).
Proof.
  intros V Hb He. unfold m_slice_rows. rewrite (vals_nr _ _ _ _ _ V), Nat.min_l by lia.
  destruct (vals_get_rows X t r c f (seq b (e - b)) V) as (z & -> & Vz).
  { apply Forall_forall. intros x Hx. apply in_seq in Hx. lia. } { rewrite seq_length. lia. }
  exists z. split; [reflexivity|]. rewrite seq_length in Vz. eapply vals_ext; [exact Vz|]. intros k j Hk Hj. cbn beta. rewrite seq_nth by lia. reflexivity.
Qed.

(** rows n1.. of the stacked coefficients *)
Definition join (n1 : nat) (At Bt : nat -> nat -> R) (k : nat) : nat -> R := if Nat.ltb k n1 then At k else Bt (k - n1).

Lemma stack_cost s1 s2 sp w lambda icpt At Bt :
  let n1 := m_nc (s_mat s1) in let n2 := m_nc (s_mat s2) in
  ridge_cost (length w) (n1 + n2) (m_nc (s_mat sp)) lambda icpt
    (fun i k => if Nat.ltb k n1 then vec s1 (nth i (map t1 w) "") k else vec s2 (nth i (map t2 w) "") (k - n1))
    (fun i c => vec sp (nth i (map t3 w) "") c) (join n1 At Bt)
  = fadd_error s1 s2 sp w lambda icpt At Bt.
Proof.
  intros n1 n2. unfold ridge_cost, fadd_error. fold n1 n2. cbv zeta. f_equal.
  - rewrite (lsum_rsum _ w ("", "", "")). apply rsum_ext. intros i Hi. unfold predict. cbn beta.
    rewrite (nth_map_t t1 w i "" Hi), (nth_map_t t2 w i "" Hi), (nth_map_t t3 w i "" Hi).
    destruct (nth i w ("", "", "")) as [[w1 w2] ph]. cbn [t1 t2 t3 fst snd]. unfold sqdist. apply rsum_ext. intros c Hc.
    assert (EQ : predict (n1 + n2) icpt (fun _ k => if Nat.ltb k n1 then vec s1 w1 k else vec s2 w2 (k - n1)) (join n1 At Bt) i c
                 = fadd_vec n1 n2 icpt At Bt (vec s1 w1) (vec s2 w2) c).
    { unfold predict, fadd_vec. rewrite rsum_app. f_equal; [f_equal|].
      - apply rsum_ext. intros k Hk. unfold join. destruct (Nat.ltb_spec k n1); [ring|lia].
      - apply rsum_ext. intros k Hk. unfold join. destruct (Nat.ltb_spec (n1 + k) n1); [lia|]. replace (n1 + k - n1) with k by lia. ring.
      - destruct icpt; [|reflexivity]. unfold join. destruct (Nat.ltb_spec (n1 + n2) n1); [lia|]. replace (n1 + n2 - n1) with n2 by lia. reflexivity. }
    unfold predict in EQ. cbn beta in EQ. rewrite EQ. reflexivity.
  - f_equal. rewrite rsum_app. f_equal; apply rsum_ext; intros k Hk; apply rsum_ext; intros c Hc; unfold join.
    + destruct (Nat.ltb_spec k n1); [reflexivity|lia].
    + destruct (Nat.ltb_spec (n1 + k) n1); [lia|]. replace (n1 + k - n1) with k by lia. reflexivity.
Qed.

(** ** C39 *)
Theorem C39_optimal : forall m ab i0 L data a s1 s2 sp m', pinv_correct -> pinv_converges -> lstsq_correct -> nonneg_params L ->
  consistent s1 -> consistent s2 -> consistent sp -> args_of a s1 s2 -> cm_kind m = FAdd ab i0 (Some L) ->
  train m data a sp = (m', Ok tt) ->
  exists At Bt lambda, cm_kind m' = FAdd (Some (At, Bt)) (has_intercept L) (Some L) /\ uses_lambda L lambda /\
    fits (cm_kind m') (m_nc (s_mat s1)) (m_nc (s_mat s2)) /\ m_nc At = m_nc (s_mat sp) /\
    forall At' Bt', (fadd_error s1 s2 sp (filter (usable3 s1 s2 sp) data) lambda (has_intercept L) (ment At) (ment Bt)
                     <= fadd_error s1 s2 sp (filter (usable3 s1 s2 sp) data) lambda (has_intercept L) At' Bt')%R.
Proof.
  intros m ab i0 L data a s1 s2 sp m' HP HC HL Hnn C1 C2 C3 Ha Hk H. unfold train in H. rewrite Hk in H.
  destruct (train_lists data a sp) as [r|e] eqn:ET; [|discriminate H].
  destruct (train_lists_ok data a s1 s2 sp C1 C2 C3 Ha r ET) as (Hne & ->). set (w := filter (usable3 s1 s2 sp) data) in *. cbn [bind] in H.
  destruct (rows3 s1 s2 sp w C1 C2 C3 Hne (usable_filter s1 s2 sp data)) as (u & v & p & t & Eg & Vu & Vv & Vp). rewrite Eg in H. cbn [bind] in H.
  unfold fadd_train in H. destruct (vals_hstack u v t _ _ _ _ _ Vu Vv) as (uv & Euv & Vuv). rewrite Euv in H. cbn [bind] in H.
  destruct (learner_train L uv p) as [X|e] eqn:EL; [|discriminate H]. cbn [bind] in H.
  destruct (learner_opt L uv p t _ _ _ _ _ X HP HC HL Hnn Vuv Vp EL) as (lambda & Hl & VX & Ho).
  set (n1 := m_nc (s_mat s1)) in *. set (n2 := m_nc (s_mat s2)) in *. set (icpt := has_intercept L) in *.
  pose proof (vals_pos _ _ _ _ _ Vu) as (_ & Hn1). pose proof (vals_pos _ _ _ _ _ Vv) as (_ & Hn2).
  assert (Hx : xdim (n1 + n2) icpt = n1 + (if icpt then n2 + 1 else n2)) by (unfold xdim; destruct icpt; lia).
  rewrite (vals_nc _ _ _ _ _ Vu), (vals_nr _ _ _ _ _ VX) in H.
  destruct (slice_rows_vals X t _ _ _ 0 n1 VX Hn1 ltac:(rewrite Hx; destruct icpt; lia)) as (At & EA & VA). rewrite EA in H. cbn [bind] in H.
  destruct (slice_rows_vals X t _ _ _ n1 (xdim (n1 + n2) icpt) VX ltac:(rewrite Hx; destruct icpt; lia) ltac:(lia)) as (Bt & EB & VB). rewrite EB in H. cbn [bind] in H.
  injection H as <-. exists At, Bt, lambda. cbn [cm_kind]. split; [reflexivity|]. split; [exact Hl|].
  rewrite Nat.sub_0_r in VA. rewrite Hx in VB. replace (n1 + (if icpt then n2 + 1 else n2) - n1) with (if icpt then n2 + 1 else n2) in VB by (destruct icpt; lia).
  split.
  { cbn [fits]. rewrite (vals_nr _ _ _ _ _ VA), (vals_nr _ _ _ _ _ VB), (vals_nc _ _ _ _ _ VA), (vals_nc _ _ _ _ _ VB).
    split; [exact (vals_wf _ _ _ _ _ VA)|]. split; [exact (vals_wf _ _ _ _ _ VB)|]. auto. }
  split; [exact (vals_nc _ _ _ _ _ VA)|]. intros At' Bt'. pose proof (stack_cost s1 s2 sp w lambda icpt) as SC. cbv zeta in SC. fold n1 n2 in SC.
  rewrite <- (SC At' Bt').
  assert (EQ : fadd_error s1 s2 sp w lambda icpt (ment At) (ment Bt) =
     ridge_cost (length w) (n1 + n2) (m_nc (s_mat sp)) lambda icpt
    (fun i k => if Nat.ltb k n1 then vec s1 (nth i (map t1 w) "") k else vec s2 (nth i (map t2 w) "") (k - n1))
    (fun i c => vec sp (nth i (map t3 w) "") c) (ment X)).
  { rewrite <- SC. apply ridge_cost_ext; [reflexivity|reflexivity|]. intros k c Hk' Hc. unfold join. destruct (Nat.ltb_spec k n1).
    - rewrite (vals_ent _ _ _ _ _ k c VA ltac:(assumption) Hc). reflexivity.
    - rewrite Hx in Hk'. rewrite (vals_ent _ _ _ _ _ (k - n1) c VB ltac:(lia) Hc). cbn beta. f_equal. lia. }
  rewrite EQ. apply Ho.
Qed.

(** and the error minimised is that of what compose returns: for every usable tuple, the composed vector is [fadd_vec] *)
Theorem C39_composes_fitted_values : forall m At Bt icpt L data a s1 s2 m' s, cm_kind m = FAdd (Some (At, Bt)) icpt L ->
  consistent s1 -> consistent s2 -> args_of a s1 s2 -> fits (cm_kind m) (m_nc (s_mat s1)) (m_nc (s_mat s2)) -> compose m data a = (m', Ok s) ->
  forall i w1 w2 ph j, nth_error (filter (usable2 s1 s2) data) i = Some (w1, w2, ph) -> j < m_nc At ->
    ment (s_mat s) i j = fadd_vec (m_nc (s_mat s1)) (m_nc (s_mat s2)) icpt (ment At) (ment Bt) (vec s1 w1) (vec s2 w2) j.
Proof.
  intros m At Bt icpt L data a s1 s2 m' s Hk C1 C2 Ha Hf Hs i w1 w2 ph j Hi Hj.
  destruct (C35_full_additive m At Bt icpt L data a s1 s2 m' s Hk C1 C2 Ha Hf Hs) as (_ & He). exact (He i w1 w2 ph j Hi Hj).
Qed.

(** training succeeds when a tuple is usable and the numpy routines return *)
Definition pinv_returns (k : nat) : Prop := forall d, dwfm d -> d_nr d = k -> d_nc d = k -> exists P, e_pinv d = Ok P.
(** [k] is the number of columns of the regression problem *)
Definition learner_usable (k : nat) (L : learner) : Prop :=
  match L with
  | LLstsq _ => forall a b, dwfm a -> dwfm b -> d_nc a = k -> d_nr b = d_nr a -> exists X, e_lstsq a b = Ok X
  | LRidge _ false _ None => False    (* the fixed lambda must be a number *)
  | LRidge _ _ _ _ => True
  end.

Lemma ridge_total' a b t n dim m f g lambda icpt : pinv_returns (xdim dim icpt) -> vals a t n dim f -> vals b t n m g ->
  exists r, ridge_regression a b lambda icpt = Ok r.
Proof.
  intros HP Va Vb. destruct (ridge_value a b t n dim m f g lambda icpt Va Vb) as (reg & Wr & Rr & Cr & Hg & He & Hv).
  destruct (HP reg Wr Rr Cr) as (P & EP). destruct (Hv P EP) as (X & dist & Ex & _). eauto.
Qed.
Lemma learner_total L a b t n dim m f g : pinv_returns (xdim dim (has_intercept L)) -> learner_usable (xdim dim (has_intercept L)) L -> vals a t n dim f -> vals b t n m g ->
  exists X, learner_train L a b = Ok X.
Proof.
  intros HP HL Va Vb. destruct L as [i|i [|] rg p]; cbn [learner_train has_intercept] in *.
  - unfold lstsq_regression. rewrite same_type_same by (rewrite (vals_type _ _ _ _ _ Va), (vals_type _ _ _ _ _ Vb); reflexivity).
    assert (EN : Nat.eqb (m_nr a) (m_nr b) = true) by (rewrite (vals_nr _ _ _ _ _ Va), (vals_nr _ _ _ _ _ Vb); apply Nat.eqb_refl).
    unfold assert_same_nr. rewrite EN. cbn [check bind].
    destruct (pad_vals a t n dim f i Va) as (a' & E1 & Va'). rewrite E1. cbn [bind]. destruct a' as [d|c].
    + destruct (HL d (to_dense b)) as (X & ->); [exact (vals_wf _ _ _ _ _ Va')|apply to_dense_wf, (vals_wf _ _ _ _ _ Vb)|exact (vals_nc _ _ _ _ _ Va')| |cbn [bind]; eauto].
      rewrite to_dense_nr, (vals_nr _ _ _ _ _ Vb). symmetry. exact (vals_nr _ _ _ _ _ Va').
    + destruct (ridge_total' _ b t n (xdim dim i) m _ g f0 false HP Va' Vb) as (r & ->). cbn [bind]. eauto.
  - assert (HF : forall st, exists st', foldM (gcv_step a b i) rg st = Ok st').
    { clear HL. induction rg as [|q rg IH]; intros st; cbn [foldM]; [eauto|]. destruct st as [[me mp] g0]. unfold gcv_step at 1.
      destruct (ridge_total' a b t n dim m f g q i HP Va Vb) as ([[x tr] er] & ->). cbn [bind].
      match goal with |- context [if ?c then Ok ?x else Ok ?y] => destruct c end; cbn [bind]; apply IH. }
    unfold gcv_param. destruct (HF (None, f0, None)) as (st & ->). cbn [bind].
    destruct (ridge_total' a b t n dim m f g (snd (fst st)) i HP Va Vb) as (r & ->). cbn [bind]. eauto.
  - destruct p as [p|]; [|contradiction]. destruct (ridge_total' a b t n dim m f g p i HP Va Vb) as (r & ->). cbn [bind]. eauto.
Qed.

Theorem C39_total : forall m ab i0 L data a s1 s2 sp,
  let k := m_nc (s_mat s1) + m_nc (s_mat s2) + (if has_intercept L then 1 else 0) in pinv_returns k -> learner_usable k L ->
  consistent s1 -> consistent s2 -> consistent sp -> args_of a s1 s2 -> s_id2col s1 = s_id2col s2 -> cm_kind m = FAdd ab i0 (Some L) ->
  filter (usable3 s1 s2 sp) data <> [] -> exists m', train m data a sp = (m', Ok tt).
Proof.
  intros m ab i0 L data a s1 s2 sp k HP HL C1 C2 C3 Ha Hcol Hk Hne. unfold train. rewrite Hk. unfold train_lists.
  rewrite (args_extract a s1 s2 Ha), (proj2 (strings_eqb_eq _ _) Hcol). cbn [bind].
  rewrite (valid_data_ok data _ _ _ _ (valid_eq3 s1 s2 sp C1 C2 C3) Hne). cbn [bind]. set (w := filter (usable3 s1 s2 sp) data) in *.
  destruct (rows3 s1 s2 sp w C1 C2 C3 Hne (usable_filter s1 s2 sp data)) as (u & v & p & t & Eg & Vu & Vv & Vp). rewrite Eg. cbn [bind].
  unfold fadd_train. destruct (vals_hstack u v t _ _ _ _ _ Vu Vv) as (uv & -> & Vuv). cbn [bind].
  set (n1 := m_nc (s_mat s1)) in *. set (n2 := m_nc (s_mat s2)) in *. set (icpt := has_intercept L) in *.
  assert (Ek : k = xdim (n1 + n2) icpt) by (unfold k, xdim; destruct icpt; lia). rewrite Ek in HP, HL. clearbody k. clear Ek. pose proof HP as HP'.
  destruct (learner_total L uv p t _ _ _ _ _ HP' HL Vuv Vp) as (X & EX). rewrite EX. cbn [bind].
  pose proof (vals_pos _ _ _ _ _ Vu) as (_ & Hn1). pose proof (vals_pos _ _ _ _ _ Vv) as (_ & Hn2).
  assert (HX : exists f, vals X t (xdim (n1 + n2) icpt) (m_nc (s_mat sp)) f).
  { clear - EX Vuv Vp HP' HL. destruct L as [i|i [|] rg q]; cbn [learner_train has_intercept] in EX, icpt; subst icpt.
    - unfold lstsq_regression in EX. apply bind_ok in EX. destruct EX as (y0 & _ & EX). apply bind_ok in EX. destruct EX as (y1 & _ & EX).
      destruct (pad_vals uv t _ _ _ i Vuv) as (a' & E1 & Va'). rewrite E1 in EX. cbn [bind] in EX. destruct a' as [d|c].
      + apply bind_ok in EX. destruct EX as (x & Hx & EX). injection EX as <-. pose proof (vals_type _ _ _ _ _ Va') as Ht. cbn in Ht. subst t.
        pose proof (vals_nc _ _ _ _ _ Va') as Dc. cbn [m_nc] in Dc. rewrite Dc, (vals_nc _ _ _ _ _ Vp). eexists. apply (vals_of_dense TDense).
        * exact (proj2 (vals_pos _ _ _ _ _ Va')). * exact (proj2 (vals_pos _ _ _ _ _ Vp)).
      + destruct (ridge_value _ p t _ _ _ _ _ f0 false Va' Vp) as (reg & Wr & Rr & Cr & Hg & He & Hv).
        destruct (HP' reg Wr Rr Cr) as (P & EP). destruct (Hv P EP) as (Y & dist & Ex & VY & _). rewrite Ex in EX. injection EX as <-. eauto.
    - apply bind_ok in EX. destruct EX as (la & _ & EX). destruct (ridge_value uv p t _ _ _ _ _ la i Vuv Vp) as (reg & Wr & Rr & Cr & Hg & He & Hv).
      destruct (HP' reg Wr Rr Cr) as (P & EP). destruct (Hv P EP) as (Y & dist & Ex & VY & _). rewrite Ex in EX. injection EX as <-. eauto.
    - destruct q as [q|]; [|contradiction]. apply bind_ok in EX. destruct EX as (r0 & Er & EX). match type of Er with ridge_regression _ _ ?la _ = _ => destruct (ridge_value uv p t _ _ _ _ _ la i Vuv Vp) as (reg & Wr & Rr & Cr & Hg & He & Hv) end.
      destruct (HP' reg Wr Rr Cr) as (P & EP). destruct (Hv P EP) as (Y & dist & Ex & VY & _). rewrite Ex in Er. injection Er as <-. injection EX as <-. eauto. }
  destruct HX as (f & VX).
  assert (Hx : xdim (n1 + n2) icpt = n1 + (if icpt then n2 + 1 else n2)) by (unfold xdim; destruct icpt; lia).
  rewrite (vals_nc _ _ _ _ _ Vu), (vals_nr _ _ _ _ _ VX).
  destruct (slice_rows_vals X t _ _ _ 0 n1 VX Hn1 ltac:(rewrite Hx; destruct icpt; lia)) as (At & -> & VA). cbn [bind].
  destruct (slice_rows_vals X t _ _ _ n1 (xdim (n1 + n2) icpt) VX ltac:(rewrite Hx; destruct icpt; lia) ltac:(lia)) as (Bt & -> & VB). cbn [bind]. eauto.
Qed.
End WithExt.

Definition ex_arg1 : space := tsp ["a"; "b"] 1 [[1]; [2]]%R.
Definition ex_phr1 : space := tsp ["ab"; "ba"] 2 [[2; 3]; [3; 2]]%R.
Lemma ex_arg1_consistent : consistent ex_arg1.
Proof. apply tsp_consistent; [nodup|discriminate|lia|reflexivity|repeat constructor]. Qed.
Lemma ex_phr1_consistent : consistent ex_phr1.
Proof. apply tsp_consistent; [nodup|discriminate|lia|reflexivity|repeat constructor]. Qed.
Example C39_example : exists m', @pinv_correct Epi /\ @pinv_converges Epi /\ @lstsq_correct Epi /\ nonneg_params (LRidge false false [] (Some 1%R)) /\
  consistent ex_arg1 /\ consistent ex_phr1 /\
  @train RNum Epi (mk_fadd None (Some (LRidge false false [] (Some 1%R)))) ex_data (One ex_arg1) ex_phr1 = (m', Ok tt).
Proof.
  destruct (@C39_total Epi (mk_fadd None (Some (LRidge false false [] (Some 1%R)))) None false (LRidge false false [] (Some 1%R)) ex_data (One ex_arg1) ex_arg1 ex_arg1 ex_phr1) as (m' & Hm).
  - intros d _ Hr Hc. cbn in Hr, Hc. cbn [e_pinv Epi]. unfold pinv_small. rewrite Hr, Hc. eauto.
  - exact I.
  - exact ex_arg1_consistent.
  - exact ex_arg1_consistent.
  - exact ex_phr1_consistent.
  - left; auto.
  - reflexivity.
  - reflexivity.
  - discriminate.
  - exists m'. split; [exact Epi_correct|]. split; [exact Epi_converges|]. split; [intros a b X _ _ _ K; discriminate K|].
    split; [cbn; lra|]. split; [exact ex_arg1_consistent|]. split; [exact ex_phr1_consistent|]. exact Hm.
Qed.
