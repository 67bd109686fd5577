(** Prop_Ridge.v -- properties C38 and C43: ridge / least-squares regression and generalised cross-validation, over exact reals. *)
From Coq Require Import Reals Lra Psatz.
From Verif Require Import Base PyList Dict Num SpecReal Dense Sparse Matrix PSparse PMatrix PMatOps PShape PVals PReal PPos Scaling Linalg
  PLsq Learner Operation Similarity Space Peripheral SpecSpace PSpace Composition SpecComp PComp.
#[local] Existing Instance RNum.
Open Scope R_scope.
Open Scope nat_scope.

(** ** specification *)
(** the Moore-Penrose conditions for an r x c matrix M and a c x r matrix P *)
Record moore_penrose (r c : nat) (M P : nat -> nat -> R) : Prop := {
  mp_mpm : forall i j, i < r -> j < c -> rsum c (fun p => rsum r (fun q => M i p * P p q * M q j))%R = M i j;
  mp_pmp : forall i j, i < c -> j < r -> rsum r (fun p => rsum c (fun q => P i p * M p q * P q j))%R = P i j;
  mp_mp_sym : forall i j, i < r -> j < r -> rsum c (fun p => M i p * P p j)%R = rsum c (fun p => M j p * P p i)%R;
  mp_pm_sym : forall i j, i < c -> j < c -> rsum r (fun p => P i p * M p j)%R = rsum r (fun p => P j p * M p i)%R }.

(** predicted value for row i and output column c: linear part plus the intercept (last row of X) *)
Definition predict (dim : nat) (icpt : bool) (a : nat -> nat -> R) (X : nat -> nat -> R) (i c : nat) : R :=
  (rsum dim (fun k => a i k * X k c) + (if icpt then X dim c else 0))%R.
(** ||A X - B||^2 + lambda ||X||^2, the intercept row not being penalised *)
Definition ridge_cost (n dim m : nat) (lambda : R) (icpt : bool) (a b X : nat -> nat -> R) : R :=
  (rsum n (fun i => rsum m (fun c => (predict dim icpt a X i c - b i c) * (predict dim icpt a X i c - b i c)))
   + lambda * rsum dim (fun k => rsum m (fun c => X k c * X k c)))%R.

Section WithExt.
Context {E : @Ext RNum}.
(** numpy.linalg.pinv returns the Moore-Penrose inverse whenever it returns *)
Definition pinv_correct : Prop := forall d P, dwfm d -> e_pinv d = Ok P -> moore_penrose (d_nr d) (d_nc d) (dent d) P.
(** ... and does not fail to converge (ridge_regression silently replaces the inverse by the identity in that case) *)
Definition pinv_converges : Prop := forall d, dwfm d -> e_pinv d <> Err LinAlgError.

(** ** what ridge_regression computes *)
Definition padm (dim : nat) (a : nat -> nat -> R) (i k : nat) : R := if Nat.ltb k dim then a i k else 1%R.
Definition pen (dim : nat) (lambda : R) (k : nat) : R := if Nat.ltb k dim then lambda else 0%R.
Definition xdim (dim : nat) (icpt : bool) : nat := if icpt then dim + 1 else dim.

Lemma ridge_value a b t n dim m f g lambda icpt : vals a t n dim f -> vals b t n m g ->
  exists reg : dmat, dwfm reg /\ d_nr reg = xdim dim icpt /\ d_nc reg = xdim dim icpt /\
    (forall k l, k < xdim dim icpt -> l < xdim dim icpt -> dent reg k l = gram n (padm dim f) (pen dim lambda) k l) /\
    (forall e, e_pinv reg = Err e -> e <> LinAlgError -> ridge_regression a b lambda icpt = Err e) /\
    (forall P, e_pinv reg = Ok P ->
      exists X dist, ridge_regression a b lambda icpt = Ok (X, rsum (xdim dim icpt) (fun k => rsum n (fun i => padm dim f i k * rsum (xdim dim icpt) (fun q => P k q * padm dim f i q)))%R, dist) /\
        vals X t (xdim dim icpt) m (fun k c => rsum (xdim dim icpt) (fun q => P k q * rsum n (fun i => padm dim f i q * g i c)))%R /\
        dist = sqrt (rsum n (fun i => rsum m (fun c => (rsum (xdim dim icpt) (fun k => padm dim f i k * ment X k c) - g i c) * (rsum (xdim dim icpt) (fun k => padm dim f i k * ment X k c) - g i c))))%R).
Proof.
  intros Ha Hb. pose proof (vals_pos _ _ _ _ _ Ha) as (Hn & Hdim). pose proof (vals_pos _ _ _ _ _ Hb) as (_ & Hm).
  unfold ridge_regression.
  rewrite same_type_same by (rewrite (vals_type _ _ _ _ _ Ha), (vals_type _ _ _ _ _ Hb); reflexivity).
  unfold assert_same_nr. rewrite (vals_nr _ _ _ _ _ Ha), (vals_nr _ _ _ _ _ Hb), Nat.eqb_refl. cbn [check bind].
  rewrite (vals_type _ _ _ _ _ Ha), (vals_nc _ _ _ _ _ Ha).
  assert (HA : exists a', (if icpt then m_hstack a (of_dense t (d_const n 1 f1)) else Ok a) = Ok a' /\ vals a' t n (xdim dim icpt) (padm dim f)).
  { unfold xdim. destruct icpt.
    - destruct (vals_hstack a _ t n dim 1 f (fun _ _ => f1) Ha (vals_const t n 1 f1 Hn ltac:(lia))) as (a' & -> & V). exists a'. split; [reflexivity|exact V].
    - exists a. split; [reflexivity|]. eapply vals_ext; [exact Ha|]. intros i j Hi Hj. unfold padm. destruct (Nat.ltb_spec j dim); [reflexivity|lia]. }
  destruct HA as (a' & -> & Va). cbn [bind].
  assert (HL : exists l', (if icpt then let* p := padd_matrix (m_scal lambda (m_identity t dim)) 0 f0 in padd_matrix p 1 f0 else Ok (m_scal lambda (m_identity t dim))) = Ok l'
     /\ vals l' t (xdim dim icpt) (xdim dim icpt) (fun k l => if Nat.eqb k l then pen dim lambda k else 0)%R).
  { pose proof (vals_scal lambda _ t dim dim _ (vals_identity t dim Hdim)) as Vi. unfold xdim. destruct icpt.
    - destruct (padd0_vals _ t dim dim _ f0 Vi) as (p & -> & Vp). cbn [bind].
      destruct (padd1_vals p t (dim + 1) dim _ f0 Vp) as (q & -> & Vq). exists q. split; [reflexivity|].
      eapply vals_ext; [exact Vq|]. intros k l Hk Hl. cbn beta. unfold pen. toR.
      destruct (Nat.ltb_spec l dim), (Nat.ltb_spec k dim), (Nat.eqb_spec k l); try lia; try ring.
    - exists (m_scal lambda (m_identity t dim)). split; [reflexivity|]. eapply vals_ext; [exact Vi|]. intros k l Hk Hl. cbn beta. unfold pen. toR.
      destruct (Nat.ltb_spec k dim), (Nat.eqb_spec k l); try lia; try ring. }
  destruct HL as (l' & -> & Vl). cbn [bind].
  pose proof (vals_transpose a' t n _ _ Va) as Vt.
  destruct (vals_mul _ a' t _ n _ _ _ Vt Va) as (ata & -> & Vata). cbn [bind].
  destruct (vals_add ata l' t _ _ _ _ Vata Vl) as (reg & -> & Vreg). cbn [bind].
  exists (to_dense reg).
  split; [apply to_dense_wf, (vals_wf _ _ _ _ _ Vreg)|]. split; [rewrite to_dense_nr; exact (vals_nr _ _ _ _ _ Vreg)|].
  split; [rewrite to_dense_nc; exact (vals_nc _ _ _ _ _ Vreg)|].
  split.
  { intros k l Hk Hl. rewrite (vals_dent reg _ _ _ _ k l Vreg Hk Hl). unfold gram. rewrite sumn_rsum. toR. reflexivity. }
  unfold linalg_pinv. rewrite (vals_type _ _ _ _ _ Vreg), (vals_nr _ _ _ _ _ Vreg), (vals_nc _ _ _ _ _ Vreg).
  split.
  { intros e He Hne. rewrite He. cbn [bind]. destruct e; try reflexivity. congruence. }
  intros P HP. rewrite HP. cbn [bind].
  assert (Hx : 0 < xdim dim icpt) by (unfold xdim; destruct icpt; lia).
  pose proof (vals_of_dense t (xdim dim icpt) (xdim dim icpt) P Hx Hx) as VP.
  destruct (vals_mul _ _ t _ _ n _ _ VP Vt) as (tmp & -> & Vtmp). cbn [bind].
  destruct (vals_mul tmp b t _ n m _ _ Vtmp Hb) as (X & -> & VX). cbn [bind].
  destruct (vals_mul a' X t n _ m _ _ Va VX) as (ar & -> & Var). cbn [bind].
  destruct (vals_sub ar b t n m _ _ Var Hb) as (diff & -> & Vdiff). cbn [bind].
  destruct (vals_multiply _ tmp t _ n _ _ Vt Vtmp) as (st & -> & Vst). cbn [bind].
  exists X, (m_norm diff). split; [|split].
  - f_equal. f_equal. f_equal. rewrite (vals_sum st t _ n _ Vst), sumn_rsum. apply rsum_ext. intros k Hk. rewrite sumn_rsum. apply rsum_ext. intros i Hi. rewrite sumn_rsum. reflexivity.
  - eapply vals_ext; [exact VX|]. intros k c Hk Hc. cbn beta. rewrite sumn_rsum.
    rewrite (rsum_ext n _ (fun i => rsum (xdim dim icpt) (fun q => P k q * (padm dim f i q * g i c)))%R).
    2: { intros i Hi. rewrite sumn_rsum. toR. rewrite <- rsum_scal_r. apply rsum_ext. intros; ring. }
    rewrite rsum_swap. apply rsum_ext. intros q Hq. rewrite rsum_scal_l. reflexivity.
  - rewrite (m_norm_R diff (vals_wf _ _ _ _ _ Vdiff)). f_equal. rewrite (vals_nr _ _ _ _ _ Vdiff), (vals_nc _ _ _ _ _ Vdiff).
    apply rsum_ext. intros i Hi. apply rsum_ext. intros c Hc. rewrite (vals_ent _ _ _ _ _ i c Vdiff Hi Hc). cbn beta.
    assert (EQ : sumn (xdim dim icpt) (fun l : nat => fmul (padm dim f i l) (sumn n (fun l0 : nat => fmul (sumn (xdim dim icpt) (fun l1 : nat => fmul (P l l1) (padm dim f l0 l1))) (g l0 c)))) =
                 rsum (xdim dim icpt) (fun k => padm dim f i k * ment X k c)%R).
    { rewrite sumn_rsum. apply rsum_ext. intros k Hk. rewrite (vals_ent _ _ _ _ _ k c VX Hk Hc). reflexivity. }
    rewrite EQ. toR. reflexivity.
Qed.

(** cost of one output column in the notation of PLsq *)
Lemma predict_mv dim icpt f X i c : predict dim icpt f X i c = mv (xdim dim icpt) (padm dim f) (fun k => X k c) i.
Proof.
  unfold predict, mv, xdim. assert (EQ : rsum dim (fun k => f i k * X k c)%R = rsum dim (fun k => padm dim f i k * X k c)%R).
  { apply rsum_ext. intros k Hk. unfold padm. destruct (Nat.ltb_spec k dim); [reflexivity|lia]. }
  rewrite EQ. destruct icpt; [rewrite rsum_app; cbn [rsum]; rewrite Nat.add_0_r|]; [|lra].
  unfold padm at 3. destruct (Nat.ltb_spec dim dim); [lia|]. lra.
Qed.
Lemma pen_sum dim icpt lambda (x : nat -> R) : rsum (xdim dim icpt) (fun k => pen dim lambda k * (x k * x k))%R = (lambda * rsum dim (fun k => x k * x k))%R.
Proof.
  assert (EQ : rsum dim (fun k => pen dim lambda k * (x k * x k))%R = (lambda * rsum dim (fun k => x k * x k))%R).
  { rewrite <- rsum_scal_l. apply rsum_ext. intros k Hk. unfold pen. destruct (Nat.ltb_spec k dim); [reflexivity|lia]. }
  unfold xdim. destruct icpt; [|exact EQ]. rewrite rsum_app, EQ. cbn [rsum]. unfold pen. rewrite Nat.add_0_r.
  destruct (Nat.ltb_spec dim dim); [lia|]. lra.
Qed.
Lemma ridge_cost_cols n dim m lambda icpt f g X : ridge_cost n dim m lambda icpt f g X =
  rsum m (fun c => lsq n (xdim dim icpt) (padm dim f) (pen dim lambda) (fun i => g i c) (fun k => X k c)).
Proof.
  unfold ridge_cost, lsq. rewrite rsum_plus. f_equal.
  - rewrite rsum_swap. apply rsum_ext. intros c _. apply rsum_ext. intros i _. rewrite predict_mv. reflexivity.
  - rewrite rsum_swap, <- rsum_scal_l. apply rsum_ext. intros c _. symmetry. apply pen_sum.
Qed.
Lemma ridge_cost_ext n dim m lambda icpt f f' g g' X X' :
  (forall i k, i < n -> k < dim -> f i k = f' i k) -> (forall i c, i < n -> c < m -> g i c = g' i c) ->
  (forall k c, k < xdim dim icpt -> c < m -> X k c = X' k c) ->
  ridge_cost n dim m lambda icpt f g X = ridge_cost n dim m lambda icpt f' g' X'.
Proof.
  intros Hf Hg HX. assert (Hd : forall k, k < dim -> k < xdim dim icpt) by (unfold xdim; destruct icpt; lia).
  assert (HP : forall i c, i < n -> c < m -> predict dim icpt f X i c = predict dim icpt f' X' i c).
  { intros i c Hi Hc. unfold predict. f_equal.
    - apply rsum_ext. intros k Hk. rewrite Hf, HX by auto. reflexivity.
    - destruct icpt; [|reflexivity]. apply HX; [unfold xdim; lia|exact Hc]. }
  unfold ridge_cost. f_equal.
  - apply rsum_ext. intros i Hi. apply rsum_ext. intros c Hc. rewrite HP, Hg by assumption. reflexivity.
  - f_equal. apply rsum_ext. intros k Hk. apply rsum_ext. intros c Hc. rewrite HX by auto. reflexivity.
Qed.

(** ** C38 *)
(** [Y] ranges over all real coefficient tables; only the coefficients inside the shape matter *)
Theorem C38_ridge_optimal : forall a b lambda icpt X tr dist, pinv_correct -> pinv_converges -> mwf a -> mwf b -> (0 <= lambda)%R ->
  ridge_regression a b lambda icpt = Ok (X, tr, dist) ->
  mwf X /\ type_of X = type_of a /\ m_nr X = (if icpt then m_nc a + 1 else m_nc a) /\ m_nc X = m_nc b /\
  (forall Y, (ridge_cost (m_nr a) (m_nc a) (m_nc b) lambda icpt (ment a) (ment b) (ment X)
              <= ridge_cost (m_nr a) (m_nc a) (m_nc b) lambda icpt (ment a) (ment b) Y)%R) /\
  (dist * dist = ridge_cost (m_nr a) (m_nc a) (m_nc b) 0 icpt (ment a) (ment b) (ment X))%R.
Proof.
  intros a b lambda icpt X tr dist HP HC Wa Wb Hl H.
  assert (Ht : type_of a = type_of b /\ m_nr a = m_nr b).
  { unfold ridge_regression in H. apply bind_ok in H. destruct H as (? & H1 & H). apply bind_ok in H. destruct H as (? & H2 & _).
    apply same_type_ok in H1. apply check_ok in H2. apply Nat.eqb_eq in H2. auto. }
  destruct Ht as (Ht & Hr). pose proof (vals_self a Wa) as Va. pose proof (vals_self b Wb) as Vb. rewrite <- Ht, <- Hr in Vb.
  destruct (ridge_value a b _ _ _ _ _ _ lambda icpt Va Vb) as (reg & Wr & Rr & Cr & Hg & He & Hv).
  destruct (e_pinv reg) as [P|e] eqn:EP.
  2: { destruct (exn_eq_dec e LinAlgError) as [->|Hne]; [exfalso; exact (HC reg Wr EP)|]. rewrite (He e eq_refl Hne) in H. discriminate. }
  destruct (Hv P eq_refl) as (X' & dist' & Ex & VX & Ed). rewrite Ex in H. injection H as H1 H2 H3. subst X'.
  split; [exact (vals_wf _ _ _ _ _ VX)|]. split; [exact (vals_type _ _ _ _ _ VX)|]. split; [exact (vals_nr _ _ _ _ _ VX)|].
  split; [exact (vals_nc _ _ _ _ _ VX)|]. split.
  - intros Y. rewrite !ridge_cost_cols. apply rsum_le. intros c Hc. apply lsq_optimal.
    { intros k Hk. unfold pen. destruct (Nat.ltb k (m_nc a)); lra. }
    pose proof (HP reg P Wr EP) as MP. rewrite Rr, Cr in MP. apply (ginv_normal _ _ _ _) with (P := P).
    { intros k Hk. unfold pen. destruct (Nat.ltb k (m_nc a)); lra. }
    + intros k l Hk Hl'. rewrite <- (Hg k l Hk Hl'), <- (mp_mpm _ _ _ _ MP k l Hk Hl'). apply rsum_ext. intros p Hp. apply rsum_ext. intros q Hq.
      rewrite (Hg k p Hk Hp), (Hg q l Hq Hl'). reflexivity.
    + intros k Hk. rewrite (vals_ent _ _ _ _ _ k c VX Hk Hc). reflexivity.
  - rewrite <- H3, Ed, sqrt_sqrt.
    + unfold ridge_cost. rewrite Rmult_0_l, Rplus_0_r. apply rsum_ext. intros i Hi. apply rsum_ext. intros c Hc. rewrite predict_mv. reflexivity.
    + apply rsum_nonneg. intros. apply rsum_nonneg. intros. apply Rle_0_sqr.
Qed.

(** regression never fails on compatible matrices when the pseudo-inverse is available *)
Theorem C38_ridge_total : forall a b lambda icpt, (forall d, dwfm d -> exists P, e_pinv d = Ok P) -> mwf a -> mwf b ->
  type_of a = type_of b -> m_nr a = m_nr b -> exists X tr dist, ridge_regression a b lambda icpt = Ok (X, tr, dist).
Proof.
  intros a b lambda icpt HE Wa Wb Ht Hr. pose proof (vals_self a Wa) as Va. pose proof (vals_self b Wb) as Vb. rewrite <- Ht, <- Hr in Vb.
  destruct (ridge_value a b _ _ _ _ _ _ lambda icpt Va Vb) as (reg & Wr & Rr & Cr & Hg & He & Hv).
  destruct (HE reg Wr) as (P & EP). destruct (Hv P EP) as (X & dist & Ex & _). eauto.
Qed.
Theorem C38_ridge_rejects : forall a b lambda icpt, (type_of a <> type_of b -> ridge_regression a b lambda icpt = Err TypeError) /\
  (type_of a = type_of b -> m_nr a <> m_nr b -> ridge_regression a b lambda icpt = Err ValueError).
Proof.
  intros a b lambda icpt. unfold ridge_regression, same_type. split.
  - intros Hne. destruct (mtype_eqb (type_of a) (type_of b)) eqn:Q; [apply mtype_eqb_eq in Q; contradiction|]. reflexivity.
  - intros -> Hne. rewrite mtype_eqb_refl. cbn [check bind]. unfold assert_same_nr. destruct (Nat.eqb_spec (m_nr a) (m_nr b)); [contradiction|]. reflexivity.
Qed.

(** ** C43 *)
(** the GCV score N-scaled as in the code's reference (Hastie et al. 7.52): defined unless (1 - tr(S)/N)^2 N = 0 *)
Definition gcv_score (a b : matrix) (icpt : bool) (lambda : R) : option R :=
  match ridge_regression a b lambda icpt with
  | Ok (_, tr, dist) =>
      let n := INR (m_nr a) in
      if Req_EM_T ((1 - tr / n) * (1 - tr / n) * n) 0 then None else Some (dist * dist / ((1 - tr / n) * (1 - tr / n) * n))%R
  | Err _ => None
  end.
(** [p] is the first parameter of [range] with the smallest defined score *)
Definition first_best (score : R -> option R) (range : list R) (p : R) : Prop :=
  exists l1 l2 s, range = l1 ++ p :: l2 /\ score p = Some s /\
    (forall q s', In q l1 -> score q = Some s' -> (s < s')%R) /\ (forall q s', In q l2 -> score q = Some s' -> (s <= s')%R).

Definition gcv_inv (score : R -> option R) (done : list R) (st : option R * R * option R) : Prop :=
  match st with
  | (None, p, g) => g = None /\ p = 0%R /\ forall q, In q done -> score q = None
  | (Some s, p, g) => (exists l1 l2, done = l1 ++ p :: l2 /\ score p = Some s /\
      (forall q s', In q l1 -> score q = Some s' -> (s < s')%R) /\ (forall q s', In q l2 -> score q = Some s' -> (s <= s')%R)) /\
      exists s', g = Some s' /\ (s <= s')%R
  end.
Lemma gcv_step_inv a b icpt done st p st' : gcv_inv (gcv_score a b icpt) done st -> gcv_step a b icpt st p = Ok st' ->
  gcv_inv (gcv_score a b icpt) (done ++ [p]) st'.
Proof.
  intros HI H. destruct st as [[me mp] g]. unfold gcv_step in H. destruct (ridge_regression a b p icpt) as [[[x tr] err]|e] eqn:ER; [|discriminate H].
  cbn [bind] in H. change (fofZ (Z.of_nat (m_nr a))) with (IZR (Z.of_nat (m_nr a))) in H. rewrite <- INR_IZR_INZ in H.
  assert (SC : gcv_score a b icpt p = if Req_EM_T ((1 - tr / INR (m_nr a)) * (1 - tr / INR (m_nr a)) * INR (m_nr a))%R 0 then None
    else Some (err * err / ((1 - tr / INR (m_nr a)) * (1 - tr / INR (m_nr a)) * INR (m_nr a)))%R).
  { unfold gcv_score. rewrite ER. reflexivity. }
  set (D := ((1 - tr / INR (m_nr a)) * (1 - tr / INR (m_nr a)) * INR (m_nr a))%R) in *.
  change (feqb (fmul (fmul (fsub f1 (fdiv tr (INR (m_nr a)))) (fsub f1 (fdiv tr (INR (m_nr a))))) (INR (m_nr a))) f0) with (Reqb D 0) in H.
  change (fdiv (fmul err err) (fmul (fmul (fsub f1 (fdiv tr (INR (m_nr a)))) (fsub f1 (fdiv tr (INR (m_nr a))))) (INR (m_nr a)))) with (err * err / D)%R in H.
  unfold Reqb in H. destruct (Req_EM_T D 0) as [HD|HD].
  - (* undefined score: nothing changes *)
    assert (K : lt_inf g me = false).
    { destruct me as [s|]; cbn in HI.
      - destruct HI as (_ & s' & -> & Hs). cbn. unfold Rltb. destruct (Rlt_dec s' s); [lra|reflexivity].
      - destruct HI as (-> & _). reflexivity. }
    rewrite K in H. injection H as <-. destruct me as [s|]; cbn in HI |- *.
    + destruct HI as ((l1 & l2 & -> & Hp & H1 & H2) & Hg). split; [|exact Hg]. exists l1, (l2 ++ [p]). rewrite <- app_assoc. split; [reflexivity|].
      split; [exact Hp|]. split; [exact H1|]. intros q s' Hq Hs. apply in_app_iff in Hq. destruct Hq as [Hq|[<-|[]]]; [eauto|congruence].
    + destruct HI as (-> & Hp & Hq). split; [reflexivity|]. split; [exact Hp|]. intros q Hin. apply in_app_iff in Hin. destruct Hin as [Hin|[<-|[]]]; auto.
  - set (v := (err * err / D)%R) in *. destruct me as [s|]; cbn [lt_inf] in H.
    + destruct HI as ((l1 & l2 & Hd & Hp & H1 & H2) & Hg). change (fltb v s) with (Rltb v s) in H. unfold Rltb in H. destruct (Rlt_dec v s) as [Hlt|Hge].
      * injection H as <-. cbn. split; [|exists v; split; [reflexivity|lra]]. exists done, []. split; [reflexivity|]. split; [exact SC|]. split; [|intros q s' []].
        intros q s' Hq Hs. rewrite Hd in Hq. apply in_app_iff in Hq. destruct Hq as [Hq|[<-|Hq]].
        -- specialize (H1 q s' Hq Hs). lra.
        -- assert (s' = s) by congruence. lra.
        -- specialize (H2 q s' Hq Hs). lra.
      * injection H as <-. cbn. split; [|exists v; split; [reflexivity|lra]]. exists l1, (l2 ++ [p]). rewrite Hd, <- app_assoc. split; [reflexivity|].
        split; [exact Hp|]. split; [exact H1|]. intros q s' Hq Hs. apply in_app_iff in Hq. destruct Hq as [Hq|[<-|[]]]; [eauto|].
        assert (s' = v) by congruence. lra.
    + destruct HI as (_ & Hp & Hq). injection H as <-. cbn. split; [|exists v; split; [reflexivity|lra]]. exists done, []. split; [reflexivity|]. split; [exact SC|].
      split; [|intros q s' []]. intros q s' Hin Hs. rewrite (Hq q Hin) in Hs. discriminate.
Qed.
Lemma gcv_fold_inv a b icpt range : forall done st st', gcv_inv (gcv_score a b icpt) done st -> foldM (gcv_step a b icpt) range st = Ok st' ->
  gcv_inv (gcv_score a b icpt) (done ++ range) st'.
Proof.
  induction range as [|p ps IH]; cbn [foldM]; intros done st st' HI H.
  - injection H as <-. rewrite app_nil_r. exact HI.
  - apply bind_ok in H. destruct H as (st1 & H1 & H2). replace (done ++ p :: ps) with ((done ++ [p]) ++ ps) by (rewrite <- app_assoc; reflexivity).
    eapply IH; [|exact H2]. eapply gcv_step_inv; eassumption.
Qed.

Theorem C43_cv_picks_best : forall icpt range param a b X, learner_train (LRidge icpt true range param) a b = Ok X ->
  exists p tr dist, ridge_regression a b p icpt = Ok (X, tr, dist) /\
    (first_best (gcv_score a b icpt) range p \/ ((forall q, In q range -> gcv_score a b icpt q = None) /\ p = 0%R)).
Proof.
  intros icpt range param a b X H. cbn [learner_train] in H. apply bind_ok in H. destruct H as (p & Hp & H). apply bind_ok in H. destruct H as ([[x tr] dist] & Hr & H).
  injection H as <-. exists p, tr, dist. split; [exact Hr|]. unfold gcv_param in Hp. apply bind_ok in Hp. destruct Hp as ([[me mp] g] & Hf & Hp). injection Hp as <-. cbn [fst snd].
  assert (I0 : gcv_inv (gcv_score a b icpt) [] (None, f0, None)) by (cbn; repeat split; intros q []).
  pose proof (gcv_fold_inv a b icpt range [] _ _ I0 Hf) as HI. cbn [app] in HI. cbn in HI. destruct me as [s|].
  - left. destruct HI as ((l1 & l2 & Hd & Hs & H1 & H2) & _). exists l1, l2, s. auto.
  - right. destruct HI as (_ & -> & HI). auto.
Qed.

Theorem C43_fixed_param : forall icpt range p a b X, learner_train (LRidge icpt false range (Some p)) a b = Ok X ->
  exists tr dist, ridge_regression a b p icpt = Ok (X, tr, dist).
Proof.
  intros icpt range p a b X H. cbn [learner_train] in H. apply bind_ok in H. destruct H as ([[x tr] dist] & Hr & H). injection H as <-. eauto.
Qed.
(** the constructor: a given parameter switches cross-validation off, unless crossvalidation=True is also given *)
Theorem C43_constructor : forall icpt range p,
  mk_ridge icpt range None (Some p) = Ok (LRidge (match icpt with Some b => b | None => true end) false (match range with Some r => r | None => default_range end) (Some p)) /\
  mk_ridge icpt range None None = Ok (LRidge (match icpt with Some b => b | None => true end) true (match range with Some r => r | None => default_range end) None) /\
  mk_ridge icpt range (Some false) None = Err ValueError.
Proof. intros. repeat split. Qed.
(** the score, independently of the model: the squared error of the solution divided by N (1 - tr(S)/N)^2, where
    S = A P A' is the smoother matrix (Hastie et al. 7.31, 7.52), A with a column of ones when there is an intercept, and P the
    Moore-Penrose inverse of A'A + lambda I (no penalty for the intercept) *)
Definition design (dim : nat) (a : nat -> nat -> R) (i k : nat) : R := if Nat.ltb k dim then a i k else 1%R.
Definition normal_matrix (n dim : nat) (lambda : R) (a : nat -> nat -> R) (k l : nat) : R :=
  (rsum n (fun i => design dim a i k * design dim a i l) + (if Nat.eqb k l then if Nat.ltb k dim then lambda else 0 else 0))%R.
Definition smoother (dim : nat) (icpt : bool) (a P : nat -> nat -> R) (i j : nat) : R :=
  rsum (if icpt then dim + 1 else dim) (fun k => rsum (if icpt then dim + 1 else dim) (fun l => design dim a i k * P k l * design dim a j l))%R.
Definition gcv_value (n dim m : nat) (icpt : bool) (a b P X : nat -> nat -> R) : option R :=
  let tr := rsum n (fun i => smoother dim icpt a P i i) in
  let den := (INR n * ((1 - tr / INR n) * (1 - tr / INR n)))%R in
  if Req_EM_T den 0 then None else Some (ridge_cost n dim m 0 icpt a b X / den)%R.
Theorem C43_score : forall a b lambda icpt X tr dist, pinv_correct -> pinv_converges -> mwf a -> mwf b ->
  ridge_regression a b lambda icpt = Ok (X, tr, dist) ->
  exists P, let xd := if icpt then m_nc a + 1 else m_nc a in
    moore_penrose xd xd (normal_matrix (m_nr a) (m_nc a) lambda (ment a)) P /\
    gcv_score a b icpt lambda = gcv_value (m_nr a) (m_nc a) (m_nc b) icpt (ment a) (ment b) P (ment X).
Proof.
  intros a b lambda icpt X tr dist HP HC Wa Wb H.
  assert (Ht : type_of a = type_of b /\ m_nr a = m_nr b).
  { unfold ridge_regression in H. apply bind_ok in H. destruct H as (? & H1 & H). apply bind_ok in H. destruct H as (? & H2 & _).
    apply same_type_ok in H1. apply check_ok in H2. apply Nat.eqb_eq in H2. auto. }
  destruct Ht as (Ht & Hr). pose proof (vals_self a Wa) as Va. pose proof (vals_self b Wb) as Vb. rewrite <- Ht, <- Hr in Vb.
  destruct (ridge_value a b _ _ _ _ _ _ lambda icpt Va Vb) as (reg & Wr & Rr & Cr & Hg & He & Hv).
  destruct (e_pinv reg) as [P|e] eqn:EP.
  2: { destruct (exn_eq_dec e LinAlgError) as [->|Hne]; [exfalso; exact (HC reg Wr EP)|]. rewrite (He e eq_refl Hne) in H. discriminate. }
  destruct (Hv P eq_refl) as (X' & dist' & Ex & VX & Ed). rewrite Ex in H. injection H as H1 H2 H3. subst X'.
  exists P. cbn zeta. change (if icpt then m_nc a + 1 else m_nc a) with (xdim (m_nc a) icpt).
  pose proof (HP reg P Wr EP) as MP. rewrite Rr, Cr in MP. split.
  - assert (GE : forall k l, k < xdim (m_nc a) icpt -> l < xdim (m_nc a) icpt -> normal_matrix (m_nr a) (m_nc a) lambda (ment a) k l = dent reg k l).
    { intros k l Hk Hl. rewrite (Hg k l Hk Hl). unfold gram, normal_matrix, pen, design, padm. reflexivity. }
    destruct MP as [M1 M2 M3 M4]. constructor.
    + intros i j Hi Hj. rewrite GE by assumption. rewrite <- (M1 i j Hi Hj). apply rsum_ext. intros p Hp. apply rsum_ext. intros q Hq. rewrite !GE by assumption. reflexivity.
    + intros i j Hi Hj. rewrite <- (M2 i j Hi Hj). apply rsum_ext. intros p Hp. apply rsum_ext. intros q Hq. rewrite !GE by assumption. reflexivity.
    + intros i j Hi Hj. rewrite (rsum_ext _ _ (fun p => dent reg i p * P p j)%R) by (intros p Hp; rewrite GE by assumption; reflexivity). rewrite (M3 i j Hi Hj).
      apply rsum_ext. intros p Hp. rewrite GE by assumption. reflexivity.
    + intros i j Hi Hj. rewrite (rsum_ext _ _ (fun p => P i p * dent reg p j)%R) by (intros p Hp; rewrite GE by assumption; reflexivity). rewrite (M4 i j Hi Hj).
      apply rsum_ext. intros p Hp. rewrite GE by assumption. reflexivity.
  - unfold gcv_score. rewrite Ex. unfold gcv_value.
    assert (TR : rsum (m_nr a) (fun i => smoother (m_nc a) icpt (ment a) P i i) =
       rsum (xdim (m_nc a) icpt) (fun k => rsum (m_nr a) (fun i => padm (m_nc a) (ment a) i k * rsum (xdim (m_nc a) icpt) (fun q => P k q * padm (m_nc a) (ment a) i q)))%R).
    { rewrite rsum_swap. apply rsum_ext. intros i Hi. unfold smoother. change (if icpt then m_nc a + 1 else m_nc a) with (xdim (m_nc a) icpt).
      apply rsum_ext. intros k Hk. rewrite <- rsum_scal_l. apply rsum_ext. intros q Hq. unfold design, padm. ring. }
    rewrite <- TR. cbn zeta. set (T := rsum (m_nr a) (fun i => smoother (m_nc a) icpt (ment a) P i i)).
    replace ((1 - T / INR (m_nr a)) * (1 - T / INR (m_nr a)) * INR (m_nr a))%R with (INR (m_nr a) * ((1 - T / INR (m_nr a)) * (1 - T / INR (m_nr a))))%R by ring.
    destruct (Req_EM_T _ 0); [reflexivity|]. f_equal. f_equal. rewrite Ed, sqrt_sqrt.
    + unfold ridge_cost. rewrite Rmult_0_l, Rplus_0_r. apply rsum_ext. intros i Hi. apply rsum_ext. intros c Hc. rewrite predict_mv. reflexivity.
    + apply rsum_nonneg. intros. apply rsum_nonneg. intros. apply Rle_0_sqr.
Qed.
End WithExt.
