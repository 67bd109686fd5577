(** Prop_Nmf.v -- properties C22, C23: non-negative matrix factorisation, over exact reals. *)
From Coq Require Import Reals Lra Psatz.
From Verif Require Import Base PyList Dict Num SpecReal Dense Sparse Matrix PSparse PMatrix PMatOps PShape PVals PReal PPos Scaling Linalg Operation
  Prop_Scaling.
#[local] Existing Instance RNum.
Open Scope R_scope.
Open Scope nat_scope.

(** ** specification *)
(** || V - W H ||^2 (Frobenius) for V : r x c, W : r x k, H : k x c *)
Definition sq_error (r k c : nat) (V W H : nat -> nat -> R) : R :=
  rsum r (fun i => rsum c (fun j => (V i j - rsum k (fun l => W i l * H l j)) * (V i j - rsum k (fun l => W i l * H l j))))%R.
(** the reconstruction error || V - W H || *)
Definition reconstruction_error (v w h : matrix) : R := sqrt (sq_error (m_nr v) (m_nc w) (m_nc v) (ment v) (ment w) (ment h)).

Definition nonneg (r c : nat) (f : nat -> nat -> R) : Prop := forall i j, i < r -> j < c -> (0 <= f i j)%R.

(** ** lemmas *)
Lemma sq_error_ext r k c V V' W W' H H' : (forall i j, i < r -> j < c -> V i j = V' i j) -> (forall i l, i < r -> l < k -> W i l = W' i l) ->
  (forall l j, l < k -> j < c -> H l j = H' l j) -> sq_error r k c V W H = sq_error r k c V' W' H'.
Proof.
  intros E1 E2 E3. unfold sq_error. apply rsum_ext. intros i Hi. apply rsum_ext. intros j Hj. rewrite E1 by assumption.
  rewrite (rsum_ext k (fun l => W i l * H l j)%R (fun l => W' i l * H' l j)%R); [reflexivity|]. intros l Hl. rewrite E2, E3 by assumption. reflexivity.
Qed.
Lemma sq_error_nonneg r k c V W H : (0 <= sq_error r k c V W H)%R.
Proof. unfold sq_error. apply rsum_nonneg. intros. apply rsum_nonneg. intros. apply Rle_0_sqr. Qed.
Lemma sq_error_transpose r k c V W H : sq_error c k r (fun i j => V j i) (fun i j => H j i) (fun i j => W j i) = sq_error r k c V W H.
Proof.
  unfold sq_error. rewrite rsum_swap. apply rsum_ext. intros i Hi. apply rsum_ext. intros j Hj.
  rewrite (rsum_ext k (fun l => H l j * W i l)%R (fun l => W i l * H l j)%R); [reflexivity|]. intros; ring.
Qed.
(** second order expansion of the error in H *)
Lemma sq_error_step r k c V W H D :
  sq_error r k c V W (fun l j => H l j + D l j)%R =
  (sq_error r k c V W H
   + 2 * rsum k (fun a => rsum c (fun j => (rsum k (fun l => rsum r (fun i => W i a * W i l) * H l j) - rsum r (fun i => W i a * V i j)) * D a j))
   + rsum k (fun a => rsum c (fun j => rsum k (fun l => rsum r (fun i => W i a * W i l) * D l j) * D a j)))%R.
Proof.
  set (P := fun i j => rsum k (fun l => W i l * H l j)%R). set (Q := fun i j => rsum k (fun l => W i l * D l j)%R).
  assert (T1 : rsum k (fun a => rsum c (fun j => (rsum k (fun l => rsum r (fun i => W i a * W i l) * H l j) - rsum r (fun i => W i a * V i j)) * D a j))%R
     = rsum r (fun i => rsum c (fun j => (P i j - V i j) * Q i j))%R).
  { transitivity (rsum k (fun a => rsum c (fun j => rsum r (fun i => (P i j - V i j) * (W i a * D a j)))))%R.
    - apply rsum_ext; intros a Ha. apply rsum_ext; intros j Hj.
      assert (E : rsum k (fun l => rsum r (fun i => W i a * W i l) * H l j)%R = rsum r (fun i => W i a * P i j)%R).
      { transitivity (rsum k (fun l => rsum r (fun i => W i a * (W i l * H l j))))%R.
        - apply rsum_ext; intros l Hl. rewrite <- rsum_scal_r. apply rsum_ext; intros; ring.
        - rewrite rsum_swap. apply rsum_ext; intros i Hi. unfold P. rewrite <- rsum_scal_l. reflexivity. }
      rewrite E, <- rsum_minus, <- rsum_scal_r. apply rsum_ext; intros; ring.
    - transitivity (rsum k (fun a => rsum r (fun i => rsum c (fun j => (P i j - V i j) * (W i a * D a j)))))%R.
      { apply rsum_ext; intros a Ha. apply rsum_swap. }
      rewrite rsum_swap. apply rsum_ext; intros i Hi. rewrite rsum_swap. apply rsum_ext; intros j Hj. rewrite rsum_scal_l. reflexivity. }
  assert (T2 : rsum k (fun a => rsum c (fun j => rsum k (fun l => rsum r (fun i => W i a * W i l) * D l j) * D a j))%R
     = rsum r (fun i => rsum c (fun j => Q i j * Q i j))%R).
  { transitivity (rsum k (fun a => rsum c (fun j => rsum r (fun i => Q i j * (W i a * D a j)))))%R.
    - apply rsum_ext; intros a Ha. apply rsum_ext; intros j Hj.
      assert (E : rsum k (fun l => rsum r (fun i => W i a * W i l) * D l j)%R = rsum r (fun i => W i a * Q i j)%R).
      { transitivity (rsum k (fun l => rsum r (fun i => W i a * (W i l * D l j))))%R.
        - apply rsum_ext; intros l Hl. rewrite <- rsum_scal_r. apply rsum_ext; intros; ring.
        - rewrite rsum_swap. apply rsum_ext; intros i Hi. unfold Q. rewrite <- rsum_scal_l. reflexivity. }
      rewrite E, <- rsum_scal_r. apply rsum_ext; intros; ring.
    - transitivity (rsum k (fun a => rsum r (fun i => rsum c (fun j => Q i j * (W i a * D a j)))))%R.
      { apply rsum_ext; intros a Ha. apply rsum_swap. }
      rewrite rsum_swap. apply rsum_ext; intros i Hi. rewrite rsum_swap. apply rsum_ext; intros j Hj. rewrite rsum_scal_l. reflexivity. }
  rewrite T1, T2. clear T1 T2. unfold sq_error. rewrite <- rsum_scal_l, <- !rsum_plus. apply rsum_ext; intros i Hi.
  rewrite <- rsum_scal_l, <- !rsum_plus. apply rsum_ext; intros j Hj.
  assert (E : rsum k (fun l => W i l * (H l j + D l j))%R = (P i j + Q i j)%R).
  { unfold P, Q. rewrite <- rsum_plus. apply rsum_ext; intros; ring. }
  rewrite E. fold (P i j). ring.
Qed.
Lemma pos_part_R (x : R) : @pos_part RNum x = if Rlt_dec 0 x then x else 0%R.
Proof. unfold pos_part. cbn [fltb f0 RNum]. unfold Rltb. destruct (Rlt_dec 0 x); reflexivity. Qed.

Section WithExt.
Context {E : @Ext RNum}.

(** a feasible iterate: right shape, non-negative, error at most e *)
Definition feasible (t : mtype) (r k c : nat) (V W : nat -> nat -> R) (e : R) (h : matrix) : Prop :=
  has h t k c /\ nonneg k c (ment h) /\ (sq_error r k c V W (ment h) <= e)%R.

Lemma nmf_try_feasible t r k c V W e wtw grad h (alpha : R) :
  vals wtw t k k (fun a b => rsum r (fun i => W i a * W i b)%R) ->
  vals grad t k c (fun a j => rsum k (fun l => rsum r (fun i => W i a * W i l) * ment h l j) - rsum r (fun i => W i a * V i j))%R ->
  feasible t r k c V W e h -> (0 < alpha)%R ->
  exists hn b, nmf_try wtw grad h alpha = Ok (hn, b) /\ has hn t k c /\ nonneg k c (ment hn) /\ (b = true -> feasible t r k c V W e hn).
Proof.
  intros Vw Vg (Hh & Nh & Eh) Ha. unfold nmf_try.
  pose proof (vals_of _ _ _ _ Hh) as Vh. pose proof (vals_scal alpha _ _ _ _ _ Vg) as Vs.
  destruct (vals_sub _ _ _ _ _ _ _ Vh Vs) as (h1 & -> & V1). cbn [bind].
  pose proof (vals_get_non_negative _ _ _ _ _ V1) as Vn. set (hn := m_get_non_negative h1) in *. clearbody hn.
  destruct (vals_sub _ _ _ _ _ _ _ Vn Vh) as (d & -> & Vd). cbn [bind].
  destruct (vals_multiply _ _ _ _ _ _ _ Vg Vd) as (gd & -> & Vgd). cbn [bind].
  destruct (vals_mul _ _ _ _ _ _ _ _ Vw Vd) as (wd & -> & Vwd). cbn [bind].
  destruct (vals_multiply _ _ _ _ _ _ _ Vwd Vd) as (wdd & -> & Vwdd). cbn [bind].
  eexists hn, _. split; [reflexivity|]. split; [exact (vals_has _ _ _ _ _ Vn)|].
  set (G := fun a j => (rsum k (fun l => rsum r (fun i => W i a * W i l) * ment h l j) - rsum r (fun i => W i a * V i j))%R) in *.
  set (D := fun a j => (ment hn a j - ment h a j)%R).
  assert (Hn : forall a j, a < k -> j < c -> ment hn a j = (if Rlt_dec 0 (ment h a j - G a j * alpha) then ment h a j - G a j * alpha else 0)%R).
  { intros a j Ha' Hj. rewrite (vals_ent _ _ _ _ _ _ _ Vn Ha' Hj). exact (pos_part_R _). }
  assert (Nn : nonneg k c (ment hn)). { intros a j Ha' Hj. rewrite Hn by assumption. destruct (Rlt_dec _ _); lra. }
  split; [exact Nn|]. intros Hb. cbn [fltb RNum] in Hb. apply Rltb_true in Hb. split; [exact (vals_has _ _ _ _ _ Vn)|]. split; [exact Nn|].
  assert (Sg : m_sum gd = rsum k (fun a => rsum c (fun j => G a j * D a j))%R).
  { rewrite m_sum_R, (vals_nr _ _ _ _ _ Vgd), (vals_nc _ _ _ _ _ Vgd). apply rsum_ext; intros a Ha'. apply rsum_ext; intros j Hj.
    rewrite (vals_ent _ _ _ _ _ _ _ Vgd Ha' Hj). unfold D. rewrite (vals_ent _ _ _ _ _ _ _ Vn Ha' Hj). reflexivity. }
  assert (Sq : m_sum wdd = rsum k (fun a => rsum c (fun j => rsum k (fun l => rsum r (fun i => W i a * W i l) * D l j) * D a j))%R).
  { rewrite m_sum_R, (vals_nr _ _ _ _ _ Vwdd), (vals_nc _ _ _ _ _ Vwdd). apply rsum_ext; intros a Ha'. apply rsum_ext; intros j Hj.
    rewrite (vals_ent _ _ _ _ _ _ _ Vwdd Ha' Hj). unfold D. rewrite (vals_ent _ _ _ _ _ _ _ Vn Ha' Hj). rewrite sumn_rsum.
    change (@fmul RNum) with Rmult. change (@fsub RNum) with Rminus. f_equal. apply rsum_ext; intros l Hl. rewrite (vals_ent _ _ _ _ _ _ _ Vn Hl Hj). reflexivity. }
  rewrite Sg, Sq in Hb.
  assert (Ng : (rsum k (fun a => rsum c (fun j => G a j * D a j)) <= 0)%R).
  { rewrite <- (rsum_0 k). apply rsum_le; intros a Ha'. rewrite <- (rsum_0 c). apply rsum_le; intros j Hj. unfold D. rewrite Hn by assumption.
    pose proof (Nh a j Ha' Hj). destruct (Rlt_dec 0 (ment h a j - G a j * alpha)); nra. }
  rewrite (sq_error_ext r k c V V W W (ment hn) (fun l j => ment h l j + D l j)%R); [|reflexivity|reflexivity|intros; unfold D; rring].
  rewrite sq_error_step. change (fun a => rsum c (fun j => (rsum k (fun l => rsum r (fun i => W i a * W i l) * ment h l j) - rsum r (fun i => W i a * V i j)) * D a j))%R with (fun a => rsum c (fun j => G a j * D a j))%R.
  unfold c99, c05 in Hb. cbn [fofZ RNum] in Hb. toR. lra.
Qed.

Lemma beta_pos : (0 < @nmf_beta RNum)%R.
Proof. unfold nmf_beta. cbn. lra. Qed.
Lemma nmf_inner_feasible n : forall t r k c V W e wtw grad h hp (alpha : R) decr,
  vals wtw t k k (fun a b => rsum r (fun i => W i a * W i b)%R) ->
  vals grad t k c (fun a j => rsum k (fun l => rsum r (fun i => W i a * W i l) * ment h l j) - rsum r (fun i => W i a * V i j))%R ->
  feasible t r k c V W e h -> feasible t r k c V W e hp -> (0 < alpha)%R ->
  exists h' (a' : R), nmf_inner n wtw grad h hp alpha decr = Ok (h', a') /\ feasible t r k c V W e h' /\ (0 < a')%R.
Proof.
  induction n as [|n IH]; intros t r k c V W e wtw grad h hp alpha decr Vw Vg Fh Fp Ha; cbn [nmf_inner]; [eauto|].
  destruct (nmf_try_feasible t r k c V W e wtw grad h alpha Vw Vg Fh Ha) as (hn & b & -> & Hn & Nn & Fb). cbn [bind].
  pose proof beta_pos as Hb. destruct decr, b; cbn [negb].
  - exists hn, alpha. auto.
  - apply (IH t r k c V W e); auto. exact (Rmult_lt_0_compat _ _ Ha Hb).
  - destruct (has_all_close hp hn t k c (proj1 Fp) Hn) as (cl & ->). cbn [bind]. destruct cl; [exists hp, alpha; auto|].
    apply (IH t r k c V W e); auto. exact (Rdiv_lt_0_compat _ _ Ha Hb).
  - exists hp, alpha; auto.
Qed.
Lemma nmf_search_feasible t r k c V W e wtw grad h (alpha : R) :
  vals wtw t k k (fun a b => rsum r (fun i => W i a * W i b)%R) ->
  vals grad t k c (fun a j => rsum k (fun l => rsum r (fun i => W i a * W i l) * ment h l j) - rsum r (fun i => W i a * V i j))%R ->
  feasible t r k c V W e h -> (0 < alpha)%R ->
  exists h' (a' : R), nmf_search wtw grad h alpha = Ok (h', a') /\ feasible t r k c V W e h' /\ (0 < a')%R.
Proof.
  intros Vw Vg Fh Ha. unfold nmf_search.
  destruct (nmf_try_feasible t r k c V W e wtw grad h alpha Vw Vg Fh Ha) as (hn & b & -> & Hn & Nn & Fb). cbn [bind].
  pose proof beta_pos as Hb. destruct b; cbn [negb].
  - destruct (has_all_close h hn t k c (proj1 Fh) Hn) as (cl & ->). cbn [bind]. destruct cl; [exists h, alpha; auto|].
    apply (nmf_inner_feasible 18 t r k c V W e); auto. exact (Rdiv_lt_0_compat _ _ Ha Hb).
  - apply (nmf_inner_feasible 18 t r k c V W e); auto. exact (Rmult_lt_0_compat _ _ Ha Hb).
Qed.
Lemma nmf_sub_loop_feasible n : forall t r k c V W e wtv wtw h (alpha : R),
  vals wtw t k k (fun a b => rsum r (fun i => W i a * W i b)%R) -> vals wtv t k c (fun a j => rsum r (fun i => W i a * V i j))%R ->
  feasible t r k c V W e h -> (0 < alpha)%R ->
  exists h', nmf_sub_loop n wtv wtw h alpha = Ok h' /\ feasible t r k c V W e h'.
Proof.
  induction n as [|n IH]; intros t r k c V W e wtv wtw h alpha Vw Vv Fh Ha; cbn [nmf_sub_loop]; [eauto|].
  pose proof (vals_of _ _ _ _ (proj1 Fh)) as Vh.
  destruct (vals_mul _ _ _ _ _ _ _ _ Vw Vh) as (wh & -> & Vwh). cbn [bind].
  destruct (vals_sub _ _ _ _ _ _ _ Vwh Vv) as (g & -> & Vg). cbn [bind].
  destruct (nmf_search_feasible t r k c V W e wtw g h alpha Vw) as (h' & a' & -> & Fh' & Ha'); [|exact Fh|exact Ha|cbn [bind]; eauto].
  eapply vals_ext; [exact Vg|]. intros i j Hi Hj. cbn beta. rewrite sumn_rsum. reflexivity.
Qed.
Lemma nmf_nlssubprob_feasible t r k c V W e v w wt h :
  vals v t r c V -> vals w t r k W -> vals wt t k r (fun a i => W i a) -> feasible t r k c V W e h ->
  exists h', nmf_nlssubprob v w wt h = Ok h' /\ feasible t r k c V W e h'.
Proof.
  intros Vv Vw Vt Fh. unfold nmf_nlssubprob.
  destruct (vals_mul _ _ _ _ _ _ _ _ Vt Vv) as (wtv & -> & V1). cbn [bind].
  destruct (vals_mul _ _ _ _ _ _ _ _ Vt Vw) as (wtw & -> & V2). cbn [bind].
  apply (nmf_sub_loop_feasible 14 t r k c V W e); [| |exact Fh|unfold nmf_alpha; cbn; lra].
  - eapply vals_ext; [exact V2|]. intros. cbn beta. rewrite sumn_rsum. reflexivity.
  - eapply vals_ext; [exact V1|]. intros. cbn beta. rewrite sumn_rsum. reflexivity.
Qed.
Lemma nmf_loop_feasible n : forall i t r k c V v vt w h,
  vals v t r c V -> vals vt t c r (fun i j => V j i) -> has w t r k -> has h t k c -> nonneg r k (ment w) -> nonneg k c (ment h) ->
  exists w' h', nmf_loop n i v vt w h = Ok (w', h') /\ has w' t r k /\ has h' t k c /\ nonneg r k (ment w') /\ nonneg k c (ment h') /\
    (sq_error r k c V (ment w') (ment h') <= sq_error r k c V (ment w) (ment h))%R.
Proof.
  induction n as [|n IH]; intros i t r k c V v vt w h Vv Vt Hw Hh Nw Nh; cbn [nmf_loop].
  - exists w, h. repeat (split; [assumption || reflexivity|]). apply Rle_refl.
  - destruct (e_timeout i); [exists w, h; repeat (split; [assumption || reflexivity|]); apply Rle_refl|].
    pose proof (vals_of _ _ _ _ Hw) as Vw. pose proof (vals_of _ _ _ _ Hh) as Vh.
    pose proof (vals_transpose _ _ _ _ _ Vh) as Vht. pose proof (vals_transpose _ _ _ _ _ Vw) as Vwt.
    set (e := sq_error r k c V (ment w) (ment h)).
    destruct (nmf_nlssubprob_feasible t c k r (fun i j => V j i) (fun i j => ment h j i) e vt (m_transpose h) h (m_transpose w) Vt Vht Vh) as (ow & -> & Ho & No & Eo).
    { split; [exact (vals_has _ _ _ _ _ Vwt)|]. split; [intros a j Ha Hj; rewrite (vals_ent _ _ _ _ _ _ _ Vwt Ha Hj); apply Nw; assumption|].
      right. unfold e. rewrite <- (sq_error_transpose r k c V (ment w) (ment h)). apply sq_error_ext; [reflexivity|reflexivity|]. intros l j Hl Hj. exact (vals_ent _ _ _ _ _ _ _ Vwt Hl Hj). }
    cbn [bind]. pose proof (vals_transpose _ _ _ _ _ (vals_of _ _ _ _ Ho)) as Vw'.
    assert (Ew' : (sq_error r k c V (ment (m_transpose ow)) (ment h) <= e)%R).
    { eapply Rle_trans; [|exact Eo]. right. rewrite <- (sq_error_transpose r k c V (ment (m_transpose ow)) (ment h)). apply sq_error_ext; [reflexivity|reflexivity|]. intros l j Hl Hj. exact (vals_ent _ _ _ _ _ _ _ Vw' Hj Hl). }
    set (w' := m_transpose ow) in *. clearbody w'.
    assert (Nw' : nonneg r k (ment w')). { intros a j Ha Hj. rewrite (vals_ent _ _ _ _ _ _ _ Vw' Ha Hj). apply No; assumption. }
    destruct (nmf_nlssubprob_feasible t r k c V (ment w') e v w' ow h Vv (vals_of _ _ _ _ (vals_has _ _ _ _ _ Vw'))) as (h' & -> & Hh' & Nh' & Eh').
    { split; [exact Ho|]. intros a j Ha Hj. symmetry. exact (vals_ent _ _ _ _ _ _ _ Vw' Hj Ha). }
    { split; [exact Hh|]. split; [exact Nh|exact Ew']. }
    cbn [bind]. destruct (IH (S i) t r k c V v vt w' h' Vv Vt (vals_has _ _ _ _ _ Vw') Hh' Nw' Nh') as (w2 & h2 & -> & H1 & H2 & H3 & H4 & H5).
    exists w2, h2. repeat (split; [assumption || reflexivity|]). eapply Rle_trans; [exact H5|exact Eh'].
Qed.

Lemma linalg_nmf_feasible v w h : mwf v -> mwf w -> mwf h -> type_of w = type_of v -> type_of h = type_of v ->
  m_nr w = m_nr v -> m_nr h = m_nc w -> m_nc h = m_nc v -> non_negative w -> non_negative h ->
  exists w' h', linalg_nmf v w h = Ok (w', h') /\ has w' (type_of v) (m_nr v) (m_nc w) /\ has h' (type_of v) (m_nc w) (m_nc v) /\
    non_negative w' /\ non_negative h' /\
    (sq_error (m_nr v) (m_nc w) (m_nc v) (ment v) (ment w') (ment h') <= sq_error (m_nr v) (m_nc w) (m_nc v) (ment v) (ment w) (ment h))%R.
Proof.
  intros Wv Ww Wh Tw Th R1 R2 R3 Nw Nh. pose proof (vals_self v Wv) as Vv.
  assert (Hw : has w (type_of v) (m_nr v) (m_nc w)) by (split; auto). assert (Hh : has h (type_of v) (m_nc w) (m_nc v)) by (split; auto).
  destruct (linalg_nmf_has v w h (type_of v) (m_nr v) (m_nc w) (m_nc v) (vals_has _ _ _ _ _ Vv) Hw Hh) as (w' & h' & E1 & E2 & _).
  destruct (nmf_loop_feasible 19 1 (type_of v) (m_nr v) (m_nc w) (m_nc v) (ment v) v (m_transpose v) w h Vv (vals_transpose _ _ _ _ _ Vv) Hw Hh)
    as (w2 & h2 & E3 & A1 & A2 & A3 & A4 & A5).
  { intros i j Hi Hj. apply Nw; lia. } { intros i j Hi Hj. apply Nh; lia. }
  rewrite E2 in E3. assert (w2 = w' /\ h2 = h') as (-> & ->) by (split; congruence).
  exists w', h'. split; [exact E1|]. split; [exact A1|]. split; [exact A2|]. split; [|split; [|exact A5]].
  - destruct A1 as (_&_&B1&B2). intros i j Hi Hj. apply A3; lia.
  - destruct A2 as (_&_&B1&B2). intros i j Hi Hj. apply A4; lia.
Qed.
Lemma vals_to_non_negative a t r c f : vals a t r c f -> vals (m_to_non_negative a) t r c (fun i j => pos_part (f i j)).
Proof.
  intros Va. destruct a as [d|s]; cbn [m_to_non_negative].
  - exact (vals_map_raw pos_part pos_part _ _ _ _ _ Va pos_part_0 (fun x => eq_refl)).
  - apply (vals_map_raw pos_part clip0 _ _ _ _ _ Va).
    + unfold clip0. cbn [fltb f0 RNum]. destruct (Rltb _ _); reflexivity.
    + intros x. unfold clip0, pos_part. cbn [fltb f0 RNum]. unfold Rltb. destruct (Rlt_dec x 0), (Rlt_dec 0 x); lra.
Qed.

(** ** C22 *)
(** for every non-negative starting point of the right shapes, every seed of the random generator and every point at which the
    time limit strikes (both are unconstrained fields of [E]), the factorisation returns factors of shapes m x k and k x n,
    both non-negative *)
Theorem C22_nmf : forall v w h, mwf v -> mwf w -> mwf h -> type_of w = type_of v -> type_of h = type_of v ->
  m_nr w = m_nr v -> m_nr h = m_nc w -> m_nc h = m_nc v -> non_negative w -> non_negative h ->
  exists w' h', linalg_nmf v w h = Ok (w', h') /\ mwf w' /\ mwf h' /\ m_nr w' = m_nr v /\ m_nc w' = m_nc w /\ m_nr h' = m_nc w /\ m_nc h' = m_nc v /\
    non_negative w' /\ non_negative h'.
Proof.
  intros v w h Wv Ww Wh Tw Th R1 R2 R3 Nw Nh. destruct (linalg_nmf_feasible v w h) as (w' & h' & E1 & (A1&A2&A3&A4) & (B1&B2&B3&B4) & C1 & C2 & _); try assumption.
  exists w', h'. auto 10.
Qed.
Lemma v_col_init_nonneg k m : mwf m -> 0 < k -> non_negative m -> non_negative (fst (v_col_init k m)) /\ non_negative (snd (v_col_init k m)).
Proof.
  intros Wm Hk Nm. pose proof (mwf_pos m Wm) as (Hr & Hc). unfold v_col_init. cbn [fst snd].
  assert (P : forall q x, (0 <= x -> 0 <= x / IZR (Z.of_nat (q + 1)))%R).
  { intros q x Hx. rewrite <- INR_IZR_INZ. pose proof (lt_0_INR (q + 1) ltac:(lia)). apply Rmult_le_pos; [exact Hx|]. apply Rlt_le, Rinv_0_lt_compat. assumption. }
  split.
  - pose proof (vals_of_dense (type_of m) (m_nr m) k (fun r i => fdiv (sumn (m_nc m / 5 + 1) (fun q => ment m r (e_rndcol i q mod m_nc m))) (fofZ (Z.of_nat (m_nc m / 5 + 1)))) Hr Hk) as V.
    intros i j Hi Hj. rewrite (vals_nr _ _ _ _ _ V) in Hi. rewrite (vals_nc _ _ _ _ _ V) in Hj. rewrite (vals_ent _ _ _ _ _ _ _ V Hi Hj).
    apply P. rewrite sumn_rsum. apply rsum_nonneg. intros q _. apply Nm; [exact Hi|]. apply Nat.mod_upper_bound. lia.
  - pose proof (vals_of_dense (type_of m) k (m_nc m) (fun i c => fdiv (sumn (m_nr m / 5 + 1) (fun q => ment m (e_rndrow i q mod m_nr m) c)) (fofZ (Z.of_nat (m_nr m / 5 + 1)))) Hk Hc) as V.
    intros i j Hi Hj. rewrite (vals_nr _ _ _ _ _ V) in Hi. rewrite (vals_nc _ _ _ _ _ V) in Hj. rewrite (vals_ent _ _ _ _ _ _ _ V Hi Hj).
    apply P. rewrite sumn_rsum. apply rsum_nonneg. intros q _. apply Nm; [|exact Hj]. apply Nat.mod_upper_bound. lia.
Qed.
(** applying Nmf(k): rejected with ValueError exactly when an entry is negative (unless pinv itself fails); otherwise the reduced
    matrix is non-negative, has the rows of the input and k columns, and is the first factor of a factorisation whose error is at
    most that of the random starting point *)
Theorem C22_apply : forall k m, mwf m -> 0 < k ->
  (~ non_negative m -> op_apply (create_operation (TDim DNmf k)) m = Err ValueError) /\
  (forall r o, op_apply (create_operation (TDim DNmf k)) m = Ok (r, o) ->
     non_negative m /\ mwf r /\ type_of r = TDense /\ m_nr r = m_nr m /\ m_nc r = k /\ non_negative r).
Proof.
  intros k m Wm Hk. destruct (assert_positive_iff m Wm) as (AP & AD). cbn [create_operation op_apply dimred_apply]. unfold nmf_apply. split.
  - intros Hn. destruct AD as [A|A]; [exfalso; apply Hn; intros i j Hi Hj; apply AP; assumption|]. rewrite A. reflexivity.
  - intros r o H. destruct AD as [A|A]; rewrite A in H; [|discriminate]. cbn [bind] in H.
    assert (Nm : non_negative m) by (intros i j Hi Hj; apply AP; assumption). split; [exact Nm|].
    destruct (v_col_init_nonneg k m Wm Hk Nm) as (N1 & N2). destruct (v_col_init_has k m Wm Hk) as ((A1&A2&A3&A4) & (B1&B2&B3&B4)).
    destruct (v_col_init k m) as (w0 & h0). cbn [fst snd] in *.
    destruct (linalg_nmf_feasible m w0 h0 Wm A1 B1 A2 B2 A3) as (w' & h' & En & Hw' & Hh' & N3 & N4 & _); [congruence|congruence|assumption|assumption|].
    rewrite En in H. cbn [bind] in H. apply bind_ok in H. destruct H as ([r0 tm] & H1 & H). apply bind_ok in H1. destruct H1 as (p & _ & H1). injection H1 as <- <-.
    assert (r = conv TDense w') as -> by (injection H; auto). rewrite A4 in Hw'.
    destruct Hw' as (C1&C2&C3&C4). split; [apply conv_wf, C1|]. split; [apply conv_type|]. split; [rewrite conv_nr; exact C3|]. split; [rewrite conv_nc; exact C4|].
    intros i j Hi Hj. rewrite conv_nr in Hi. rewrite conv_nc in Hj. rewrite ment_conv by assumption. apply N3; assumption.
Qed.
(** ... and peripheral rows get non-negative coordinates, whatever the stored transformation *)
Theorem C22_project : forall k tm m r, mwf m -> mwf tm -> op_project (OpDim DNmf k (Some tm)) m = Ok r -> mwf r /\ m_nr r = m_nr m /\ non_negative r.
Proof.
  intros k tm m r Wm Wt H. destruct (op_project_wf (OpDim DNmf k (Some tm)) m r Wm Wt H) as (Wr & Nr). split; [exact Wr|]. split; [exact Nr|].
  cbn [op_project] in H. unfold dim_project in H. apply bind_ok in H. destruct H as (u0 & _ & H).
  apply bind_ok in H. destruct H as ([m' tm'] & H1 & H). apply bind_ok in H. destruct H as (r1 & Hm1 & H).
  assert (Er : r = conv TDense (m_to_non_negative r1)) by congruence. subst r.
  destruct (resolve2_ok _ _ _ _ _ Wm Wt H1) as (Wm' & Wt' & Tt & _ & _). apply m_mul_ok in Hm1; [|assumption|assumption]. destruct Hm1 as (_ & _ & Hi).
  pose proof (vals_conv TDense _ _ _ _ _ (vals_to_non_negative _ _ _ _ _ (vals_self r1 (proj1 (is_mat_has _ _ _ Hi))))) as V.
  intros i j Hi' Hj'. rewrite (vals_nr _ _ _ _ _ V) in Hi'. rewrite (vals_nc _ _ _ _ _ V) in Hj'.
  rewrite (vals_ent _ _ _ _ _ _ _ V Hi' Hj'). rewrite pos_part_R. destruct (Rlt_dec _ _); lra.
Qed.

(** ** C23 *)
(** the factors returned never reconstruct V worse than the starting point does *)
Theorem C23_error : forall v w h w' h', mwf v -> mwf w -> mwf h -> type_of w = type_of v -> type_of h = type_of v ->
  m_nr w = m_nr v -> m_nr h = m_nc w -> m_nc h = m_nc v -> non_negative w -> non_negative h ->
  linalg_nmf v w h = Ok (w', h') -> (reconstruction_error v w' h' <= reconstruction_error v w h)%R.
Proof.
  intros v w h w' h' Wv Ww Wh Tw Th R1 R2 R3 Nw Nh H.
  destruct (linalg_nmf_feasible v w h) as (w2 & h2 & E1 & (A1&A2&A3&A4) & _ & _ & _ & Er); try assumption.
  rewrite E1 in H. assert (w2 = w' /\ h2 = h') as (-> & ->) by (split; congruence).
  unfold reconstruction_error. rewrite A4. apply sqrt_le_1; [apply sq_error_nonneg|apply sq_error_nonneg|exact Er].
Qed.
End WithExt.

(** *** example: V = [2 1], W0 = [1], H0 = [1 1] *)
Definition vex : @matrix RNum := MD (@DM RNum 1 2 [[2;1]])%R.
Definition wex : @matrix RNum := MD (@DM RNum 1 1 [[1]])%R.
Definition hex : @matrix RNum := MD (@DM RNum 1 2 [[1;1]])%R.
Example C22_example : mwf vex /\ mwf wex /\ mwf hex /\ non_negative wex /\ non_negative hex /\ reconstruction_error vex wex hex = 1%R.
Proof.
  split; [repeat split; cbn; try lia; repeat constructor|]. split; [repeat split; cbn; try lia; repeat constructor|].
  split; [repeat split; cbn; try lia; repeat constructor|].
  assert (D : forall i, i < 2 -> i = 0 \/ i = 1) by (intros; lia).
  split; [|split].
  - intros i j Hi Hj. cbn in Hi, Hj. replace i with 0 by lia. replace j with 0 by lia. cbn. lra.
  - intros i j Hi Hj. cbn in Hi, Hj. replace i with 0 by lia. destruct (D j Hj) as [-> | ->]; cbn; lra.
  - unfold reconstruction_error, sq_error. cbn. transitivity (sqrt 1); [f_equal; ring|apply sqrt_1].
Qed.
