(** Prop_AxesSvd.v -- property C103: an SVD reduction that loses nothing only changes the axes. *)
From Coq Require Import Reals Lra Psatz.
From Verif Require Import Base PyList Dict Num SpecReal Dense Sparse Matrix PSparse PMatrix PMatOps PShape PVals PReal PPos PSort Scaling Linalg
  PLsq Learner Operation Similarity Space Peripheral SpecSpace PDictList PSpace Prop_Space Prop_Sim Prop_Neigh PMoved Prop_Svd PEckart Prop_SvdBest Prop_Periph PCols Prop_Order Prop_Counts Prop_Unit
  Composition SpecComp PComp Prop_Ridge Prop_Train Prop_Comp Prop_Axes.
#[local] Existing Instance RNum.
Open Scope string_scope.
Open Scope list_scope.
Open Scope R_scope.
Open Scope nat_scope.

(** ** specification *)
(** the matrix has rank at most k: it is a product of a matrix with k columns and one with k rows *)
Definition rank_at_most (k : nat) (m : matrix) : Prop :=
  exists X Y : nat -> nat -> R, forall i j, i < m_nr m -> j < m_nc m -> ment m i j = rsum k (fun a => X i a * Y a j)%R.
(** every row of p is a linear combination of the rows of m *)
Definition in_row_space (p m : matrix) : Prop :=
  forall i, i < m_nr p -> exists c : nat -> R, forall j, j < m_nc m -> ment p i j = rsum (m_nr m) (fun q => c q * ment m q j)%R.

Section WithExt.
Context {E : @Ext RNum}.
(** numpy returns no singular value that is positive but too small for the code to keep it (Linalg: 1e-12), for a dense matrix *)
Definition no_tiny (m : matrix) : Prop := match m with
  | MD d => forall u s vt a, e_svd d = Ok (u, s, vt) -> a < Nat.min (d_nr d) (d_nc d) -> s a = 0%R \/ (tolerance < s a)%R
  | MS _ => True end.

(** ** lemmas *)
Lemma leading_correct : sparsesvd_leading -> sparsesvd_correct.
Proof.
  intros H c k dim ut s vt W Es. destruct (H c k dim ut s vt W Es) as (N & u' & s' & v' & HT & _ & _ & _ & Hd & Ha & _). split.
  - intros a b Qa Qb. rewrite <- (st_left _ _ _ _ _ _ _ HT a b) by lia. apply rsum_ext. intros i Hi. rewrite (proj1 (proj2 (Ha a Qa)) i Hi), (proj1 (proj2 (Ha b Qb)) i Hi). reflexivity.
  - intros a b Qa Qb. rewrite <- (st_right _ _ _ _ _ _ _ HT a b) by lia. apply rsum_ext. intros i Hi. rewrite (proj2 (proj2 (Ha a Qa)) i Hi), (proj2 (proj2 (Ha b Qb)) i Hi). reflexivity.
  - intros i a Hi Qa. destruct (Ha a Qa) as (<- & Hu & Hv). rewrite <- (Hu i Hi). rewrite <- (st_mul _ _ _ _ _ _ _ HT i a) by lia. apply rsum_ext. intros j Hj. rewrite (Hv j Hj). reflexivity.
Qed.
Lemma tail_zero r c N f u s v k (X Y : nat -> nat -> R) : singular_triples r c N f u s v -> reconstructs r c N f u s v -> non_increasing N s -> (forall a, a < N -> (0 <= s a)%R) ->
  (forall i j, i < r -> j < c -> f i j = rsum k (fun a => X i a * Y a j)%R) -> forall a, k <= a -> a < N -> s a = 0%R.
Proof.
  intros HT HR HD HN HX a Ha Ha'. pose proof (eckart_young r c N f u s v HT HR HD HN k X Y) as K.
  assert (Z : rsum r (fun i => sqd c (f i) (comb k (X i) Y)) = 0%R).
  { apply rsum_zero. intros i Hi. unfold sqd. apply rsum_zero. intros j Hj. rewrite (HX i j Hi Hj). unfold comb. ring. }
  rewrite Z in K. replace N with (k + (N - k)) in K at 1 by lia. rewrite Nat.min_l, rsum_app in K by lia.
  assert (S2 : (rsum (N - k) (fun b => s (k + b)%nat * s (k + b)%nat) <= 0)%R) by lra.
  assert (Q : (s a * s a <= rsum (N - k) (fun b => s (k + b)%nat * s (k + b)%nat))%R).
  { pose proof (rsum_term_le (N - k) (fun b => s (k + b)%nat * s (k + b)%nat)%R (a - k)) as P. cbn beta in P. replace (k + (a - k)) with a in P by lia. apply P; [|lia]. intros. apply Rle_0_sqr. }
  assert (s a * s a = 0)%R by (pose proof (Rle_0_sqr (s a)) as P; unfold Rsqr in P; lra). apply Rmult_integral in H. tauto.
Qed.
Lemma gram_of m us v n N u s vt z k : svd_result k m us v n u s vt z -> sign z -> n <= N ->
  singular_triples (m_nr m) (m_nc m) N (ment m) u s vt -> reconstructs (m_nr m) (m_nc m) N (ment m) u s vt -> (forall a, n <= a -> a < N -> s a = 0%R) ->
  forall i i', i < m_nr m -> i' < m_nr m -> dot (m_nc m) (ment m i) (ment m i') = dot n (ment (conv TDense us) i) (ment (conv TDense us) i').
Proof.
  intros (Vu & _) Hz Hn HT HR HZ i i' Hi Hi'. pose proof (vals_conv TDense _ _ _ _ _ Vu) as V. rewrite (gram_full _ _ N _ u s vt i i' HT HR Hi Hi').
  replace N with (n + (N - n)) by lia. rewrite rsum_app, (rsum_zero (N - n)).
  - rewrite Rplus_0_r. unfold dot. apply rsum_ext. intros a Ha. rewrite (vals_ent _ _ _ _ _ i a V Hi Ha), (vals_ent _ _ _ _ _ i' a V Hi' Ha).
    transitivity (z * z * (s a * u i a * (s a * u i' a)))%R; [rewrite (sign_sq z Hz)|]; ring.
  - intros a Ha. rewrite (HZ (n + a)) by lia. ring.
Qed.

Lemma cross_of m us v n N u s vt z k : svd_result k m us v n u s vt z -> sign z -> n <= N ->
  reconstructs (m_nr m) (m_nc m) N (ment m) u s vt -> (forall a, n <= a -> a < N -> s a = 0%R) ->
  forall i x, i < m_nr m -> rsum n (fun a => rsum (m_nc m) (fun j => x j * ment v j a) * ment (conv TDense us) i a)%R = dot (m_nc m) x (ment m i).
Proof.
  intros (Vu & Vv) Hz Hn HR HZ i x Hi. pose proof (vals_conv TDense _ _ _ _ _ Vu) as V.
  transitivity (rsum n (fun a => rsum (m_nc m) (fun j => x j * (u i a * s a * vt a j))))%R.
  { apply rsum_ext. intros a Ha. rewrite (vals_ent _ _ _ _ _ i a V Hi Ha), Rmult_comm, <- rsum_scal_l. apply rsum_ext. intros j Hj. rewrite (vals_ent _ _ _ _ _ j a Vv Hj Ha).
    transitivity (z * z * (x j * (u i a * s a * vt a j)))%R; [|rewrite (sign_sq z Hz)]; ring. }
  rewrite rsum_swap. unfold dot. apply rsum_ext. intros j Hj. rewrite rsum_scal_l. f_equal. rewrite (HR i j Hi Hj).
  replace N with (n + (N - n)) by lia. rewrite rsum_app, (rsum_zero (N - n)); [ring|]. intros a Ha. rewrite (HZ (n + a)) by lia. ring.
Qed.

(** the reduced matrix has the same dot products *)
Lemma svd_gram k m r o : mwf m -> 0 < k -> numpy_svd_correct -> sparsesvd_leading -> rank_at_most k m -> no_tiny m ->
  op_apply (create_operation (TDim DSvd k)) m = Ok (r, o) ->
  mwf r /\ m_nr r = m_nr m /\ (exists v, o = OpDim DSvd k (Some v) /\ mwf v /\ m_nr v = m_nc m /\ m_nc v = m_nc r /\
    forall i x, i < m_nr m -> rsum (m_nc r) (fun a => rsum (m_nc m) (fun j => x j * ment v j a) * ment r i a)%R = dot (m_nc m) x (ment m i)) /\
  forall i i', i < m_nr m -> i' < m_nr m -> dot (m_nc m) (ment m i) (ment m i') = dot (m_nc r) (ment r i) (ment r i').
Proof.
  intros W Hk HN HS (X & Y & HX) HT0 HA.
  assert (Fin : forall us v n N u s vt z, svd_result k m us v n u s vt z -> sign z -> n <= N -> r = conv TDense us -> o = OpDim DSvd k (Some v) ->
    singular_triples (m_nr m) (m_nc m) N (ment m) u s vt -> reconstructs (m_nr m) (m_nc m) N (ment m) u s vt -> (forall a, n <= a -> a < N -> s a = 0%R) ->
    mwf r /\ m_nr r = m_nr m /\ (exists v, o = OpDim DSvd k (Some v) /\ mwf v /\ m_nr v = m_nc m /\ m_nc v = m_nc r /\
    forall i x, i < m_nr m -> rsum (m_nc r) (fun a => rsum (m_nc m) (fun j => x j * ment v j a) * ment r i a)%R = dot (m_nc m) x (ment m i)) /\
    forall i i', i < m_nr m -> i' < m_nr m -> dot (m_nc m) (ment m i) (ment m i') = dot (m_nc r) (ment r i) (ment r i')).
  { intros us v n N u s vt z HR Hz Hn Er Eo HT HRec HZ. pose proof (vals_conv TDense _ _ _ _ _ (proj1 HR)) as V. subst r.
    split; [exact (vals_wf _ _ _ _ _ V)|]. split; [exact (vals_nr _ _ _ _ _ V)|]. rewrite (vals_nc _ _ _ _ _ V).
    split; [exists v; split; [exact Eo|]; split; [exact (vals_wf _ _ _ _ _ (proj2 HR))|]; split; [exact (vals_nr _ _ _ _ _ (proj2 HR))|]; split; [exact (vals_nc _ _ _ _ _ (proj2 HR))|];
      exact (cross_of m us v n N u s vt z k HR Hz Hn HRec HZ)|].
     exact (gram_of m us v n N u s vt z k HR Hz Hn HT HRec HZ). }
  destruct m as [d|c].
  - destruct (e_svd d) as [[[u s] vt]|e] eqn:Es.
    2:{ cbn [create_operation op_apply dimred_apply] in HA. unfold svd_apply, linalg_svd in HA. destruct (negb (Nat.eqb k 0)); cbn [check bind] in HA; [|discriminate].
        unfold dense_svd in HA. rewrite Es in HA. discriminate. }
    destruct (HN d u s vt W Es) as (HT & HRec & HNI & HNN). set (N := Nat.min (d_nr d) (d_nc d)) in *.
    cbn [create_operation op_apply dimred_apply] in HA. pose proof (dense_svd_value k d W Hk HN u s vt Es) as HV. cbn zeta in HV.
    set (rank := count (Rltb tolerance) (map s (seq 0 N))). assert (Hn : dense_dims d s k = Nat.min N (Nat.min k rank)) by reflexivity.
    set (n := dense_dims d s k) in *. destruct (Nat.eqb n 0); [rewrite HV in HA; discriminate|]. destruct HV as (us & v & z & E1 & Hz & HR). rewrite E1 in HA. cbn [bind] in HA.
    assert (Er : r = conv TDense us /\ o = OpDim DSvd k (Some v)) by (injection HA as HA1 HA2; auto).
    apply (Fin us v n N u s vt z HR Hz ltac:(lia) (proj1 Er) (proj2 Er) HT HRec). intros a Ha Ha'. destruct (le_lt_dec k a) as [L|L].
    + exact (tail_zero _ _ N _ u s vt k X Y HT HRec HNI HNN HX a L Ha').
    + destruct (HT0 u s vt a Es Ha') as [Z|Z]; [exact Z|exfalso]. assert (Z2 : a < rank) by exact (proj2 (count_threshold s tolerance N HNI a Ha') Z). lia.
  - destruct (e_sparsesvd c (k + k / 10)) as [[[[dim ut] s] vt]|e] eqn:Es.
    2:{ cbn [create_operation op_apply dimred_apply] in HA. unfold svd_apply, linalg_svd in HA. destruct (negb (Nat.eqb k 0)); cbn [check bind] in HA; [|discriminate].
        unfold sparse_svd in HA. rewrite Es in HA. discriminate. }
    destruct (HS c _ dim ut s vt W Es) as (N & u' & s' & v' & HT & HRec & HNI & HNN & Hdim & Hag & Hz0).
    cbn [create_operation op_apply dimred_apply] in HA. pose proof (sparse_svd_value k c W Hk dim ut s vt Es) as HV. cbn zeta in HV.
    set (n := Nat.min dim k) in *. destruct (Nat.eqb n 0); [rewrite HV in HA; discriminate|]. destruct HV as (us & v & z & E1 & Hz & HR). rewrite E1 in HA. cbn [bind] in HA.
    assert (Er : r = conv TDense us /\ o = OpDim DSvd k (Some v)) by (injection HA as HA1 HA2; auto).
    assert (HR' : svd_result k (MS c) us v n u' s' v' z).
    { destruct HR as (Vu & Vv). cbn [m_nr m_nc] in Vu, Vv. split; cbn [m_nr m_nc].
      - eapply vals_ext; [exact Vu|]. intros i a Hi Ha. destruct (Hag a ltac:(lia)) as (-> & Hu & _). cbn beta. rewrite (Hu i Hi). reflexivity.
      - eapply vals_ext; [exact Vv|]. intros j a Hj Ha. destruct (Hag a ltac:(lia)) as (_ & _ & Hv). cbn beta. rewrite (Hv j Hj). reflexivity. }
    apply (Fin us v n N u' s' v' z HR' Hz ltac:(lia) (proj1 Er) (proj2 Er) HT HRec). intros a Ha Ha'. destruct (le_lt_dec k a) as [L|L].
    + exact (tail_zero _ _ N _ u' s' v' k X Y HT HRec HNI HNN HX a L Ha').
    + apply Hz0; lia.
Qed.
(** projecting is multiplying with a fixed matrix *)
Lemma project_linear v k m2 r2 : mwf v -> mwf m2 -> op_project (OpDim DSvd k (Some v)) m2 = Ok r2 ->
  m_nc m2 = m_nr v /\ m_nr r2 = m_nr m2 /\ m_nc r2 = m_nc v /\ forall i a, i < m_nr m2 -> a < m_nc v -> ment r2 i a = rsum (m_nr v) (fun j => ment m2 i j * ment v j a)%R.
Proof.
  intros Wv W H. cbn [op_project] in H. unfold dim_project in H. cbn [bind] in H.
  apply bind_ok in H. destruct H as ([m' tm'] & H1 & H). apply bind_ok in H. destruct H as (p & Hp & H). assert (Er : r2 = conv TDense p) by congruence. subst r2. clear H.
  destruct (resolve2_ok _ _ _ _ _ W Wv H1) as (W' & Wt' & Tt & D1 & D2).
  destruct (m_mul_ok _ _ _ W' Wt' Hp) as (_ & Hc & _).
  assert (N1 : m_nr m' = m_nr m2 /\ m_nc m' = m_nc m2). { rewrite <- (to_dense_nr m'), <- (to_dense_nr m2), <- (to_dense_nc m'), <- (to_dense_nc m2), D1. auto. }
  assert (N2 : m_nr tm' = m_nr v /\ m_nc tm' = m_nc v). { rewrite <- (to_dense_nr tm'), <- (to_dense_nr v), <- (to_dense_nc tm'), <- (to_dense_nc v), D2. auto. }
  destruct N1 as (R1 & C1), N2 as (R2 & C2).
  assert (V1 : vals m' (type_of m') (m_nr m2) (m_nr v) (ment m2)).
  { eapply vals_ext; [pose proof (vals_self m' W') as V; rewrite R1 in V; replace (m_nc m') with (m_nr v) in V by congruence; exact V|].
    intros i j Hi Hj. rewrite <- (dent_to_dense m' i j) by lia. rewrite <- (dent_to_dense m2 i j) by lia. rewrite D1. reflexivity. }
  assert (V2 : vals tm' (type_of m') (m_nr v) (m_nc v) (ment v)).
  { rewrite Tt. eapply vals_ext; [pose proof (vals_self tm' Wt') as V; rewrite R2, C2 in V; exact V|].
    intros j a Hj Ha. rewrite <- (dent_to_dense tm' j a) by lia. rewrite D2, (dent_to_dense v j a) by assumption. reflexivity. }
  destruct (vals_mul _ _ _ _ _ _ _ _ V1 V2) as (p' & Ep & Vp). rewrite Ep in Hp. assert (Er : p' = p) by congruence. subst p'.
  pose proof (vals_conv TDense _ _ _ _ _ Vp) as V.
  split; [congruence|]. split; [exact (vals_nr _ _ _ _ _ V)|]. split; [exact (vals_nc _ _ _ _ _ V)|]. intros i a Hi Ha.
  rewrite (vals_ent _ _ _ _ _ i a V Hi Ha). cbn beta. rewrite sumn_rsum. reflexivity.
Qed.

(** ** an SVD that keeps at least as many dimensions as the rank only changes the axes *)
Theorem C103_svd : forall k s s', consistent s -> 0 < k -> numpy_svd_correct -> sparsesvd_leading -> rank_at_most k (s_mat s) -> no_tiny (s_mat s) ->
  space_apply s (TDim DSvd k) = Ok s' -> same_geometry (m_nc (s_mat s)) (m_nc (s_mat s')) [(s, s')].
Proof.
  intros k s s' C Hk HN HS HX HT H.
  destruct (space_apply_ok s (TDim DSvd k) s' C Hk H) as (r & o & o0 & ic & ci & HA & Es & _ & _ & _ & _ & C').
  destruct (svd_gram k (s_mat s) r o0 (proj1 C) Hk HN HS HX HT HA) as (Wr & Rr & _ & G). subst s'. cbn [s_mat s_id2row] in *. split.
  - intros a b [K|[]]. injection K as <- <-. auto.
  - intros a a' b b' w v [K|[]] [K'|[]] Hw Hv. injection K as <- <-. injection K' as <- <-.
    destruct (In_nth_error _ _ Hw) as (p & Hp). destruct (In_nth_error _ _ Hv) as (q & Hq).
    pose proof C as (_ & L & _). assert (p < m_nr (s_mat s)) by (rewrite <- L; apply nth_error_Some; congruence). assert (q < m_nr (s_mat s)) by (rewrite <- L; apply nth_error_Some; congruence).
    rewrite (dot_ext _ (vec s w) (vec s v) (ment (s_mat s) p) (ment (s_mat s) q)) by (intros j _; apply vec_at; assumption).
    rewrite (G p q) by assumption. apply dot_ext; intros j _; symmetry; [exact (vec_at _ p w j C' Hp)|exact (vec_at _ q v j C' Hq)].
Qed.
(** peripheral spaces of the two core spaces over the same data *)
Definition svd_pair (k : nat) (s s' p p' : space) : Prop :=
  consistent s /\ 0 < k /\ numpy_svd_correct /\ sparsesvd_leading /\ rank_at_most k (s_mat s) /\ no_tiny (s_mat s) /\ space_apply s (TDim DSvd k) = Ok s' /\
  exists data rows ids, mwf data /\ opt_dict ids /\ mk_peripheral s data rows ids = Ok p /\ mk_peripheral s' data rows ids = Ok p'.
Lemma pair_vectors k s s' p p' : svd_pair k s s' p p' -> m_nc (s_mat p) = m_nc (s_mat s) ->
  consistent s' /\ consistent p /\ consistent p' /\ s_id2row s' = s_id2row s /\ s_id2row p' = s_id2row p /\ m_nc (s_mat p') = m_nc (s_mat s') /\
  exists v, m_nr v = m_nc (s_mat s) /\ m_nc v = m_nc (s_mat s') /\
    (forall i a, i < m_nr (s_mat p) -> a < m_nc (s_mat s') -> ment (s_mat p') i a = rsum (m_nc (s_mat s)) (fun j => ment (s_mat p) i j * ment v j a)%R) /\
    (forall i a, i < m_nr (s_mat s) -> a < m_nc (s_mat s') -> ment (s_mat s') i a = rsum (m_nc (s_mat s)) (fun j => ment (s_mat s) i j * ment v j a)%R) /\
    forall i x, i < m_nr (s_mat s) -> rsum (m_nc (s_mat s')) (fun a => rsum (m_nc (s_mat s)) (fun j => x j * ment v j a) * ment (s_mat s') i a)%R = dot (m_nc (s_mat s)) x (ment (s_mat s) i).
Proof.
  intros (C & Hk & HN & HS & HX & HT & H & data & rows & ids & Wd & Hids & Hp & Hp') Hn.
  destruct (space_apply_ok s (TDim DSvd k) s' C Hk H) as (r & o & o0 & ic & ci & HA & Es & Eo & _ & _ & _ & C').
  destruct (svd_gram k (s_mat s) r o0 (proj1 C) Hk HN HS HX HT HA) as (Wr & Rr & (v & Ev & Wv & Rv & Cv & X) & _).
  destruct (mk_peripheral_ok s data rows ids p C Wd Hids Hp) as (c & pm & d & P & Ep & _ & Wpm & Rpm & Cp).
  destruct (mk_peripheral_ok s' data rows ids p' C' Wd Hids Hp') as (c' & pm' & d' & P' & Ep' & _ & Wpm' & Rpm' & Cp').
  apply project_ops_inv in P. apply project_ops_inv in P'. destruct P as (_ & P), P' as (_ & P').
  assert (Eops : s_ops s' = s_ops s ++ [o]) by (rewrite Es; reflexivity). rewrite Eops, project_all_app, P in P'. cbn [bind project_all] in P'.
  subst o. rewrite Ev in P'. destruct (op_project (OpDim DSvd k (Some v)) pm) as [q|e] eqn:Q; [|discriminate P']. cbn [bind] in P'. assert (q = pm') by congruence. subst q.
  destruct (project_linear v k pm pm' Wv Wpm Q) as (_ & R2 & N2 & V2).
  pose proof (apply_then_project (TDim DSvd k) (s_mat s) r o0 HN (leading_correct HS) (proj1 C) Hk I HA) as Q0. rewrite Ev in Q0.
  destruct (project_linear v k (s_mat s) r Wv (proj1 C) Q0) as (_ & _ & N0 & V0).
  assert (Em : s_mat s' = r) by (rewrite Es; reflexivity). assert (Ep1 : s_mat p = pm) by (rewrite Ep; reflexivity). assert (Ep2 : s_mat p' = pm') by (rewrite Ep'; reflexivity).
  assert (Ei : s_id2row s' = s_id2row s) by (rewrite Es; reflexivity). assert (Ei' : s_id2row p' = s_id2row p) by (rewrite Ep, Ep'; reflexivity).
  split; [exact C'|]. split; [exact Cp|]. split; [exact Cp'|]. split; [exact Ei|]. split; [exact Ei'|]. split; [congruence|].
  rewrite Em, Ep1, Ep2. rewrite Rv, Cv in *. exists v. split; [exact Rv|]. split; [exact Cv|]. split; [exact V2|]. split; [exact V0|exact X].
Qed.
Lemma row_lt s i w : consistent s -> nth_error (s_id2row s) i = Some w -> i < m_nr (s_mat s).
Proof. intros (_ & L & _) H. rewrite <- L. apply nth_error_Some. congruence. Qed.
(** every peripheral vector, whatever its data, keeps its dot product with every core vector *)
Lemma cross_dots k s s' p p' w v : svd_pair k s s' p p' -> m_nc (s_mat p) = m_nc (s_mat s) -> In w (s_id2row p) -> In v (s_id2row s) ->
  dot (m_nc (s_mat s)) (vec p w) (vec s v) = dot (m_nc (s_mat s')) (vec p' w) (vec s' v).
Proof.
  intros HP Hn Hw Hv. destruct (pair_vectors k s s' p p' HP Hn) as (C' & Cp & Cp' & Ei & Ei' & Hn' & x & _ & _ & V2 & V0 & X). destruct HP as (C & _).
  destruct (In_nth_error _ _ Hw) as (i & Hi). destruct (In_nth_error _ _ Hv) as (q & Hq). pose proof (row_lt _ _ _ Cp Hi) as Li. pose proof (row_lt _ _ _ C Hq) as Lq.
  rewrite (dot_ext _ (vec p w) (vec s v) (ment (s_mat p) i) (ment (s_mat s) q)) by (intros j _; apply vec_at; assumption).
  rewrite <- (X q (ment (s_mat p) i) Lq). unfold dot. apply rsum_ext. intros a Ha.
  rewrite (vec_at p' i w a Cp') by (rewrite Ei'; exact Hi). rewrite (vec_at s' q v a C') by (rewrite Ei; exact Hq). rewrite (V2 i a Li Ha). reflexivity.
Qed.
Theorem C103_svd_peripheral : forall k s s' p p', svd_pair k s s' p p' -> in_row_space (s_mat p) (s_mat s) -> m_nc (s_mat p) = m_nc (s_mat s) ->
  same_geometry (m_nc (s_mat s)) (m_nc (s_mat s')) [(s, s'); (p, p')].
Proof.
  intros k s s' p p' HP HI Hn. destruct (pair_vectors k s s' p p' HP Hn) as (C' & Cp & Cp' & Ei & Ei' & Hn' & x & _ & _ & V2 & V0 & X).
  pose proof HP as (C & Hk & HN & HS & HX & HT & H & _). pose proof (C103_svd k s s' C Hk HN HS HX HT H) as G. split.
  - intros a b [K|[K|[]]]; injection K as <- <-; auto.
  - assert (PP : forall w v, In w (s_id2row p) -> In v (s_id2row p) -> dot (m_nc (s_mat s)) (vec p w) (vec p v) = dot (m_nc (s_mat s')) (vec p' w) (vec p' v)).
    { intros w v Hw Hv. destruct (In_nth_error _ _ Hv) as (q & Hq). pose proof (row_lt _ _ _ Cp Hq) as Lq. destruct (HI q Lq) as (c & Hc).
      set (r0 := m_nr (s_mat s)) in *. set (cw := fun t => nth t (s_id2row s) "").
      assert (Icw : forall t, t < r0 -> nth_error (s_id2row s) t = Some (cw t)) by (intros t Ht; apply nth_error_nth'; destruct C as (_ & L & _); rewrite L; exact Ht).
      assert (L1 : forall j, j < m_nc (s_mat s) -> vec p v j = rsum r0 (fun t => c t * vec s (cw t) j)%R).
      { intros j Hj. rewrite (vec_at p q v j Cp Hq), (Hc j Hj). apply rsum_ext. intros t Ht. rewrite (vec_at s t (cw t) j C (Icw t Ht)). reflexivity. }
      assert (L2 : forall a, a < m_nc (s_mat s') -> vec p' v a = rsum r0 (fun t => c t * vec s' (cw t) a)%R).
      { intros a Ha. rewrite (vec_at p' q v a Cp') by (rewrite Ei'; exact Hq). rewrite (V2 q a Lq Ha).
        rewrite (rsum_ext _ _ (fun j => rsum r0 (fun t => c t * (ment (s_mat s) t j * ment x j a)))%R).
        2:{ intros j Hj. rewrite (Hc j Hj), Rmult_comm, <- rsum_scal_l. apply rsum_ext. intros. ring. }
        rewrite rsum_swap. apply rsum_ext. intros t Ht. rewrite rsum_scal_l. f_equal. rewrite (vec_at s' t (cw t) a C') by (rewrite Ei; apply Icw, Ht). symmetry. apply V0; assumption. }
      rewrite (dot_ext _ _ _ (vec p w) _ (fun _ _ => eq_refl) L1), (dot_ext _ _ _ (vec p' w) _ (fun _ _ => eq_refl) L2).
      assert (DS : forall n0 (y : nat -> R) (g : nat -> nat -> R), dot n0 y (fun j => rsum r0 (fun t => c t * g t j))%R = rsum r0 (fun t => c t * dot n0 y (g t))%R).
      { intros n0 y g. unfold dot. rewrite (rsum_ext n0 _ (fun j => rsum r0 (fun t => c t * (y j * g t j)))%R) by (intros; rewrite <- rsum_scal_l; apply rsum_ext; intros; ring).
        rewrite rsum_swap. apply rsum_ext. intros t Ht. apply rsum_scal_l. }
      rewrite (DS _ (vec p w) (fun t => vec s (cw t))), (DS _ (vec p' w) (fun t => vec s' (cw t))). apply rsum_ext. intros t Ht. f_equal.
      apply (cross_dots k s s' p p' w (cw t) HP Hn Hw). exact (nth_error_In _ _ (Icw t Ht)). }
    intros a a' b b' w v [K|[K|[]]] [K'|[K'|[]]] Hw Hv; injection K as <- <-; injection K' as <- <-.
    + apply (sg_dots _ _ _ G); auto using in_eq.
    + rewrite dot_sym, (dot_sym (m_nc (s_mat s'))). apply (cross_dots k s s' p p' v w HP Hn Hv Hw).
    + apply (cross_dots k s s' p p' w v HP Hn Hw Hv).
    + apply PP; assumption.
Qed.
(** for arbitrary peripheral data: the scores of the dot product are the same, and all three measures rank the core words in the same order *)
Theorem C103_svd_dot : forall k s s' p p' w v, svd_pair k s s' p p' -> m_nc (s_mat p) = m_nc (s_mat s) ->
  get_sim p w v Dot (Some s) = get_sim p' w v Dot (Some s').
Proof.
  intros k s s' p p' w v HP Hn. destruct (pair_vectors k s s' p p' HP Hn) as (C' & Cp & Cp' & Ei & Ei' & Hn' & _). pose proof HP as (C & _).
  destruct (in_dec string_dec w (s_id2row p)) as [I1|I1].
  2:{ rewrite !C10_get_sim_missing; try assumption; [reflexivity|left; rewrite Ei'; exact I1|left; exact I1]. }
  destruct (in_dec string_dec v (s_id2row s)) as [I2|I2].
  2:{ rewrite !C10_get_sim_missing; try assumption; [reflexivity|right; cbn [searched]; rewrite Ei; exact I2|right; exact I2]. }
  destruct (In_nth_error _ _ I1) as (i & Hi). destruct (In_nth_error _ _ I2) as (q & Hq).
  assert (Hi' : nth_error (s_id2row p') i = Some w) by (rewrite Ei'; exact Hi). assert (Hq' : nth_error (s_id2row s') q = Some v) by (rewrite Ei; exact Hq).
  rewrite (get_sim_rows p (Some s) w v i q (m_nc (s_mat s)) Dot Cp C Hi Hq Hn eq_refl), (get_sim_rows p' (Some s') w v i q (m_nc (s_mat s')) Dot Cp' C' Hi' Hq' Hn' eq_refl). apply (f_equal (@Ok R)).
  cbn [sim_spec searched].
  rewrite <- (dot_ext _ (vec p w) (vec s v) _ _ (fun j _ => vec_at p i w j Cp Hi) (fun j _ => vec_at s q v j C Hq)).
  rewrite <- (dot_ext _ (vec p' w) (vec s' v) _ _ (fun j _ => vec_at p' i w j Cp' Hi') (fun j _ => vec_at s' q v j C' Hq')).
  apply (cross_dots k s s' p p' w v HP Hn I1 I2).
Qed.
Theorem C103_svd_neighbours : forall k s s' p p' w n sim, svd_pair k s s' p p' -> m_nc (s_mat p) = m_nc (s_mat s) -> sim <> Lin -> In w (s_id2row p) ->
  exists l l', get_neighbours p w n sim (Some s) = Ok l /\ get_neighbours p' w n sim (Some s') = Ok l' /\ map fst l = map fst l'.
Proof.
  intros k s s' p p' w n sim HP Hn Hsim Hw. destruct (pair_vectors k s s' p p' HP Hn) as (C' & Cp & Cp' & Ei & Ei' & Hn' & _). pose proof HP as (C & Hk & HN & HS & HX & HT & H & _).
  pose proof (C103_svd k s s' C Hk HN HS HX HT H) as G.
  destruct (C09_neighbours p w n sim (Some s) Cp C Hw Hn) as (l & sc & E1 & T1 & S1).
  destruct (C09_neighbours p' w n sim (Some s') Cp' C' ltac:(rewrite Ei'; exact Hw) Hn') as (l' & sc' & E2 & T2 & S2). exists l, l'. split; [exact E1|]. split; [exact E2|].
  cbn [searched] in *. rewrite Ei in T2, S2. pose proof C as (_ & _ & _ & (Nd & _) & _). refine (top_k_order _ sc sc' _ _ _ Nd _ T1 T2).
  destruct (In_nth_error _ _ Hw) as (i & Hi). assert (Hi' : nth_error (s_id2row p') i = Some w) by (rewrite Ei'; exact Hi).
  set (N := m_nc (s_mat s)) in *. set (N' := m_nc (s_mat s')) in *. set (u := vec p w : nat -> R). set (u' := vec p' w : nat -> R).
  assert (SC : forall q x, nth_error (s_id2row s) q = Some x -> sc q = sim_spec sim N u (vec s x) /\ sc' q = sim_spec sim N' u' (vec s' x)).
  { intros q x Hq. assert (Hq' : nth_error (s_id2row s') q = Some x) by (rewrite Ei; exact Hq). split.
    - pose proof (S1 q x Hq) as K. rewrite (get_sim_rows p (Some s) w x i q N sim Cp C Hi Hq Hn eq_refl) in K. assert (K2 : sc q = sim_spec sim N (ment (s_mat p) i) (ment (s_mat s) q)) by (cbn [searched] in K; congruence).
      rewrite K2. apply sim_spec_ext; intros j _; symmetry; [exact (vec_at p i w j Cp Hi)|exact (vec_at s q x j C Hq)].
    - pose proof (S2 q x Hq) as K. rewrite (get_sim_rows p' (Some s') w x i q N' sim Cp' C' Hi' Hq' Hn' eq_refl) in K. assert (K2 : sc' q = sim_spec sim N' (ment (s_mat p') i) (ment (s_mat s') q)) by (cbn [searched] in K; congruence).
      rewrite K2. apply sim_spec_ext; intros j _; symmetry; [exact (vec_at p' i w j Cp' Hi')|exact (vec_at s' q x j C' Hq')]. }
  assert (DU : forall x, In x (s_id2row s) -> dot N u (vec s x) = dot N' u' (vec s' x)) by (intros x Hx; exact (cross_dots k s s' p p' w x HP Hn Hw Hx)).
  assert (DD : forall x, In x (s_id2row s) -> dot N (vec s x) (vec s x) = dot N' (vec s' x) (vec s' x)) by (intros x Hx; apply (sg_dots _ _ _ G); auto using in_eq).
  intros a b Ha Hb. destruct (nth_error (s_id2row s) a) as [x|] eqn:Qa; [|apply nth_error_None in Qa; exfalso; lia]. destruct (nth_error (s_id2row s) b) as [y|] eqn:Qb; [|apply nth_error_None in Qb; exfalso; lia].
  destruct (SC a x Qa) as (-> & ->). destruct (SC b y Qb) as (-> & ->). apply nth_error_In in Qa. apply nth_error_In in Qb.
  pose proof (DU x Qa) as Dx. pose proof (DU y Qb) as Dy. pose proof (DD x Qa) as Ex. pose proof (DD y Qb) as Ey.
  assert (Nx : norm N (vec s x) = norm N' (vec s' x)) by (unfold norm; rewrite Ex; reflexivity). assert (Ny : norm N (vec s y) = norm N' (vec s' y)) by (unfold norm; rewrite Ey; reflexivity).
  destruct sim; cbn [sim_spec].
  - assert (Z : forall M z z', norm M z = 0%R -> dot M z z' = 0%R).
    { intros M z z' K. unfold dot. apply rsum_zero. intros j Hj. assert (K2 : dot M z z = 0%R) by (apply sqrt_eq_0; [apply dot_self_nonneg|exact K]). rewrite (dot_self_zero _ _ K2 j Hj). ring. }
    assert (CF : forall M z z', cosine M z z' = (/ norm M z * (dot M z z' / norm M z'))%R \/ (norm M z = 0 /\ cosine M z z' = 0)%R).
    { intros M z z'. unfold cosine. destruct (Req_EM_T (norm M z) 0) as [K|K]; [right; auto|left]. destruct (Req_EM_T (norm M z') 0) as [K'|K'].
      - rewrite dot_sym, (Z M z' z K'). unfold Rdiv. ring.
      - field. auto. }
    destruct (Req_EM_T (norm N' u') 0) as [K'|K'].
    + assert (C0' : forall z, cosine N' u' z = 0%R) by (intros z; unfold cosine; destruct (Req_EM_T (norm N' u') 0); [reflexivity|contradiction]).
      assert (C0 : forall z, In z (s_id2row s) -> cosine N u (vec s z) = 0%R).
      { intros z Hz. destruct (CF N u (vec s z)) as [-> | (_ & K)]; [|exact K]. rewrite (DU z Hz), (Z N' u' _ K'). unfold Rdiv. ring. }
      rewrite !C0', !C0 by assumption. tauto.
    + destruct (Req_EM_T (norm N u) 0) as [K|K].
      * assert (C0 : forall z, cosine N u z = 0%R) by (intros z; unfold cosine; destruct (Req_EM_T (norm N u) 0); [reflexivity|contradiction]).
        assert (C0' : forall z, In z (s_id2row s) -> cosine N' u' (vec s' z) = 0%R).
        { intros z Hz. destruct (CF N' u' (vec s' z)) as [-> | (_ & K2)]; [|exact K2]. rewrite <- (DU z Hz), (Z N u _ K). unfold Rdiv. ring. }
        rewrite !C0', !C0 by assumption. tauto.
      * destruct (CF N u (vec s x)) as [-> | (? & _)]; [|contradiction]. destruct (CF N u (vec s y)) as [-> | (? & _)]; [|contradiction].
        destruct (CF N' u' (vec s' x)) as [-> | (? & _)]; [|contradiction]. destruct (CF N' u' (vec s' y)) as [-> | (? & _)]; [|contradiction].
        rewrite Dx, Dy, Nx, Ny. set (A := (dot N' u' (vec s' x) / _)%R). set (B := (dot N' u' (vec s' y) / _)%R).
        assert (P : (0 < / norm N u)%R) by (apply Rinv_0_lt_compat; pose proof (norm_nonneg N u); lra). assert (P' : (0 < / norm N' u')%R) by (apply Rinv_0_lt_compat; pose proof (norm_nonneg N' u'); lra).
        split; intros L; (apply Rmult_lt_compat_l; [assumption|]); [exact (Rmult_lt_reg_l _ _ _ P L)|exact (Rmult_lt_reg_l _ _ _ P' L)].
  - rewrite Dx, Dy. tauto.
  - unfold euclid_score, norm. rewrite !dot_diff, Dx, Dy, Ex, Ey. set (c := dot N u u). set (c' := dot N' u' u'). set (A := (dot N' u' (vec s' x))%R). set (B := dot N' u' (vec s' y)). set (X := dot N' (vec s' x) (vec s' x)). set (Y := dot N' (vec s' y) (vec s' y)).
    assert (P1 : (0 <= c - 2 * A + X)%R) by (unfold c, A, X; rewrite <- Dx, <- Ex, <- dot_diff; apply dot_self_nonneg).
    assert (P2 : (0 <= c - 2 * B + Y)%R) by (unfold c, B, Y; rewrite <- Dy, <- Ey, <- dot_diff; apply dot_self_nonneg).
    assert (P3 : (0 <= c' - 2 * A + X)%R) by (unfold c', A, X; rewrite <- dot_diff; apply dot_self_nonneg).
    assert (P4 : (0 <= c' - 2 * B + Y)%R) by (unfold c', B, Y; rewrite <- dot_diff; apply dot_self_nonneg).
    assert (IV : forall a0 b0, (0 <= a0)%R -> (0 <= b0)%R -> (1 / (1 + sqrt a0) < 1 / (1 + sqrt b0) <-> b0 < a0)%R).
    { clear. intros a b Pa Pb. pose proof (sqrt_pos a). pose proof (sqrt_pos b). unfold Rdiv. rewrite !Rmult_1_l. split; intros L.
      - apply sqrt_lt_0_alt. apply Rnot_le_lt. intros Q. apply (Rlt_irrefl (/ (1 + sqrt a))). eapply Rlt_le_trans; [exact L|]. apply Rinv_le_contravar; lra.
      - apply Rinv_lt_contravar; [nra|]. pose proof (sqrt_lt_1_alt b a ltac:(lra)). lra. }
    rewrite !IV by assumption. lra.
  - contradiction.
Qed.
End WithExt.
