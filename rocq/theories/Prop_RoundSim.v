(** Prop_RoundSim.v -- property C80: what rounding does to the similarities. *)
From Coq Require Import Reals Lra Psatz.
From Verif Require Import Base PyList Dict Num SpecReal Dense Sparse Matrix PSparse PMatrix PMatOps PShape PVals PReal PPos Scaling Linalg Operation Similarity Space
  Peripheral SpecSpace PSpace Prop_Space Prop_Sim Round PRound Prop_Round.
Open Scope R_scope.

Section Sims.
Context (o : ops) (t tl : R) (SM : standard o t tl).
Local Notation FN := (FNum o).
Let Ht : 1 <= t := st_t _ _ _ SM.

(** m is a row vector of length n whose entries are those of u, up to a rounding errors *)
Definition holds (a : nat) (m : @matrix FN) (n : nat) (u : nat -> R) : Prop :=
  @mwf FN m /\ @m_nr FN m = 1%nat /\ @m_nc FN m = n /\ forall j, (j < n)%nat -> near t a (fent m 0 j) (u j).
Definition nonneg_vec (n : nat) (u : nat -> R) : Prop := forall j, (j < n)%nat -> 0 <= u j.

Lemma holds_exact m n : @mwf FN m -> @m_nr FN m = 1%nat -> @m_nc FN m = n -> holds 0 m n (fent m 0).
Proof. intros H1 H2 H3. split; [exact H1|]. split; [exact H2|]. split; [exact H3|]. intros. apply near_refl, Ht. Qed.
Lemma holds_pos a m n u : holds a m n u -> (0 < n)%nat.
Proof. intros (W & R1 & C1 & _). pose proof (@mwf_pos FN m W). lia. Qed.
Lemma holds_vals a m n u : holds a m n u -> @vals FN m (@type_of FN m) 1 n (fent m).
Proof. intros (W & R1 & C1 & _). pose proof (@vals_self FN m W) as V. rewrite R1, C1 in V. exact V. Qed.
Lemma vals_holds a m ty n f u : @vals FN m ty 1 n f -> (forall j, (j < n)%nat -> near t a (f O j) (u j)) -> holds a m n u.
Proof.
  intros V H. pose proof (@vals_has FN _ _ _ _ _ V) as (W & T & R1 & C1). split; [exact W|]. split; [exact R1|]. split; [exact C1|]. intros j Hj.
  unfold fent. rewrite (@vals_ent FN _ _ _ _ _ O j V ltac:(lia) Hj). apply H, Hj.
Qed.
Lemma holds_conv a m n u ty : holds a m n u -> holds a (@conv FN ty m) n u.
Proof. intros H. apply (vals_holds a _ ty n (fent m)); [apply (@vals_conv FN) with (t := @type_of FN m); apply (holds_vals _ _ _ _ H)|]. intros j Hj. apply H, Hj. Qed.
Lemma holds_approx a m n u : holds a m n u -> approx t a m (@of_dense RNum (@type_of FN m) (@tab RNum 1 n (fun _ => u))).
Proof.
  intros H. pose proof (holds_pos _ _ _ _ H) as Hn. refine (vals_approx o t a m _ _ _ _ _ _ (holds_vals _ _ _ _ H) (@vals_of_dense RNum _ 1 n _ ltac:(lia) Hn) _).
  intros i j Hi Hj. replace i with O by lia. apply H, Hj.
Qed.
Lemma row_of u ty n : (0 < n)%nat -> row_vec (@of_dense RNum ty (@tab RNum 1 n (fun _ => u))) n /\ forall j, (j < n)%nat -> @ment RNum (@of_dense RNum ty (@tab RNum 1 n (fun _ => u))) 0 j = u j.
Proof.
  intros Hn. pose proof (@vals_of_dense RNum ty 1 n (fun _ => u) ltac:(lia) Hn) as V. pose proof (vals_has _ _ _ _ _ V) as (W & _ & R1 & C1).
  split; [split; [exact W|auto]|]. intros j Hj. exact (vals_ent _ _ _ _ _ O j V ltac:(lia) Hj).
Qed.
Lemma holds_norm a m n u : holds a m n u -> near t (S (a + (n + 3) / 2)) (@m_norm FN m) (norm n u).
Proof.
  intros H. pose proof (holds_pos _ _ _ _ H) as Hn. pose proof (near_norm o t tl SM _ _ _ (holds_approx _ _ _ _ H)) as N.
  destruct (row_of u (@type_of FN m) n Hn) as (RV & RE). rewrite (m_norm_row _ n RV) in N. rewrite (norm_ext n _ u RE) in N.
  refine (near_mono t Ht _ _ _ _ _ N). destruct H as (W & R1 & C1 & _).
  assert (SL : (stored o m <= n + 1)%nat).
  { destruct m as [d|c]; cbn [stored m_nr m_nc mwf] in *; [lia|]. pose proof (data_le o c W) as L. rewrite R1, C1 in L. lia. }
  pose proof (Nat.div_le_mono (S (S (stored o m))) (n + 3) 2 ltac:(lia) ltac:(lia)). lia.
Qed.
Lemma holds_multiply a b m1 m2 n u v : holds a m1 n u -> holds b m2 n v -> @type_of FN m1 = @type_of FN m2 ->
  exists z, @m_multiply FN m1 m2 = Ok z /\ holds (S (a + b)) z n (fun j => u j * v j) /\ @type_of FN z = @type_of FN m1.
Proof.
  intros H1 H2 Hty. pose proof (holds_vals _ _ _ _ H1) as V1. pose proof (holds_vals _ _ _ _ H2) as V2. rewrite <- Hty in V2.
  destruct (@vals_multiply FN _ _ _ _ _ _ _ V1 V2) as (z & E & V). exists z. split; [exact E|]. split; [|apply (@vals_type FN _ _ _ _ _ V)].
  apply (vals_holds _ _ _ _ _ _ V). intros j Hj. apply (near_fmul o t tl SM); [apply H1|apply H2]; exact Hj.
Qed.
Lemma holds_sum_val a m n u : holds a m n u -> @m_sum FN m = o_add o 0 (@sumn FN n (fent m 0)).
Proof. intros H. rewrite (@vals_sum FN _ _ _ _ _ (holds_vals _ _ _ _ H)). reflexivity. Qed.
Lemma near_fadd0 k x y : near t k x y -> near t (S k) (o_add o 0 x) y.
Proof. intros N. apply (near_trans t Ht 1 k _ x); [|exact N]. pose proof (st_add _ _ _ SM 0 x) as A. rewrite Rplus_0_l in A. exact A. Qed.
Lemma holds_sum a m n u : holds a m n u -> nonneg_vec n u -> near t (a + n + 1) (@m_sum FN m) (rsum n u).
Proof.
  intros H P. rewrite (holds_sum_val _ _ _ _ H). replace (a + n + 1)%nat with (S (a + n)) by lia. apply near_fadd0. apply (near_sumn o t tl SM).
  intros j Hj. split; [apply P, Hj|apply H, Hj].
Qed.
(** signed sums: the error is relative to the sum of the absolute values *)
Lemma near_off k a b : near t k a b -> Rabs (a - b) <= (t ^ k - 1) * Rabs b.
Proof.
  intros (q & (Q1 & Q2) & ->). replace (b * q - b) with ((q - 1) * b) by ring. rewrite Rabs_mult. apply Rmult_le_compat_r; [apply Rabs_pos|].
  apply Rabs_le. pose proof (tpow_ge1 t Ht k). split; [|lra]. assert (2 - t ^ k <= / t ^ k); [|lra].
  apply Rmult_le_reg_r with (r := t ^ k); [lra|]. rewrite Rinv_l by lra. nra.
Qed.
Lemma near_abs k a b : near t k a b -> Rabs a <= t ^ k * Rabs b.
Proof. intros N. pose proof (near_off k a b N) as H. pose proof (Rabs_triang (a - b) b) as T. replace (a - b + b) with a in T by ring. lra. Qed.
Lemma fadd_off k x y T : 0 <= T -> Rabs (x - y) <= (t ^ k - 1) * T -> Rabs y <= T -> forall z, near t 1 z x -> Rabs (z - y) <= (t ^ S k - 1) * T.
Proof.
  intros T0 H HY z N. pose proof (near_off 1 z x N) as HZ. rewrite pow_1 in HZ. pose proof (Rabs_triang (x - y) y) as TX. replace (x - y + y) with x in TX by ring.
  pose proof (Rabs_triang (z - x) (x - y)) as TZ. replace (z - x + (x - y)) with (z - y) in TZ by ring. cbn [pow]. pose proof (tpow_ge1 t Ht k).
  assert (Rabs x <= t ^ k * T) by lra. assert ((t - 1) * Rabs x <= (t - 1) * (t ^ k * T)) by (apply Rmult_le_compat_l; lra). lra.
Qed.
Lemma sum_off k n f g : (forall i, (i < n)%nat -> near t k (f i) (g i)) -> Rabs (@sumn FN n f - rsum n g) <= (t ^ (k + n) - 1) * rsum n (fun i => Rabs (g i)).
Proof.
  induction n as [|n IH]; intros H; cbn [sumn rsum].
  - change (Rabs (0 - 0) <= (t ^ (k + 0) - 1) * 0). rewrite Rminus_0_r, Rabs_R0. lra.
  - rewrite Nat.add_succ_r. set (S' := rsum n (fun i => Rabs (g i))). assert (S0 : 0 <= S') by (apply rsum_nonneg; intros; apply Rabs_pos).
    pose proof (Rabs_pos (g n)) as G0. apply (fadd_off (k + n) (@sumn FN n f + f n)).
    + lra.
    + replace (@sumn FN n f + f n - (rsum n g + g n)) with ((@sumn FN n f - rsum n g) + (f n - g n)) by ring. apply Rle_trans with (1 := Rabs_triang _ _).
      specialize (IH ltac:(intros; apply H; lia)). fold S' in IH. pose proof (near_off k _ _ (H n ltac:(lia))) as HN. pose proof (tpow_mono t Ht k (k + n) ltac:(lia)).
      assert ((t ^ k - 1) * Rabs (g n) <= (t ^ (k + n) - 1) * Rabs (g n)) by (apply Rmult_le_compat_r; lra). lra.
    + apply Rle_trans with (1 := Rabs_triang _ _). apply Rplus_le_compat_r. unfold S'. clear. induction n as [|n IH]; cbn [rsum]; [rewrite Rabs_R0; lra|].
      apply Rle_trans with (1 := Rabs_triang _ _). lra.
    + apply (st_add _ _ _ SM).
Qed.
Lemma rsum_abs n g : Rabs (rsum n g) <= rsum n (fun i => Rabs (g i)).
Proof. induction n as [|n IH]; cbn [rsum]; [rewrite Rabs_R0; lra|]. apply Rle_trans with (1 := Rabs_triang _ _). lra. Qed.
Lemma holds_sum_off a m n u : holds a m n u -> Rabs (@m_sum FN m - rsum n u) <= (t ^ (a + n + 1) - 1) * rsum n (fun j => Rabs (u j)).
Proof.
  intros H. rewrite (holds_sum_val _ _ _ _ H). replace (a + n + 1)%nat with (S (a + n)) by lia. apply (fadd_off (a + n) (@sumn FN n (fent m 0))).
  - apply rsum_nonneg. intros; apply Rabs_pos.
  - apply sum_off. intros j Hj. apply H, Hj.
  - apply rsum_abs.
  - pose proof (st_add _ _ _ SM 0 (@sumn FN n (fent m 0))) as A. rewrite Rplus_0_l in A. exact A.
Qed.

(** what [get_sim] of a similarity does before measuring *)
Lemma sim_get_eq s v1 v2 n : @m_nr FN v1 = 1%nat -> @m_nr FN v2 = 1%nat -> @m_nc FN v1 = n -> @m_nc FN v2 = n ->
  @sim_get FN s v1 v2 = @sim_raw FN s v1 (@conv FN (@type_of FN v1) v2).
Proof.
  intros R1 R2 C1 C2. unfold sim_get, to_compatible, assert_same_shape, same_shapeb.
  assert (E : @m_nr FN (@conv FN (@type_of FN v1) v2) = 1%nat /\ @m_nc FN (@conv FN (@type_of FN v1) v2) = n).
  { destruct v2 as [d|c], v1 as [d1|c1]; cbn in *; rewrite ?map_length, ?seq_length; auto. }
  destruct E as (-> & ->). rewrite R1, C1, !Nat.eqb_refl. reflexivity.
Qed.
Lemma dot_round a v1 v2 n u v : holds a v1 n u -> holds a v2 n v -> @type_of FN v2 = @type_of FN v1 ->
  exists x, @dot_sim FN v1 v2 = Ok x /\ Rabs (x - dot n u v) <= (t ^ (2 * a + n + 2) - 1) * rsum n (fun j => Rabs (u j) * Rabs (v j)) /\
  (nonneg_vec n u -> nonneg_vec n v -> near t (2 * a + n + 2) x (dot n u v)).
Proof.
  intros H1 H2 Hty. destruct (holds_multiply a a v1 v2 n u v H1 H2 (eq_sym Hty)) as (z & E & Hz & _). unfold dot_sim. rewrite E. cbn [bind].
  eexists. split; [reflexivity|]. replace (2 * a + n + 2)%nat with (S (a + a) + n + 1)%nat by lia. split.
  - pose proof (holds_sum_off _ _ _ _ Hz) as B. unfold dot. rewrite (rsum_ext n (fun j => Rabs (u j) * Rabs (v j)) (fun j => Rabs (u j * v j))) by (intros; rewrite Rabs_mult; reflexivity). exact B.
  - intros P1 P2. apply (holds_sum _ _ _ _ Hz). intros j Hj. apply Rmult_le_pos; [apply P1|apply P2]; exact Hj.
Qed.

(** ** C80 *)
(** inner product *)
Theorem C80_dot : forall a v1 v2 n u v, holds a v1 n u -> holds a v2 n v ->
  exists x, @sim_get FN Dot v1 v2 = Ok x /\ Rabs (x - dot n u v) <= (t ^ (2 * a + n + 2) - 1) * rsum n (fun j => Rabs (u j) * Rabs (v j)) /\
  (nonneg_vec n u -> nonneg_vec n v -> near t (2 * a + n + 2) x (dot n u v)).
Proof.
  intros a v1 v2 n u v H1 H2. pose proof H1 as (_ & R1 & C1 & _). pose proof H2 as (_ & R2 & C2 & _). rewrite (sim_get_eq Dot v1 v2 n R1 R2 C1 C2). cbn [sim_raw].
  apply dot_round; [exact H1|apply holds_conv, H2|]. destruct v1, v2; reflexivity.
Qed.
(** cosine *)
Theorem C80_cosine : forall a v1 v2 n u v, holds a v1 n u -> holds a v2 n v ->
  exists x, @sim_get FN Cos v1 v2 = Ok x /\ Rabs (x - cosine n u v) <= t ^ (4 * a + 2 * n + 9) - 1 /\
  (nonneg_vec n u -> nonneg_vec n v -> near t (4 * a + 2 * n + 9) x (cosine n u v)).
Proof.
  intros a v1 v2 n u v H1 H2. pose proof H1 as (_ & R1 & C1 & _). pose proof H2 as (_ & R2 & C2 & _). rewrite (sim_get_eq Cos v1 v2 n R1 R2 C1 C2). cbn [sim_raw].
  set (w2 := @conv FN (@type_of FN v1) v2). assert (Hw : holds a w2 n v) by (apply holds_conv, H2). assert (Tw : @type_of FN w2 = @type_of FN v1) by (unfold w2; destruct v1, v2; reflexivity).
  pose proof (holds_norm _ _ _ _ H1) as N1. pose proof (holds_norm _ _ _ _ Hw) as N2. unfold cos_sim. change (@feqb FN) with Reqb. change (@f0 FN) with 0.
  pose proof (tpow_ge1 t Ht (4 * a + 2 * n + 9)) as TG.
  assert (Z1 : Reqb (@m_norm FN v1) 0 = true <-> norm n u = 0) by (rewrite Reqb_eq; apply (near_zero t Ht _ _ _ N1)).
  assert (Z2 : Reqb (@m_norm FN w2) 0 = true <-> norm n v = 0) by (rewrite Reqb_eq; apply (near_zero t Ht _ _ _ N2)).
  unfold cosine. destruct (Req_EM_T (norm n u) 0) as [E1|E1]; [|destruct (Req_EM_T (norm n v) 0) as [E2|E2]].
  - rewrite (proj2 Z1 E1). cbn [orb]. exists 0. split; [reflexivity|]. split; [rewrite Rminus_0_r, Rabs_R0; lra|]. intros _ _. apply near_refl, Ht.
  - rewrite (proj2 Z2 E2), orb_true_r. exists 0. split; [reflexivity|]. split; [rewrite Rminus_0_r, Rabs_R0; lra|]. intros _ _. apply near_refl, Ht.
  - assert (B1 : Reqb (@m_norm FN v1) 0 = false) by (destruct (Reqb (@m_norm FN v1) 0); [exfalso; apply E1, Z1; reflexivity|reflexivity]).
    assert (B2 : Reqb (@m_norm FN w2) 0 = false) by (destruct (Reqb (@m_norm FN w2) 0); [exfalso; apply E2, Z2; reflexivity|reflexivity]).
    rewrite B1, B2. cbn [orb]. destruct (dot_round a v1 w2 n u v H1 Hw Tw) as (d & -> & DO & DN). cbn [bind]. eexists. split; [reflexivity|].
    set (D := dot n u v) in *. set (A := norm n u) in *. set (B := norm n v) in *. set (P := rsum n (fun j => Rabs (u j) * Rabs (v j))) in *.
    assert (A0 : 0 < A) by (pose proof (sqrt_pos (dot n u u)); unfold A, norm in *; lra). assert (B0 : 0 < B) by (pose proof (sqrt_pos (dot n v v)); unfold B, norm in *; lra).
    assert (AB : 0 < A * B) by (apply Rmult_lt_0_compat; assumption).
    pose proof (near_fmul o t tl SM _ _ _ _ _ _ N1 N2) as NM. set (h := S (a + (n + 3) / 2)) in *.
    assert (ND : near t (S (S (h + h))) (@fdiv FN d (@fmul FN (@m_norm FN v1) (@m_norm FN w2))) (d / (A * B))).
    { apply (near_fdiv o t tl SM 0); [lra|apply near_refl, Ht|exact NM]. }
    assert (HK : (2 * a + n + 2 + S (S (h + h)) <= 4 * a + 2 * n + 9)%nat).
    { unfold h. pose proof (Nat.mul_div_le (n + 3) 2 ltac:(lia)). lia. }
    split.
    + assert (CS : P <= A * B).
      { pose proof (cauchy_schwarz n (fun j => Rabs (u j)) (fun j => Rabs (v j))) as CS. unfold dot at 1 in CS. rewrite Rabs_right in CS.
        2: { apply Rle_ge, rsum_nonneg. intros; apply Rmult_le_pos; apply Rabs_pos. }
        assert (NA : forall w, norm n (fun j => Rabs (w j)) = norm n w).
        { intros w. unfold norm, dot. f_equal. apply rsum_ext. intros j _. rewrite <- Rabs_mult. apply Rabs_right. apply Rle_ge, Rle_0_sqr. }
        rewrite !NA in CS. exact CS. }
      assert (P0 : 0 <= P) by (apply rsum_nonneg; intros; apply Rmult_le_pos; apply Rabs_pos).
      assert (D1 : Rabs (D / (A * B)) <= 1).
      { unfold Rdiv. rewrite Rabs_mult, (Rabs_right (/ (A * B))) by (apply Rle_ge, Rlt_le, Rinv_0_lt_compat, AB).
        apply Rmult_le_reg_r with (r := A * B); [exact AB|]. rewrite Rmult_assoc, Rinv_l by lra. rewrite Rmult_1_r, Rmult_1_l. apply cauchy_schwarz. }
      set (K := (2 * a + n + 2)%nat) in *. assert (D2 : Rabs (d / (A * B) - D / (A * B)) <= t ^ K - 1).
      { replace (d / (A * B) - D / (A * B)) with ((d - D) * / (A * B)) by (unfold Rdiv; ring). rewrite Rabs_mult, (Rabs_right (/ (A * B))) by (apply Rle_ge, Rlt_le, Rinv_0_lt_compat, AB).
        apply Rmult_le_reg_r with (r := A * B); [exact AB|]. rewrite Rmult_assoc, Rinv_l by lra. rewrite Rmult_1_r. apply Rle_trans with (1 := DO). pose proof (tpow_ge1 t Ht K). apply Rmult_le_compat_l; lra. }
      set (G := S (S (h + h))) in *. set (x := @fdiv FN d (@fmul FN (@m_norm FN v1) (@m_norm FN w2))) in *. apply (near_off G) in ND.
      pose proof (Rabs_triang (d / (A * B) - D / (A * B)) (D / (A * B))) as T1. replace (d / (A * B) - D / (A * B) + D / (A * B)) with (d / (A * B)) in T1 by ring.
      pose proof (Rabs_triang (x - d / (A * B)) (d / (A * B) - D / (A * B))) as T2. replace (x - d / (A * B) + (d / (A * B) - D / (A * B))) with (x - D / (A * B)) in T2 by ring.
      pose proof (tpow_ge1 t Ht G) as TG2. assert (Rabs (d / (A * B)) <= t ^ K) by lra.
      assert (T3 : (t ^ G - 1) * Rabs (d / (A * B)) <= (t ^ G - 1) * t ^ K) by (apply Rmult_le_compat_l; lra).
      pose proof (tpow_mono t Ht (K + G) (4 * a + 2 * n + 9) HK) as TM. rewrite pow_add in TM. rewrite Rmult_comm in TM. change (@F FN) with R in *. lra.
    + intros P1 P2. apply (near_mono t Ht (S (S (h + h)) + (2 * a + n + 2)) (4 * a + 2 * n + 9)); [lia|]. apply (near_trans t Ht _ _ _ _ _ ND).
      unfold Rdiv. replace (2 * a + n + 2)%nat with (2 * a + n + 2 + 0)%nat by lia. apply near_mult; [exact Ht|apply DN; assumption|apply near_refl, Ht].
Qed.
(** ... so that the computed cosine is at most 1 up to rounding *)
Theorem C80_cosine_range : forall v1 v2 n, @mwf FN v1 -> @mwf FN v2 -> @m_nr FN v1 = 1%nat -> @m_nr FN v2 = 1%nat -> @m_nc FN v1 = n -> @m_nc FN v2 = n ->
  exists x : R, @sim_get FN Cos v1 v2 = Ok x /\ Rabs x <= t ^ (2 * n + 9).
Proof.
  intros v1 v2 n W1 W2 R1 R2 C1 C2. destruct (C80_cosine 0 v1 v2 n _ _ (holds_exact v1 n W1 R1 C1) (holds_exact v2 n W2 R2 C2)) as (x & E & B & _). change R in (type of x). exists x. split; [exact E|].
  assert (CB : Rabs (cosine n (fent v1 0) (fent v2 0)) <= 1).
  { unfold cosine. destruct (Req_EM_T (norm n (fent v1 0)) 0) as [E1|E1]; [rewrite Rabs_R0; lra|]. destruct (Req_EM_T (norm n (fent v2 0)) 0) as [E2|E2]; [rewrite Rabs_R0; lra|].
    set (A := norm n (fent v1 0)) in *. set (B' := norm n (fent v2 0)) in *.
    assert (A0 : 0 < A) by (pose proof (sqrt_pos (dot n (fent v1 0) (fent v1 0))); unfold A, norm in *; lra). assert (B0 : 0 < B') by (pose proof (sqrt_pos (dot n (fent v2 0) (fent v2 0))); unfold B', norm in *; lra).
    assert (AB : 0 < A * B') by (apply Rmult_lt_0_compat; assumption).
    unfold Rdiv. rewrite Rabs_mult, (Rabs_right (/ (A * B'))) by (apply Rle_ge, Rlt_le, Rinv_0_lt_compat, AB).
    apply Rmult_le_reg_r with (r := A * B'); [exact AB|]. rewrite Rmult_assoc, Rinv_l by lra. rewrite Rmult_1_r, Rmult_1_l. apply cauchy_schwarz. }
  pose proof (Rabs_triang (x - cosine n (fent v1 0) (fent v2 0)) (cosine n (fent v1 0) (fent v2 0))) as T. replace (x - cosine n (fent v1 0) (fent v2 0) + cosine n (fent v1 0) (fent v2 0)) with x in T by ring.
  change (4 * 0 + 2 * n + 9)%nat with (2 * n + 9)%nat in B. lra.
Qed.

Lemma holds_zip op k m1 m2 n f g h : @holds 0 m1 n f -> @holds 0 m2 n g -> @type_of FN m1 = @type_of FN m2 ->
  (forall j, (j < n)%nat -> near t k (op (fent m1 0 j) (fent m2 0 j)) (h j)) ->
  exists z, @m_zip FN op m1 m2 = Ok z /\ holds k z n h /\ @type_of FN z = @type_of FN m1.
Proof.
  intros H1 H2 Hty H. pose proof (holds_vals _ _ _ _ H1) as V1. pose proof (holds_vals _ _ _ _ H2) as V2. rewrite <- Hty in V2.
  destruct (@vals_zip FN op _ _ _ _ _ _ _ V1 V2) as (z & E & V). exists z. split; [exact E|]. split; [|apply (@vals_type FN _ _ _ _ _ V)].
  apply (vals_holds _ _ _ _ _ _ V). exact H.
Qed.
(** the score obtained from the Euclidean distance.  (The entries are those held by the vectors: a rounding error made before, when they were
    computed, can be of any size relative to a small difference.) *)
Theorem C80_euclid : forall v1 v2 n, @mwf FN v1 -> @mwf FN v2 -> @m_nr FN v1 = 1%nat -> @m_nr FN v2 = 1%nat -> @m_nc FN v1 = n -> @m_nc FN v2 = n ->
  exists x, @sim_get FN Euclid v1 v2 = Ok x /\ near t (4 + (n + 3) / 2) x (euclid_score n (fent v1 0) (fent v2 0)).
Proof.
  intros v1 v2 n W1 W2 R1 R2 C1 C2. rewrite (sim_get_eq Euclid v1 v2 n R1 R2 C1 C2). cbn [sim_raw]. pose proof (holds_exact v1 n W1 R1 C1) as H1.
  set (w2 := @conv FN (@type_of FN v1) v2). assert (Hw : holds 0 w2 n (fent v2 0)) by (apply holds_conv, holds_exact; assumption).
  assert (Tw : @type_of FN v1 = @type_of FN w2) by (unfold w2; destruct v1, v2; reflexivity).
  assert (HE : forall j, (j < n)%nat -> fent w2 0 j = fent v2 0 j).
  { intros j Hj. destruct Hw as (_ & _ & _ & Hw). destruct (Hw j Hj) as (q & (Q1 & Q2) & E). cbn [pow] in Q1, Q2. rewrite E. replace q with 1 by lra. ring. }
  destruct (holds_zip (@fsub FN) 1 v1 w2 n (fent v1 0) (fent v2 0) (fun j => fent v1 0 j - fent v2 0 j) H1 Hw Tw) as (z & E & Hz & _).
  { intros j Hj. rewrite HE by exact Hj. apply (st_sub _ _ _ SM). }
  unfold euclid_sim, m_sub. rewrite E. cbn [bind]. eexists. split; [reflexivity|]. pose proof (holds_norm _ _ _ _ Hz) as N. unfold euclid_score.
  set (D := norm n (fun j => fent v1 0 j - fent v2 0 j)) in *. assert (D0 : 0 <= D) by apply sqrt_pos.
  assert (NA : near t (S (S (1 + (n + 3) / 2))) (@fadd FN 1 (@m_norm FN z)) (1 + D)) by (apply (near_fadd o t tl SM); [lra|exact D0|apply near_refl, Ht|exact N]).
  assert (D1 : 1 + D <> 0) by lra. exact (near_fdiv o t tl SM 0 _ 1 _ 1 _ D1 (near_refl t Ht 0 1) NA).
Qed.

Lemma holds_ones a m n u : holds a m n u -> holds 0 (@m_to_ones FN m) n (fun j => if Rlt_dec 0 (u j) then 1 else 0) /\ @type_of FN (@m_to_ones FN m) = @type_of FN m.
Proof.
  intros H. pose proof H as (W & R1 & C1 & NU).
  assert (Ho : @is_mat FN (@m_to_ones FN m) (@type_of FN m) (@d_map FN (@one_pos FN) (@to_dense FN m))).
  { destruct m as [d|c]; cbn [m_to_ones type_of to_dense].
    - repeat split; apply (@wf_d_map FN), W.
    - apply (@smap_is FN); [exact W|]. unfold one_pos. cbn [fltb f0 f1 FNum]. unfold Rltb. destruct (Rlt_dec 0 0); [exfalso; lra|reflexivity]. }
  assert (V : @vals FN (@m_to_ones FN m) (@type_of FN m) 1 n (fun i j => @one_pos FN (fent m i j))).
  { eapply (@vals_is FN _ _ _ _ _ _ (fent m) _ (fun _ _ x => @one_pos FN x)); [apply (holds_vals _ _ _ _ H)|exact Ho| | |].
    - cbn. rewrite (@to_dense_nr FN). exact R1.
    - cbn. rewrite (@to_dense_nc FN). exact C1.
    - intros i j Hi Hj. unfold d_map. rewrite (@dent_tab FN); [reflexivity| |]; rewrite ?(@to_dense_nr FN), ?(@to_dense_nc FN); lia. }
  split; [|apply (@vals_type FN _ _ _ _ _ V)]. apply (vals_holds _ _ _ _ _ _ V). intros j Hj. unfold one_pos. change (@fltb FN) with Rltb. change (@f0 FN) with 0. change (@f1 FN) with 1.
  pose proof (near_sign t Ht _ _ _ (NU j Hj)) as S. unfold Rltb. destruct (Rlt_dec 0 (fent m 0 j)), (Rlt_dec 0 (u j)); try tauto; apply near_refl, Ht.
Qed.
Lemma lin_code_nonneg n u v : nonneg_vec n u -> nonneg_vec n v -> lin_code n u v = lin_score n u v.
Proof.
  intros P1 P2. unfold lin_code, lin_score. destruct (Req_EM_T _ _); [reflexivity|]. f_equal. apply rsum_ext. intros j Hj. specialize (P1 j Hj). specialize (P2 j Hj).
  destruct (Rlt_dec 0 (u j * v j)), (Rlt_dec 0 (u j)), (Rlt_dec 0 (v j)); try reflexivity; exfalso; nra.
Qed.
(** Lin's measure *)
Theorem C80_lin : forall a v1 v2 n u v, holds a v1 n u -> holds a v2 n v -> nonneg_vec n u -> nonneg_vec n v ->
  exists x, @sim_get FN Lin v1 v2 = Ok x /\ near t (2 * a + 2 * n + 6) x (lin_score n u v).
Proof.
  intros a v1 v2 n u v H1 H2 P1 P2. pose proof H1 as (_ & R1 & C1 & _). pose proof H2 as (_ & R2 & C2 & _). rewrite (sim_get_eq Lin v1 v2 n R1 R2 C1 C2). cbn [sim_raw].
  set (w2 := @conv FN (@type_of FN v1) v2). assert (Hw : holds a w2 n v) by (apply holds_conv, H2). assert (Tw : @type_of FN v1 = @type_of FN w2) by (unfold w2; destruct v1, v2; reflexivity).
  rewrite <- (lin_code_nonneg n u v P1 P2). unfold lin_sim. destruct (holds_multiply a a v1 w2 n u v H1 Hw Tw) as (c & -> & Hc & Tc). cbn [bind].
  pose proof (holds_sum _ _ _ _ H1 P1) as S1. pose proof (holds_sum _ _ _ _ Hw P2) as S2.
  assert (T1 : 0 <= rsum n u) by (apply rsum_nonneg; exact P1). assert (T2 : 0 <= rsum n v) by (apply rsum_nonneg; exact P2).
  pose proof (near_fadd o t tl SM _ _ _ _ _ T1 T2 S1 S2) as SD. unfold lin_code. change (@feqb FN) with Reqb. change (@f0 FN) with 0.
  pose proof (near_zero t Ht _ _ _ SD) as Z. destruct (Req_EM_T (rsum n u + rsum n v) 0) as [E0|E0].
  - rewrite (proj2 (Reqb_eq _ _) (proj2 Z E0)). exists 0. split; [reflexivity|apply near_refl, Ht].
  - destruct (Reqb (@fadd FN (@m_sum FN v1) (@m_sum FN w2)) 0) eqn:EB; [exfalso; apply E0, Z, Reqb_eq, EB|].
    destruct (@vals_add FN v1 w2 _ 1 n _ _ (holds_vals _ _ _ _ H1) ltac:(rewrite Tw; apply (holds_vals _ _ _ _ Hw))) as (s & -> & Vs). cbn [bind].
    assert (Hs : holds (S a) s n (fun j => u j + v j)).
    { apply (vals_holds _ _ _ _ _ _ Vs). intros j Hj. apply (near_fadd o t tl SM); [apply P1, Hj|apply P2, Hj|apply H1, Hj|apply Hw, Hj]. }
    destruct (holds_ones _ _ _ _ Hc) as (Ho & To).
    destruct (holds_multiply 0 (S a) _ s n _ _ Ho Hs ltac:(rewrite To, Tc, (@vals_type FN _ _ _ _ _ Vs); reflexivity)) as (p & -> & Hp & _). cbn [bind]. eexists. split; [reflexivity|].
    set (g := fun j => (if Rlt_dec 0 (u j * v j) then 1 else 0) * (u j + v j)) in *.
    assert (G0 : nonneg_vec n g). { intros j Hj. unfold g. specialize (P1 j Hj). specialize (P2 j Hj). destruct (Rlt_dec 0 (u j * v j)); lra. }
    pose proof (holds_sum _ _ _ _ Hp G0) as SP. rewrite (rsum_ext n _ (fun i => if Rlt_dec 0 (u i * v i) then u i + v i else 0)) in SP by (intros j _; unfold g; destruct (Rlt_dec 0 (u j * v j)); ring).
    pose proof (near_fdiv o t tl SM _ _ _ _ _ _ E0 SP SD) as ND. refine (near_mono t Ht _ _ _ _ _ ND). lia.
Qed.
End Sims.
