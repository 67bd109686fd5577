(** PRound.v -- lemmas on rounding errors. *)
From Coq Require Import Reals Lra Psatz.
From Verif Require Import Base PyList Num SpecReal Dense Sparse Matrix PSparse PMatrix PMatOps PShape PVals PReal PPos Scaling Round.
Open Scope R_scope.

Section Near.
Context (t : R) (Ht : 1 <= t).
Lemma tpow_pos k : 0 < t ^ k.
Proof. apply pow_lt. lra. Qed.
Lemma tpow_ge1 k : 1 <= t ^ k.
Proof. apply pow_R1_Rle. exact Ht. Qed.
Lemma tinv_pos k : 0 < / t ^ k.
Proof. apply Rinv_0_lt_compat, tpow_pos. Qed.
Lemma tinv_le1 k : / t ^ k <= 1.
Proof. rewrite <- Rinv_1. apply Rinv_le_contravar; [lra|apply tpow_ge1]. Qed.
Lemma tpow_mono j k : (j <= k)%nat -> t ^ j <= t ^ k.
Proof. intros H. apply Rle_pow; [exact Ht|exact H]. Qed.
Lemma tinv_mono j k : (j <= k)%nat -> / t ^ k <= / t ^ j.
Proof. intros H. apply Rinv_le_contravar; [apply tpow_pos|apply tpow_mono, H]. Qed.

Lemma near_refl k a : near t k a a.
Proof. exists 1. split; [split; [apply tinv_le1|apply tpow_ge1]|ring]. Qed.
Lemma near_mono j k a b : (j <= k)%nat -> near t j a b -> near t k a b.
Proof. intros H (q & (Q1 & Q2) & ->). exists q. split; [|reflexivity]. pose proof (tpow_mono j k H). pose proof (tinv_mono j k H). lra. Qed.
Lemma near_eq k a b : a = b -> near t k a b.
Proof. intros ->. apply near_refl. Qed.
Lemma near_trans j k a b c : near t j a b -> near t k b c -> near t (j + k) a c.
Proof.
  intros (p & (P1 & P2) & ->) (q & (Q1 & Q2) & ->). exists (q * p). split; [|ring]. pose proof (tinv_pos j). pose proof (tinv_pos k).
  rewrite pow_add, Rinv_mult. split; [rewrite (Rmult_comm q p); apply Rmult_le_compat; lra|rewrite (Rmult_comm q p); apply Rmult_le_compat; lra].
Qed.
Lemma near_sym k a b : near t k a b -> near t k b a.
Proof.
  intros (q & (Q1 & Q2) & ->). pose proof (tinv_pos k). exists (/ q). split.
  - split; [apply Rinv_le_contravar; lra|]. rewrite <- (Rinv_inv (t ^ k)). apply Rinv_le_contravar; lra.
  - field. lra.
Qed.
Lemma near_0 k a : near t k a 0 <-> a = 0.
Proof. split; [intros (q & _ & ->); ring|intros ->; apply near_refl]. Qed.
Lemma near_zero k a b : near t k a b -> (a = 0 <-> b = 0).
Proof. intros (q & (Q1 & Q2) & ->). pose proof (tinv_pos k). split; [intros H0; apply Rmult_integral in H0; destruct H0; lra|intros ->; ring]. Qed.
Lemma near_bounds k a b : 0 <= b -> (near t k a b <-> b / t ^ k <= a <= b * t ^ k).
Proof.
  intros Hb. pose proof (tpow_pos k) as P. split.
  - intros (q & (Q1 & Q2) & ->). unfold Rdiv. split; apply Rmult_le_compat_l; lra.
  - intros (A1 & A2). destruct (Req_dec b 0) as [->|Hn].
    + exists 1. split; [split; [apply tinv_le1|apply tpow_ge1]|]. unfold Rdiv in A1. lra.
    + exists (a / b). split; [|field; exact Hn]. split.
      * apply Rmult_le_reg_r with (r := b); [lra|]. replace (a / b * b) with a by (field; exact Hn). unfold Rdiv in A1. lra.
      * apply Rmult_le_reg_r with (r := b); [lra|]. replace (a / b * b) with a by (field; exact Hn). lra.
Qed.
Lemma near_nonneg k a b : near t k a b -> 0 <= b -> 0 <= a.
Proof. intros (q & (Q1 & Q2) & ->) Hb. pose proof (tinv_pos k). apply Rmult_le_pos; lra. Qed.
Lemma near_pos k a b : near t k a b -> 0 < b -> 0 < a.
Proof. intros (q & (Q1 & Q2) & ->) Hb. pose proof (tinv_pos k). apply Rmult_lt_0_compat; lra. Qed.
Lemma near_neg k a b : near t k a b -> b <= 0 -> a <= 0.
Proof. intros (q & (Q1 & Q2) & ->) Hb. pose proof (tinv_pos k). nra. Qed.
Lemma near_sign k a b : near t k a b -> (0 < a <-> 0 < b).
Proof. intros H. split; intros G; [|exact (near_pos _ _ _ H G)]. apply near_sym in H. exact (near_pos _ _ _ H G). Qed.
Lemma near_plus k a b a' b' : 0 <= a' -> 0 <= b' -> near t k a a' -> near t k b b' -> near t k (a + b) (a' + b').
Proof.
  intros Ha Hb. rewrite !near_bounds by lra. unfold Rdiv. rewrite !Rmult_plus_distr_r. intros (A1 & A2) (B1 & B2). lra.
Qed.
Lemma near_mult j k a b a' b' : near t j a a' -> near t k b b' -> near t (j + k) (a * b) (a' * b').
Proof.
  intros (p & (P1 & P2) & ->) (q & (Q1 & Q2) & ->). exists (p * q). split; [|ring]. pose proof (tinv_pos j). pose proof (tinv_pos k).
  rewrite pow_add, Rinv_mult. split; apply Rmult_le_compat; lra.
Qed.
Lemma near_inv k a b : near t k a b -> near t k (/ a) (/ b).
Proof.
  intros (q & (Q1 & Q2) & ->). pose proof (tinv_pos k). exists (/ q). split; [|apply Rinv_mult].
  split; [apply Rinv_le_contravar; lra|]. rewrite <- (Rinv_inv (t ^ k)). apply Rinv_le_contravar; lra.
Qed.
Lemma near_quot j k a b a' b' : near t j a a' -> near t k b b' -> near t (j + k) (a / b) (a' / b').
Proof. intros A B. apply near_mult; [exact A|apply near_inv, B]. Qed.
Lemma near_opp k a b : near t k a b -> near t k (- a) (- b).
Proof. intros (q & Q & ->). exists q. split; [exact Q|ring]. Qed.
Lemma near_root k a b : 0 <= b -> near t (2 * k) a b -> near t k (sqrt a) (sqrt b).
Proof.
  intros Hb (q & (Q1 & Q2) & ->). pose proof (tinv_pos (2 * k)). exists (sqrt q). rewrite sqrt_mult by lra. split; [|reflexivity].
  assert (S : sqrt (t ^ (2 * k)) = t ^ k).
  { replace (t ^ (2 * k)) with (t ^ k * t ^ k) by (rewrite <- pow_add; f_equal; lia). apply sqrt_square. apply Rlt_le, tpow_pos. }
  split; [|rewrite <- S; apply sqrt_le_1; pose proof (tpow_pos (2 * k)); lra].
  rewrite <- S. rewrite <- sqrt_inv. apply sqrt_le_1; lra.
Qed.
End Near.

Section Std.
Context (o : ops) (t tl : R) (SM : standard o t tl).
Local Notation FN := (FNum o).
Let Ht : 1 <= t := st_t _ _ _ SM.

Lemma near_fadd k a b a' b' : 0 <= a' -> 0 <= b' -> near t k a a' -> near t k b b' -> near t (S k) (@fadd FN a b) (a' + b').
Proof. intros Ha Hb A B. apply (near_trans t Ht 1 k _ (a + b)); [apply (st_add _ _ _ SM)|]. apply near_plus; assumption. Qed.
Lemma near_fmul j k a b a' b' : near t j a a' -> near t k b b' -> near t (S (j + k)) (@fmul FN a b) (a' * b').
Proof. intros A B. apply (near_trans t Ht 1 (j + k) _ (a * b)); [apply (st_mul _ _ _ SM)|]. apply near_mult; assumption. Qed.
Lemma near_fdiv j k a b a' b' : b' <> 0 -> near t j a a' -> near t k b b' -> near t (S (j + k)) (@fdiv FN a b) (a' / b').
Proof.
  intros Hb A B. apply (near_trans t Ht 1 (j + k) _ (a / b)); [apply (st_div _ _ _ SM)|apply near_quot; assumption].
  rewrite (near_zero t Ht k b b' B). exact Hb.
Qed.
Lemma near_fsqrt k a b : 0 <= b -> near t (2 * k) a b -> near t (S k) (@fsqrt FN a) (sqrt b).
Proof.
  intros Hb A. apply (near_trans t Ht 1 k _ (sqrt a)); [apply (st_sqrt _ _ _ SM); exact (near_nonneg t Ht _ _ _ A Hb)|]. apply near_root; assumption.
Qed.
Lemma near_fsq k a b : near t k a b -> near t (S (2 * k)) (@fsq FN a) (b * b).
Proof. intros A. unfold fsq. replace (2 * k)%nat with (k + k)%nat by lia. apply near_fmul; exact A. Qed.
Lemma near_sumn k n f g : (forall i, (i < n)%nat -> 0 <= g i /\ near t k (f i) (g i)) -> near t (k + n) (@sumn FN n f) (rsum n g).
Proof.
  induction n as [|n IH]; intros H; [apply near_refl; exact Ht|]. cbn [sumn rsum]. rewrite Nat.add_succ_r. apply near_fadd.
  - apply rsum_nonneg. intros i Hi. apply H. lia.
  - apply H. lia.
  - apply IH. intros i Hi. apply H. lia.
  - apply (near_mono t Ht k); [lia|]. apply H. lia.
Qed.
(** a list summed from the left *)
Lemma near_fold k l l' : length l = length l' -> (forall i, (i < length l')%nat -> 0 <= nth i l' 0 /\ near t k (nth i l 0) (nth i l' 0)) -> forall a a' j, 0 <= a' -> (k <= j)%nat -> near t j a a' ->
  near t (j + length l') (fold_left (@fadd FN) l a) (fold_left Rplus l' a').
Proof.
  revert l'. induction l as [|x xs IH]; intros [|y ys] HL H a a' j Ha Hj A; try discriminate; cbn [fold_left length].
  - rewrite Nat.add_0_r. exact A.
  - injection HL as HL. rewrite Nat.add_succ_r, <- Nat.add_succ_l. destruct (H O ltac:(cbn; lia)) as (Y & NY). cbn in Y, NY. apply IH.
    + exact HL.
    + intros i Hi. apply (H (S i)). cbn. lia.
    + lra.
    + lia.
    + apply near_fadd; try assumption. apply (near_mono t Ht k); assumption.
Qed.
Lemma near_suml k l l' : length l = length l' -> (forall i, (i < length l')%nat -> 0 <= nth i l' 0 /\ near t k (nth i l 0) (nth i l' 0)) ->
  near t (k + length l') (@suml FN l) (@suml RNum l').
Proof. intros HL H. apply (near_fold k); try assumption; [apply Rle_refl|lia|apply near_refl; exact Ht]. Qed.
Lemma near_finv0 k a b : near t k a b -> near t (S k) (@finv0 FN a) (@finv0 RNum b).
Proof.
  intros A. unfold finv0. cbn [feqb FNum RNum]. change (@f0 FN) with 0. change (@f0 RNum) with 0.
  destruct (Reqb a 0) eqn:E1; destruct (Reqb b 0) eqn:E2.
  - apply near_refl; exact Ht.
  - apply Reqb_eq in E1. rewrite (near_zero t Ht _ _ _ A) in E1. apply Reqb_eq in E1. congruence.
  - apply Reqb_eq in E2. rewrite <- (near_zero t Ht _ _ _ A) in E2. apply Reqb_eq in E2. congruence.
  - change (near t (S (0 + k)) (@fdiv FN 1 a) (1 / b)). apply near_fdiv; [|apply near_refl; exact Ht|exact A]. intros ->. assert (Reqb 0 0 = true) by (apply Reqb_eq; reflexivity). congruence.
Qed.
End Std.

(** ** matrices *)
Section Mats.
Context (o : ops) (t tl : R) (SM : standard o t tl).
Local Notation FN := (FNum o).
Let Ht : 1 <= t := st_t _ _ _ SM.
Lemma exact_positive (m : @matrix FN) : @m_assert_positive FN m = @m_assert_positive RNum (exact m).
Proof. destruct m; reflexivity. Qed.
Lemma exact_ent (m : @matrix FN) i j : @ment RNum (exact m) i j = fent m i j.
Proof. destruct m; reflexivity. Qed.
Lemma exact_nr (m : @matrix FN) : @m_nr RNum (exact m) = @m_nr FN m.
Proof. destruct m; reflexivity. Qed.
Lemma exact_nc (m : @matrix FN) : @m_nc RNum (exact m) = @m_nc FN m.
Proof. destruct m; reflexivity. Qed.
Lemma exact_type (m : @matrix FN) : @type_of RNum (exact m) = @type_of FN m.
Proof. destruct m; reflexivity. Qed.
Lemma exact_wf (m : @matrix FN) : @mwf RNum (exact m) <-> @mwf FN m.
Proof. destruct m; cbn; tauto. Qed.
Lemma approx_exact (m : @matrix FN) : @mwf FN m -> approx t 0 m (exact m).
Proof.
  intros W. split; [rewrite exact_type; reflexivity|]. split; [rewrite exact_nr; reflexivity|]. split; [rewrite exact_nc; reflexivity|]. split; [exact W|]. split; [apply exact_wf, W|].
  intros i j _ _. rewrite exact_ent. apply near_refl, Ht.
Qed.
Lemma approx_mono j k m e : (j <= k)%nat -> @approx o t j m e -> approx t k m e.
Proof. intros H (A & B & C & D & E & G). repeat (split; [assumption|]). intros p q Hp Hq. apply (near_mono t Ht j); [exact H|]. apply G; assumption. Qed.
Lemma approx_vals k m e : @approx o t k m e ->
  @vals FN m (@type_of RNum e) (@m_nr RNum e) (@m_nc RNum e) (fent m) /\ @vals RNum e (@type_of RNum e) (@m_nr RNum e) (@m_nc RNum e) (@ment RNum e).
Proof. intros (A & B & C & D & E & _). split; [rewrite <- A, <- B, <- C; apply (@vals_self FN); exact D|apply vals_self; exact E]. Qed.
Lemma vals_approx k m e ty r c f g : @vals FN m ty r c f -> @vals RNum e ty r c g -> (forall i j, (i < r)%nat -> (j < c)%nat -> near t k (f i j) (g i j)) -> approx t k m e.
Proof.
  intros V W H. pose proof (@vals_has FN _ _ _ _ _ V) as (V1 & V2 & V3 & V4). pose proof (vals_has _ _ _ _ _ W) as (W1 & W2 & W3 & W4).
  split; [congruence|]. split; [congruence|]. split; [congruence|]. split; [exact V1|]. split; [exact W1|]. rewrite W3, W4. intros i j Hi Hj.
  unfold fent. rewrite (@vals_ent FN _ _ _ _ _ i j V Hi Hj), (vals_ent _ _ _ _ _ i j W Hi Hj). apply H; assumption.
Qed.
Lemma approx_pos k m e : @approx o t k m e -> @m_assert_positive FN m = @m_assert_positive RNum e.
Proof.
  intros (A & B & C & D & E & G). rewrite exact_positive. destruct (assert_positive_iff (exact m) (proj2 (exact_wf m) D)) as (I1 & D1).
  destruct (assert_positive_iff e E) as (I2 & D2).
  assert (K : @m_assert_positive RNum (exact m) = Ok tt <-> @m_assert_positive RNum e = Ok tt).
  { rewrite I1, I2, exact_nr, exact_nc, B, C. split; intros H i j Hi Hj; specialize (H i j Hi Hj); specialize (G i j Hi Hj); rewrite ?exact_ent in *.
    - apply (near_nonneg t Ht k _ (fent m i j)); [apply near_sym, G; exact Ht|exact H].
    - apply (near_nonneg t Ht k _ (@ment RNum e i j)); [exact G|exact H]. }
  destruct D1 as [D1|D1], D2 as [D2|D2]; rewrite D1, D2; try reflexivity; exfalso; rewrite D1, D2 in K; destruct K as (K1 & K2); [specialize (K1 eq_refl)|specialize (K2 eq_refl)]; discriminate.
Qed.
Lemma sumn_R n (f : nat -> R) : @sumn RNum n f = rsum n f.
Proof. apply sumn_rsum. Qed.
(** sums of the entries of a matrix *)
Lemma near_sum1 k m e i : @approx o t k m e -> nonneg e -> (i < @m_nr RNum e)%nat ->
  near t (k + @m_nc RNum e) (nth i (@m_sum1 FN m) 0) (nth i (@m_sum1 RNum e) 0).
Proof.
  intros A P Hi. destruct (approx_vals _ _ _ A) as (V & W). pose proof (@vals_sum1 FN _ _ _ _ _ i V Hi) as S1. pose proof (@vals_sum1 RNum _ _ _ _ _ i W Hi) as S2.
  change (@f0 FN) with 0 in S1. change (@f0 RNum) with 0 in S2. rewrite S1, S2, sumn_R. apply (near_sumn o t tl SM). intros j Hj. split; [apply P; assumption|]. apply A; assumption.
Qed.
Lemma near_sum0 k m e j : @approx o t k m e -> nonneg e -> (j < @m_nc RNum e)%nat ->
  near t (k + @m_nr RNum e) (nth j (@m_sum0 FN m) 0) (nth j (@m_sum0 RNum e) 0) /\ 0 <= nth j (@m_sum0 RNum e) 0.
Proof.
  intros A P Hi. destruct (approx_vals _ _ _ A) as (V & W). pose proof (@vals_sum0 FN _ _ _ _ _ j V Hi) as S1. pose proof (@vals_sum0 RNum _ _ _ _ _ j W Hi) as S2.
  change (@f0 FN) with 0 in S1. change (@f0 RNum) with 0 in S2. rewrite S1, S2, sumn_R. split; [|apply rsum_nonneg; intros i Hi'; apply P; assumption].
  apply (near_sumn o t tl SM). intros i Hi'. split; [apply P; assumption|]. apply A; assumption.
Qed.
Lemma near_sum k m e : @approx o t k m e -> nonneg e -> near t (k + @m_nc RNum e + @m_nr RNum e) (@m_sum FN m) (@m_sum RNum e).
Proof.
  intros A P. destruct (approx_vals _ _ _ A) as (V & W). rewrite (@vals_sum FN _ _ _ _ _ V), (@vals_sum RNum _ _ _ _ _ W), sumn_R. apply (near_sumn o t tl SM).
  intros i Hi. rewrite sumn_R. split; [apply rsum_nonneg; intros; apply P; assumption|]. apply (near_sumn o t tl SM). intros j Hj. split; [apply P; assumption|]. apply A; assumption.
Qed.
Lemma len_sum1 {N : Num} (m : @matrix N) : length (@m_sum1 N m) = m_nr m.
Proof. unfold m_sum1, d_sum1. rewrite map_length, seq_length. apply to_dense_nr. Qed.
Lemma len_sum0 {N : Num} (m : @matrix N) : length (@m_sum0 N m) = m_nc m.
Proof. unfold m_sum0, d_sum0. rewrite map_length, seq_length. apply to_dense_nc. Qed.
(** number of values summed in the norm of a whole matrix, at most *)
Definition stored (m : @matrix FN) : nat := match m with MD d => (d_nr d + d_nc d)%nat | MS c => length (s_data c) end.
Lemma half_le n : (n <= 2 * (S n / 2))%nat.
Proof. pose proof (Nat.div_mod (S n) 2 ltac:(lia)). pose proof (Nat.mod_upper_bound (S n) 2 ltac:(lia)). lia. Qed.
Lemma near_rsum k n f g : (forall i, (i < n)%nat -> 0 <= g i /\ near t k (f i) (g i)) -> near t k (rsum n f) (rsum n g).
Proof.
  induction n as [|n IH]; intros H; cbn [rsum]; [apply near_refl, Ht|]. apply near_plus; try exact Ht.
  - apply rsum_nonneg. intros i Hi. apply H. lia.
  - apply H. lia.
  - apply IH. intros i Hi. apply H. lia.
  - apply H. lia.
Qed.
Lemma near_norm k m e : @approx o t k m e -> near t (S (k + S (S (stored m)) / 2)) (@m_norm FN m) (@m_norm RNum e).
Proof.
  intros A. pose proof A as (AT & AR & AC & AW & EW & G). rewrite (m_norm_R e EW). set (tot := rsum _ _).
  assert (T0 : 0 <= tot) by (apply rsum_nonneg; intros; apply rsum_nonneg; intros; apply Rle_0_sqr).
  set (ex := rsum (@m_nr RNum e) (fun i => rsum (@m_nc RNum e) (fun j => fent m i j * fent m i j))).
  assert (NE : near t (2 * k) ex tot).
  { apply near_rsum. intros i Hi. split; [apply rsum_nonneg; intros; apply Rle_0_sqr|]. apply near_rsum. intros j Hj. split; [apply Rle_0_sqr|].
    replace (2 * k)%nat with (k + k)%nat by lia. apply near_mult; [exact Ht| |]; apply G; assumption. }
  assert (E0 : 0 <= ex) by (apply rsum_nonneg; intros; apply rsum_nonneg; intros; apply Rle_0_sqr).
  assert (NS : exists s, @m_norm FN m = o_sqrt o s /\ near t (S (stored m)) s ex).
  { unfold ex. rewrite <- AR, <- AC. destruct m as [d|c]; cbn [m_norm stored]; eexists; (split; [reflexivity|]).
    - unfold d_sqtotal. replace (S (d_nr d + d_nc d)) with (1 + d_nc d + d_nr d)%nat by lia. apply (near_sumn o t tl SM). intros i Hi. split; [apply rsum_nonneg; intros; apply Rle_0_sqr|].
      apply (near_sumn o t tl SM). intros j Hj. split; [apply Rle_0_sqr|]. apply (near_fsq o t tl SM 0). apply near_refl, Ht.
    - pose proof (data_sum (fun x => x * x) (@CSR RNum (s_nr c) (s_nc c) (s_data c) (s_ind c) (s_ptr c)) AW (Rmult_0_l 0)) as DS.
      refine (eq_ind _ (near t (S (length (s_data c))) (@suml FN (map (@fsq FN) (s_data c)))) _ _ DS). clear DS.
      assert (LE : length (map (@fsq FN) (s_data c)) = length (map (fun x : R => x * x) (s_data c))) by (rewrite !map_length; reflexivity).
      pose proof (near_suml o t tl SM 1 _ _ LE) as NN. rewrite map_length in NN. apply NN. intros i Hi.
      assert (D1 : nth i (map (fun x : R => x * x) (s_data c)) 0 = nth i (s_data c) 0 * nth i (s_data c) 0).
      { rewrite (nth_indep _ 0 ((fun x : R => x * x) 0)) by (rewrite map_length; exact Hi). apply (map_nth (fun x : R => x * x)). }
      assert (D2 : nth i (map (@fsq FN) (s_data c)) 0 = @fsq FN (nth i (s_data c) 0)).
      { rewrite (nth_indep _ 0 (@fsq FN 0)) by (rewrite map_length; exact Hi). apply (map_nth (@fsq FN)). }
      rewrite D1. split; [apply Rle_0_sqr|]. refine (eq_ind_r (fun z : R => near t 1 z (nth i (s_data c) 0 * nth i (s_data c) 0)) _ D2).
      apply (near_fsq o t tl SM 0). apply near_refl, Ht. }
  destruct NS as (s & -> & NS). apply (near_fsqrt o t tl SM); [exact T0|].
  apply (near_mono t Ht (S (stored m) + 2 * k)); [pose proof (half_le (S (stored m))); lia|]. apply (near_trans t Ht _ _ _ ex); assumption.
Qed.
Lemma near_norm1 k m e i : @approx o t k m e -> (i < @m_nr RNum e)%nat ->
  near t (S (k + S (S (@m_nc RNum e)) / 2)) (nth i (@m_norm1 FN m) 0) (nth i (@m_norm1 RNum e) 0).
Proof.
  intros A Hi. pose proof A as (AT & AR & AC & AW & EW & G).
  assert (Hp : (0 < @m_nr RNum e /\ 0 < @m_nc RNum e)%nat) by (apply mwf_pos, EW). destruct Hp as (Hr & Hc).
  rewrite (nth_m_norm1_R e i EW Hi). unfold m_norm1.
  assert (L : (i < length (@m_sum1 FN (@of_dense FN (@type_of FN m) (@d_map2 FN (@fmul FN) (to_dense m) (to_dense m)))))%nat).
  { rewrite (@len_sum1 FN). destruct m; cbn [of_dense type_of m_nr d_map2 tab d_nr csr_of_dense csr_of_rows s_nr to_dense] in *; rewrite ?map_length, ?seq_length; cbn in AR |- *; lia. }
  rewrite (nth_indep _ 0 (o_sqrt o 0)) by (rewrite map_length; exact L). rewrite (map_nth (o_sqrt o)).
  apply (near_fsqrt o t tl SM); [apply rsum_nonneg; intros; apply Rle_0_sqr|].
  assert (V : @vals FN (@of_dense FN (@type_of FN m) (@d_map2 FN (@fmul FN) (to_dense m) (to_dense m))) (@type_of FN m) (@m_nr FN m) (@m_nc FN m) (fun i j => @fmul FN (@dent FN (to_dense m) i j) (@dent FN (to_dense m) i j))).
  { unfold d_map2. rewrite (@to_dense_nr FN), (@to_dense_nc FN). apply (@vals_of_dense FN); congruence. }
  rewrite AR, AC in V. pose proof (@vals_sum1 FN _ _ _ _ _ i V Hi) as S1. change (@f0 FN) with 0 in S1.
  refine (eq_ind_r (fun z : R => near t _ z _) _ S1).
  apply (near_mono t Ht (S (2 * k) + @m_nc RNum e)); [pose proof (half_le (S (@m_nc RNum e))); lia|].
  apply (near_sumn o t tl SM). intros j Hj. split; [apply Rle_0_sqr|].
  rewrite (@dent_to_dense FN) by congruence. apply (near_fsq o t tl SM k (fent m i j)). apply G; assumption.
Qed.
End Mats.
