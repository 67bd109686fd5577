(** Prop_RoundComp.v -- property C102: what rounding does to composed vectors. *)
From Coq Require Import Reals Lra Psatz.
From Verif Require Import Base PyList Dict Num SpecReal Dense Sparse Matrix PSparse PMatrix PMatOps PShape PVals PReal PPos Scaling Linalg Operation Similarity Space
  SpecSpace PSpace Prop_Space Prop_Sim Learner Composition SpecComp PComp Prop_Comp Utils LexFun PLexAny Round PRound Prop_Round Prop_RoundSim.
Open Scope R_scope.

Section Comp.
Context (o : ops) (t tl : R) (SM : standard o t tl).
Local Notation FN := (FNum o).
Let Ht : 1 <= t := st_t _ _ _ SM.

(** x is y up to the effect of k rounding errors on terms that are at most T in absolute value, together *)
Definition off (k : nat) (x y T : R) : Prop := Rabs y <= T /\ Rabs (x - y) <= (t ^ k - 1) * T.
Lemma off_pos k x y T : off k x y T -> 0 <= T.
Proof. intros (H & _). pose proof (Rabs_pos y). lra. Qed.
Lemma off_near k x y : near t k x y -> off k x y (Rabs y).
Proof. intros H. split; [lra|]. apply (near_off o t tl SM), H. Qed.
Lemma off_refl x : off 0 x x (Rabs x).
Proof. apply off_near, near_refl, Ht. Qed.
Lemma off_mono j k x y T : (j <= k)%nat -> off j x y T -> off k x y T.
Proof. intros H (A & B). split; [exact A|]. pose proof (tpow_mono t Ht j k H). pose proof (off_pos _ _ _ _ (conj A B)). apply Rle_trans with (1 := B). apply Rmult_le_compat_r; lra. Qed.
Lemma off_step k x y T z : off k x y T -> near t 1 z x -> off (S k) z y T.
Proof. intros H N. pose proof (off_pos _ _ _ _ H). destruct H as (A & B). split; [exact A|]. apply (fadd_off o t tl SM k x); assumption. Qed.
Lemma off_mul j k a b a' b' S T : off j a a' S -> off k b b' T -> off (j + k) (a * b) (a' * b') (S * T).
Proof.
  intros HA HB. pose proof (off_pos _ _ _ _ HA) as S0. pose proof (off_pos _ _ _ _ HB) as T0. destruct HA as (A & DA), HB as (B & DB).
  pose proof (tpow_ge1 t Ht j) as P1. pose proof (tpow_ge1 t Ht k) as P2. pose proof (Rabs_pos a') as Q1. pose proof (Rabs_pos b') as Q2. split.
  - rewrite Rabs_mult. apply Rmult_le_compat; assumption.
  - replace (a * b - a' * b') with ((a - a') * (b - b') + (a - a') * b' + a' * (b - b')) by ring.
    apply Rle_trans with (1 := Rabs_triang _ _). apply Rle_trans with (Rabs ((a - a') * (b - b')) + Rabs ((a - a') * b') + Rabs (a' * (b - b'))); [apply Rplus_le_compat_r, Rabs_triang|].
    rewrite !Rabs_mult, pow_add. set (x := Rabs (a - a')) in *. set (y := Rabs (b - b')) in *. assert (X0 : 0 <= x) by apply Rabs_pos. assert (Y0 : 0 <= y) by apply Rabs_pos.
    assert (E1 : x * y <= (t ^ j - 1) * S * ((t ^ k - 1) * T)) by (apply Rmult_le_compat; assumption).
    assert (E2 : x * Rabs b' <= (t ^ j - 1) * S * T) by (apply Rmult_le_compat; assumption).
    assert (E3 : Rabs a' * y <= S * ((t ^ k - 1) * T)) by (apply Rmult_le_compat; assumption). nra.
Qed.
Lemma off_add k a b a' b' S T : off k a a' S -> off k b b' T -> off k (a + b) (a' + b') (S + T).
Proof.
  intros (A & DA) (B & DB). split; [apply Rle_trans with (1 := Rabs_triang _ _); lra|].
  replace (a + b - (a' + b')) with ((a - a') + (b - b')) by ring. apply Rle_trans with (1 := Rabs_triang _ _). lra.
Qed.
Lemma off_fmul j k a b a' b' S T : off j a a' S -> off k b b' T -> off (Datatypes.S (j + k)) (@fmul FN a b) (a' * b') (S * T).
Proof. intros A B. apply off_step with (a * b); [apply off_mul; assumption|apply (st_mul _ _ _ SM)]. Qed.
Lemma off_fadd k a b a' b' S T : off k a a' S -> off k b b' T -> off (Datatypes.S k) (@fadd FN a b) (a' + b') (S + T).
Proof. intros A B. apply off_step with (a + b); [apply off_add; assumption|apply (st_add _ _ _ SM)]. Qed.
Lemma off_sumn k n f g T : (forall i, (i < n)%nat -> off k (f i) (g i) (T i)) -> off (k + n) (@sumn FN n f) (rsum n g) (rsum n T).
Proof.
  induction n as [|n IH]; intros H; cbn [sumn rsum].
  - change (@f0 FN) with 0. split; [rewrite Rabs_R0; lra|]. rewrite Rminus_0_r, Rabs_R0. lra.
  - rewrite Nat.add_succ_r. apply off_fadd; [apply IH; intros; apply H; lia|]. apply (off_mono k); [lia|]. apply H. lia.
Qed.
Lemma off_product (f g : nat -> R) (j : nat) : off 1 (@fmul FN (f j) (g j)) (f j * g j) (Rabs (f j) * Rabs (g j)).
Proof. exact (off_fmul 0 0 _ _ _ _ _ _ (off_refl (f j)) (off_refl (g j))). Qed.

(** ** the four models; [u] and [v] are the stored vectors of the two words of tuple i *)
Theorem C102_multiplicative : forall m data a s1 s2 m' s, @cm_kind FN m = @Mult FN ->
  @consistent FN s1 -> @consistent FN s2 -> @args_of FN a s1 s2 -> @m_nc FN (s_mat s1) = @m_nc FN (s_mat s2) -> @compose FN m data a = (m', Ok s) ->
  @m_nc FN (s_mat s) = @m_nc FN (s_mat s1) /\
  forall i w1 w2 ph j, nth_error (filter (@usable2 FN s1 s2) data) i = Some (w1, w2, ph) -> (j < @m_nc FN (s_mat s1))%nat ->
    near t 1 (fent (s_mat s) i j) (@vec FN s1 w1 j * @vec FN s2 w2 j).
Proof.
  intros m data a s1 s2 m' s Hk C1 C2 Ha Hn Hs.
  destruct (@compose_entry FN m data a s1 s2 m' s C1 C2 Ha) as (Hc & He); [rewrite Hk; exact Hn|exact Hs|].
  rewrite Hk in Hc, He. cbn [width] in Hc. split; [exact Hc|]. intros i w1 w2 ph j Hi Hj. unfold fent. rewrite (He i w1 w2 ph j Hi ltac:(lia)).
  apply (st_mul _ _ _ SM).
Qed.

Theorem C102_weighted_additive : forall m alpha beta data a s1 s2 m' s, @cm_kind FN m = @WAdd FN alpha beta ->
  @consistent FN s1 -> @consistent FN s2 -> @args_of FN a s1 s2 -> @m_nc FN (s_mat s1) = @m_nc FN (s_mat s2) -> @compose FN m data a = (m', Ok s) ->
  @m_nc FN (s_mat s) = @m_nc FN (s_mat s1) /\
  forall i w1 w2 ph j, nth_error (filter (@usable2 FN s1 s2) data) i = Some (w1, w2, ph) -> (j < @m_nc FN (s_mat s1))%nat ->
    let x := alpha * @vec FN s1 w1 j in let y := beta * @vec FN s2 w2 j in
    Rabs (fent (s_mat s) i j - (x + y)) <= (t ^ 2 - 1) * (Rabs x + Rabs y) /\ (0 <= x -> 0 <= y -> near t 2 (fent (s_mat s) i j) (x + y)).
Proof.
  intros m al be data a s1 s2 m' s Hk C1 C2 Ha Hn Hs.
  destruct (@compose_entry FN m data a s1 s2 m' s C1 C2 Ha) as (Hc & He); [rewrite Hk; exact Hn|exact Hs|].
  rewrite Hk in Hc, He. cbn [width] in Hc. split; [exact Hc|]. intros i w1 w2 ph j Hi Hj x y. unfold fent. rewrite (He i w1 w2 ph j Hi ltac:(lia)). cbn [gform].
  assert (NX : near t 1 (@fmul FN (@vec FN s1 w1 j) al) x) by (unfold x; rewrite Rmult_comm; apply (st_mul _ _ _ SM)).
  assert (NY : near t 1 (@fmul FN (@vec FN s2 w2 j) be) y) by (unfold y; rewrite Rmult_comm; apply (st_mul _ _ _ SM)).
  split.
  - apply (off_fadd 1 _ _ _ _ _ _ (off_near _ _ _ NX) (off_near _ _ _ NY)).
  - intros X Y. apply (near_fadd o t tl SM 1); assumption.
Qed.

Theorem C102_dilation : forall m lambda data a s1 s2 m' s, @cm_kind FN m = @Dil FN lambda ->
  @consistent FN s1 -> @consistent FN s2 -> @args_of FN a s1 s2 -> @m_nc FN (s_mat s1) = @m_nc FN (s_mat s2) -> @compose FN m data a = (m', Ok s) ->
  @m_nc FN (s_mat s) = @m_nc FN (s_mat s1) /\
  forall i w1 w2 ph j, nth_error (filter (@usable2 FN s1 s2) data) i = Some (w1, w2, ph) -> (j < @m_nc FN (s_mat s1))%nat ->
    let n := @m_nc FN (s_mat s1) in let u := @vec FN s1 w1 : nat -> R in let v := @vec FN s2 w2 : nat -> R in
    Rabs (fent (s_mat s) i j - (dot n u u * v j + (lambda - 1) * dot n u v * u j)) <=
    (t ^ (n + 7) - 1) * (dot n u u * Rabs (v j) + Rabs (lambda - 1) * rsum n (fun q => Rabs (u q) * Rabs (v q)) * Rabs (u j)).
Proof.
  intros m la data a s1 s2 m' s Hk C1 C2 Ha Hn Hs.
  destruct (@compose_entry FN m data a s1 s2 m' s C1 C2 Ha) as (Hc & He); [rewrite Hk; exact Hn|exact Hs|].
  rewrite Hk in Hc, He. cbn [width] in Hc. split; [exact Hc|]. intros i w1 w2 ph j Hi Hj n u v. unfold fent. rewrite (He i w1 w2 ph j Hi ltac:(lia)). cbn [gform]. fold n u v.
  assert (O1 : off (1 + n) (@sumn FN n (fun q => @fmul FN (u q) (v q))) (dot n u v) (rsum n (fun q => Rabs (u q) * Rabs (v q)))) by (apply off_sumn; intros q _; apply off_product).
  assert (N2 : near t (1 + n) (@sumn FN n (fun q => @fmul FN (u q) (u q))) (dot n u u)).
  { apply (near_sumn o t tl SM). intros q _. split; [apply Rle_0_sqr|apply (st_mul _ _ _ SM)]. }
  assert (D0 : 0 <= dot n u u) by (apply rsum_nonneg; intros; apply Rle_0_sqr).
  set (h := ((n + 2) / 2)%nat). assert (Hh : (1 + n <= 2 * h /\ 2 * h <= n + 2)%nat) by (unfold h; pose proof (Nat.div_mod_eq (n + 2) 2); pose proof (Nat.mod_upper_bound (n + 2) 2 ltac:(lia)); lia).
  assert (N3 : near t (n + 5) (@fsq FN (@fsqrt FN (@sumn FN n (fun q => @fmul FN (u q) (u q))))) (dot n u u)).
  { pose proof (near_fsqrt o t tl SM h _ _ D0 (near_mono t Ht (1 + n) (2 * h) _ _ (proj1 Hh) N2)) as Q. pose proof (near_fsq o t tl SM _ _ _ Q) as Q2. rewrite sqrt_sqrt in Q2 by exact D0.
    apply (near_mono t Ht (S (2 * S h))); [lia|exact Q2]. }
  pose proof (off_fmul _ _ _ _ _ _ _ _ (off_fmul _ _ _ _ _ _ _ _ (off_refl (u j)) O1) (off_near _ _ _ (st_sub _ _ _ SM la 1))) as P1.
  pose proof (off_fmul _ _ _ _ _ _ _ _ (off_refl (v j)) (off_near _ _ _ N3)) as P2.
  pose proof (off_fadd (n + 6) _ _ _ _ _ _ (off_mono (S (S (0 + (1 + n)) + 1)) (n + 6) _ _ _ ltac:(lia) P1) (off_mono (S (0 + (n + 5))) (n + 6) _ _ _ ltac:(lia) P2)) as (_ & B).
  rewrite (Rabs_pos_eq (dot n u u) D0) in B.
  replace (n + 7)%nat with (S (n + 6)) by lia.
  replace (dot n u u * v j + (la - 1) * dot n u v * u j) with (u j * dot n u v * (la - 1) + v j * dot n u u) by ring.
  replace (dot n u u * Rabs (v j) + Rabs (la - 1) * rsum n (fun q => Rabs (u q) * Rabs (v q)) * Rabs (u j)) with
    (Rabs (u j) * rsum n (fun q => Rabs (u q) * Rabs (v q)) * Rabs (la - 1) + Rabs (v j) * dot n u u) by ring.
  exact B.
Qed.

(** A and B are the stored transposes; [if icpt] the last row of B_t is the intercept *)
Theorem C102_full_additive : forall m At Bt icpt L data a s1 s2 m' s, @cm_kind FN m = @FAdd FN (Some (At, Bt)) icpt L ->
  @consistent FN s1 -> @consistent FN s2 -> @args_of FN a s1 s2 -> @fits FN (@cm_kind FN m) (@m_nc FN (s_mat s1)) (@m_nc FN (s_mat s2)) -> @compose FN m data a = (m', Ok s) ->
  @m_nc FN (s_mat s) = @m_nc FN At /\
  forall i w1 w2 ph j, nth_error (filter (@usable2 FN s1 s2) data) i = Some (w1, w2, ph) -> (j < @m_nc FN At)%nat ->
    let n1 := @m_nc FN (s_mat s1) in let n2 := @m_nc FN (s_mat s2) in let u := @vec FN s1 w1 : nat -> R in let v := @vec FN s2 w2 : nat -> R in
    let A := fent At in let B := fent Bt in
    Rabs (fent (s_mat s) i j - (rsum n1 (fun k => A k j * u k) + rsum n2 (fun k => B k j * v k) + (if icpt then B n2 j else 0))) <=
    (t ^ (Nat.max n1 (n2 + 1) + 2) - 1) * (rsum n1 (fun k => Rabs (A k j) * Rabs (u k)) + rsum n2 (fun k => Rabs (B k j) * Rabs (v k)) + (if icpt then Rabs (B n2 j) else 0)).
Proof.
  intros m At Bt icpt L data a s1 s2 m' s Hk C1 C2 Ha Hf Hs.
  destruct (@compose_entry FN m data a s1 s2 m' s C1 C2 Ha Hf Hs) as (Hc & He).
  rewrite Hk in Hc, He. cbn [width] in Hc. split; [exact Hc|]. intros i w1 w2 ph j Hi Hj n1 n2 u v A B. unfold fent at 1. rewrite (He i w1 w2 ph j Hi ltac:(lia)). cbn [gform]. fold n1 n2 u v.
  set (M := Nat.max n1 (n2 + 1)).
  assert (O1 : off (1 + M) (@sumn FN n1 (fun q => @fmul FN (u q) (@ment FN At q j))) (rsum n1 (fun k => A k j * u k)) (rsum n1 (fun k => Rabs (A k j) * Rabs (u k)))).
  { apply (off_mono (1 + n1)); [lia|]. apply off_sumn. intros q _. rewrite (Rmult_comm (A q j)), (Rmult_comm (Rabs (A q j))).
    exact (off_product u (fun q => A q j) q). }
  assert (O2 : off (1 + M) (@sumn FN (if icpt then n2 + 1 else n2)%nat (fun q => @fmul FN (@padv FN n2 icpt v q) (@ment FN Bt q j)))
     (rsum n2 (fun k => B k j * v k) + (if icpt then B n2 j else 0)) (rsum n2 (fun k => Rabs (B k j) * Rabs (v k)) + (if icpt then Rabs (B n2 j) else 0))).
  { assert (O2 : off (1 + (if icpt then n2 + 1 else n2)) (@sumn FN (if icpt then n2 + 1 else n2)%nat (fun q => @fmul FN (@padv FN n2 icpt v q) (@ment FN Bt q j)))
      (rsum (if icpt then n2 + 1 else n2) (fun q => @padv FN n2 icpt v q * B q j)) (rsum (if icpt then n2 + 1 else n2) (fun q => Rabs (@padv FN n2 icpt v q) * Rabs (B q j)))).
    { apply off_sumn. intros q _. exact (off_product (@padv FN n2 icpt v) (fun q => B q j) q). }
    assert (E1 : rsum n2 (fun k => B k j * v k) + (if icpt then B n2 j else 0) = rsum (if icpt then n2 + 1 else n2) (fun q => @padv FN n2 icpt v q * B q j)).
    { destruct icpt.
      - rewrite rsum_app. cbn [rsum]. rewrite Nat.add_0_r, Rplus_0_l. f_equal.
        + apply rsum_ext. intros q Hq. unfold padv. cbn [andb]. destruct (Nat.eqb_spec q n2); [lia|]. apply Rmult_comm.
        + unfold padv. rewrite Nat.eqb_refl. cbn [andb]. change (@f1 FN) with 1. ring.
      - rewrite Rplus_0_r. apply rsum_ext. intros q Hq. apply Rmult_comm. }
    assert (E2 : rsum n2 (fun k => Rabs (B k j) * Rabs (v k)) + (if icpt then Rabs (B n2 j) else 0) = rsum (if icpt then n2 + 1 else n2) (fun q => Rabs (@padv FN n2 icpt v q) * Rabs (B q j))).
    { destruct icpt.
      - rewrite rsum_app. cbn [rsum]. rewrite Nat.add_0_r, Rplus_0_l. f_equal.
        + apply rsum_ext. intros q Hq. unfold padv. cbn [andb]. destruct (Nat.eqb_spec q n2); [lia|]. apply Rmult_comm.
        + unfold padv. rewrite Nat.eqb_refl. cbn [andb]. change (@f1 FN) with 1. rewrite Rabs_R1. ring.
      - rewrite Rplus_0_r. apply rsum_ext. intros q Hq. apply Rmult_comm. }
    rewrite E1, E2. apply (off_mono (1 + (if icpt then n2 + 1 else n2)) (1 + M) _ _ _ ltac:(unfold M; destruct icpt; lia) O2). }
  rewrite !Rplus_assoc. replace (M + 2)%nat with (S (1 + M)) by lia. exact (proj2 (off_fadd _ _ _ _ _ _ _ O1 O2)).
Qed.

(** lexical functions held by dense matrices; the function of [w1] has one row per coordinate of the result, [n] columns, and one
    more with an intercept *)
Theorem C102_lexical_function : forall m fs data arg s sh, @consistent FN fs -> @consistent FN arg -> @type_of FN (s_mat fs) = TDense -> @type_of FN (s_mat arg) = TDense ->
  lf_fs m = Some fs -> @lf_compose FN m data arg = Ok s ->
  let n := @m_nc FN (s_mat arg) in let n' := if lf_icpt m then (n + 1)%nat else n in
  s_eshape fs = (sh ++ [n'])%list ->
  @m_nc FN (s_mat s) = list_prod_nat sh /\
  forall i w1 w2 ph r, nth_error (filter (@usable2 FN fs arg) data) i = Some (w1, w2, ph) -> (r < list_prod_nat sh)%nat ->
    let U := fun j : nat => @vec FN fs w1 (r * n' + j)%nat : R in let v := @vec FN arg w2 : nat -> R in
    Rabs (fent (s_mat s) i r - (rsum n (fun j => U j * v j) + (if lf_icpt m then U n else 0))) <=
    (t ^ (n + 2) - 1) * (rsum n (fun j => Rabs (U j) * Rabs (v j)) + (if lf_icpt m then Rabs (U n) else 0)).
Proof.
  intros m fs data arg s sh C1 C2 T1 T2 Hfs H n n' Hsh.
  destruct (@lf_compose_dense FN m fs data arg s C1 C2 T1 T2 Hfs H sh Hsh) as (Hc & He). fold n n' in He.
  split; [exact Hc|]. intros i w1 w2 ph r Hi Hr U v. unfold fent. rewrite (He i w1 w2 ph r Hi ltac:(lia)).
  unfold lform. fold n. set (p := fun j : nat => if (j <? n)%nat then v j else 1).
  assert (O : off (1 + n') (@sumn FN n' (fun j => @fmul FN (U j) (p j))) (rsum n' (fun j => U j * p j)) (rsum n' (fun j => Rabs (U j) * Rabs (p j)))) by (apply off_sumn; intros q _; exact (off_product U p q)).
  assert (P : forall q, (q < n)%nat -> p q = v q) by (intros q Hq; unfold p; destruct (Nat.ltb_spec q n); [reflexivity|lia]).
  assert (P1 : p n = 1) by (unfold p; rewrite Nat.ltb_irrefl; reflexivity).
  assert (E1 : rsum n (fun j => U j * v j) + (if lf_icpt m then U n else 0) = rsum n' (fun j => U j * p j)).
  { unfold n'. destruct (lf_icpt m).
    - rewrite rsum_app. cbn [rsum]. rewrite Nat.add_0_r, Rplus_0_l, P1, Rmult_1_r. f_equal. apply rsum_ext. intros q Hq. rewrite (P q Hq). reflexivity.
    - rewrite Rplus_0_r. apply rsum_ext. intros q Hq. rewrite (P q Hq). reflexivity. }
  assert (E2 : rsum n (fun j => Rabs (U j) * Rabs (v j)) + (if lf_icpt m then Rabs (U n) else 0) = rsum n' (fun j => Rabs (U j) * Rabs (p j))).
  { unfold n'. destruct (lf_icpt m).
    - rewrite rsum_app. cbn [rsum]. rewrite Nat.add_0_r, Rplus_0_l, P1, Rabs_R1, Rmult_1_r. f_equal. apply rsum_ext. intros q Hq. rewrite (P q Hq). reflexivity.
    - rewrite Rplus_0_r. apply rsum_ext. intros q Hq. rewrite (P q Hq). reflexivity. }
  rewrite E1, E2. apply (off_mono (1 + n') (n + 2)) in O; [|unfold n'; destruct (lf_icpt m); lia]. exact (proj2 O).
Qed.
End Comp.
