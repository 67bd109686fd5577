(** Prop_RoundNeigh.v -- property C80, continued: rounding errors of the similarities asked of a space, and of the lists of neighbours. *)
From Coq Require Import Reals Lra Psatz.
From Verif Require Import Base PyList Dict Num SpecReal Dense Sparse Matrix PSparse PMatrix PMatOps PShape PVals PReal PSort PPos Scaling Linalg Operation Similarity Space
  Peripheral SpecSpace PDictList PSpace Prop_Space Prop_Sim Prop_Neigh Round PRound Prop_Round Prop_RoundSim.
Open Scope R_scope.

(** how far a computed similarity of u and v may be from the true one: t^steps - 1 (that is about steps times 2^-53), relative to 1 -- or, for
    the inner product, relative to the sum of the absolute values of the products *)
Definition sim_steps (sim : similarity) (n : nat) : nat :=
  match sim with Cos => 2 * n + 9 | Dot => n + 2 | Euclid => 5 + (n + 3) / 2 | Lin => 2 * n + 7 end.
Definition sim_size (sim : similarity) (n : nat) (u v : nat -> R) : R := match sim with Dot => rsum n (fun j => Rabs (u j) * Rabs (v j)) | _ => 1 end.
Definition sim_error (t : R) (sim : similarity) (n : nat) (u v : nat -> R) : R := (t ^ sim_steps sim n - 1) * sim_size sim n u v.

(** l is the ranking of the words of rows by the score, cut at k, up to errors: each reported score is right up to the error, and a word whose
    true score is higher than that of another by more than the two errors comes before it *)
Record nearly_top_k (rows : list string) (score err : nat -> R) (k : nat) (l : list (string * R)) : Prop := {
  nk_length : length l = Nat.min k (length rows);
  nk_distinct : NoDup (map fst l);
  nk_score : forall x c, In (x, c) l -> exists q, nth_error rows q = Some x /\ Rabs (c - score q) <= err q;
  nk_order : forall a b x c y d p q, (a < b)%nat -> nth_error l a = Some (x, c) -> nth_error l b = Some (y, d) ->
     nth_error rows p = Some x -> nth_error rows q = Some y -> score q - err q <= score p + err p;
  nk_omitted : forall q y x c p, nth_error rows q = Some y -> ~ In y (map fst l) -> In (x, c) l -> nth_error rows p = Some x ->
     score q - err q <= score p + err p }.

Section Neigh.
Context (o : ops) (t tl : R) (SM : standard o t tl).
Local Notation FN := (FNum o).
Let Ht : 1 <= t := st_t _ _ _ SM.

Lemma sim_size_nonneg sim n u v : 0 <= sim_size sim n u v.
Proof. destruct sim; cbn [sim_size]; try lra. apply rsum_nonneg. intros. apply Rmult_le_pos; apply Rabs_pos. Qed.
Lemma cosine_le1 n u v : Rabs (cosine n u v) <= 1.
Proof.
  unfold cosine. destruct (Req_EM_T (norm n u) 0) as [E1|E1]; [rewrite Rabs_R0; lra|]. destruct (Req_EM_T (norm n v) 0) as [E2|E2]; [rewrite Rabs_R0; lra|].
  assert (A0 : 0 < norm n u) by (pose proof (sqrt_pos (dot n u u)); unfold norm in *; lra). assert (B0 : 0 < norm n v) by (pose proof (sqrt_pos (dot n v v)); unfold norm in *; lra).
  assert (AB : 0 < norm n u * norm n v) by (apply Rmult_lt_0_compat; assumption).
  unfold Rdiv. rewrite Rabs_mult, (Rabs_right (/ (_ * _))) by (apply Rle_ge, Rlt_le, Rinv_0_lt_compat, AB).
  apply Rmult_le_reg_r with (r := norm n u * norm n v); [exact AB|]. rewrite Rmult_assoc, Rinv_l by lra. rewrite Rmult_1_r, Rmult_1_l. apply cauchy_schwarz.
Qed.
Lemma euclid_le1 n u v : 0 <= euclid_score n u v <= 1.
Proof.
  unfold euclid_score. set (D := norm n _). assert (0 <= D) by apply sqrt_pos. split.
  - apply Rlt_le, Rdiv_lt_0_compat; lra.
  - apply Rmult_le_reg_r with (r := 1 + D); [lra|]. unfold Rdiv. rewrite Rmult_assoc, Rinv_l by lra. lra.
Qed.
Lemma lin_le1 n u v : nonneg_vec n u -> nonneg_vec n v -> 0 <= lin_score n u v <= 1.
Proof.
  intros P1 P2. unfold lin_score. destruct (Req_EM_T (rsum n u + rsum n v) 0) as [E|E]; [lra|].
  assert (T1 : 0 <= rsum n u) by (apply rsum_nonneg; exact P1). assert (T2 : 0 <= rsum n v) by (apply rsum_nonneg; exact P2). assert (T : 0 < rsum n u + rsum n v) by lra.
  set (S := rsum n (fun i => if Rlt_dec 0 (u i) then if Rlt_dec 0 (v i) then u i + v i else 0 else 0)).
  assert (S0 : 0 <= S). { apply rsum_nonneg. intros i Hi. specialize (P1 i Hi). specialize (P2 i Hi). destruct (Rlt_dec 0 (u i)); [|lra]. destruct (Rlt_dec 0 (v i)); lra. }
  assert (S1 : S <= rsum n u + rsum n v).
  { unfold S. clear -P1 P2. induction n as [|n IH]; cbn [rsum]; [lra|]. specialize (IH ltac:(intros i Hi; apply P1; lia) ltac:(intros i Hi; apply P2; lia)).
    specialize (P1 n ltac:(lia)). specialize (P2 n ltac:(lia)). destruct (Rlt_dec 0 (u n)); [|lra]. destruct (Rlt_dec 0 (v n)); lra. }
  split; [apply Rmult_le_pos; [exact S0|apply Rlt_le, Rinv_0_lt_compat, T]|]. apply Rmult_le_reg_r with (r := rsum n u + rsum n v); [exact T|].
  unfold Rdiv. rewrite Rmult_assoc, Rinv_l by lra. lra.
Qed.
(** true scores are no larger than sim_size *)
Lemma spec_size sim n u v : (sim = Lin -> nonneg_vec n u /\ nonneg_vec n v) -> Rabs (sim_spec sim n u v) <= sim_size sim n u v.
Proof.
  intros HL. destruct sim; cbn [sim_spec sim_size].
  - apply cosine_le1.
  - unfold dot. apply Rle_trans with (1 := rsum_abs _ _). right. apply rsum_ext. intros; apply Rabs_mult.
  - pose proof (euclid_le1 n u v). rewrite Rabs_right; lra.
  - destruct (HL eq_refl) as (P1 & P2). rewrite lin_code_nonneg by assumption. pose proof (lin_le1 n u v P1 P2). rewrite Rabs_right; lra.
Qed.
Lemma off_mono j k x y T : (j <= k)%nat -> 0 <= T -> Rabs (x - y) <= (t ^ j - 1) * T -> Rabs (x - y) <= (t ^ k - 1) * T.
Proof. intros H T0 B. pose proof (tpow_mono t Ht j k H). apply Rle_trans with (1 := B). apply Rmult_le_compat_r; lra. Qed.

(** a similarity of two row vectors, one rounding error to spare *)
Lemma sim_round sim v1 v2 n : @mwf FN v1 -> @mwf FN v2 -> @m_nr FN v1 = 1%nat -> @m_nr FN v2 = 1%nat -> @m_nc FN v1 = n -> @m_nc FN v2 = n ->
  (sim = Lin -> nonneg_vec n (fent v1 0) /\ nonneg_vec n (fent v2 0)) ->
  exists x : R, @sim_get FN sim v1 v2 = Ok x /\ Rabs (x - sim_spec sim n (fent v1 0) (fent v2 0)) <= sim_error t sim n (fent v1 0) (fent v2 0) /\
  (sim = Euclid \/ sim = Lin -> Rabs (x - sim_spec sim n (fent v1 0) (fent v2 0)) <= (t ^ (pred (sim_steps sim n)) - 1) * 1).
Proof.
  intros W1 W2 R1 R2 C1 C2 HL. pose proof (holds_exact _ _ _ SM v1 n W1 R1 C1) as H1. pose proof (holds_exact _ _ _ SM v2 n W2 R2 C2) as H2. unfold sim_error. destruct sim; cbn [sim_spec sim_size sim_steps].
  - destruct (C80_cosine o t tl SM 0 v1 v2 n _ _ H1 H2) as (x & E & B & _). change R in (type of x). exists x. split; [exact E|]. split; [rewrite Rmult_1_r; exact B|]. intros [H|H]; discriminate.
  - destruct (C80_dot o t tl SM 0 v1 v2 n _ _ H1 H2) as (x & E & B & _). change R in (type of x). exists x. split; [exact E|]. split; [exact B|]. intros [H|H]; discriminate.
  - destruct (C80_euclid o t tl SM v1 v2 n W1 W2 R1 R2 C1 C2) as (x & E & B). change R in (type of x). exists x. split; [exact E|].
    apply (near_off o t tl SM) in B. pose proof (euclid_le1 n (fent v1 0) (fent v2 0)) as L. pose proof (tpow_ge1 t Ht (4 + (n + 3) / 2)) as TG.
    assert (B' : Rabs (x - euclid_score n (fent v1 0) (fent v2 0)) <= (t ^ (4 + (n + 3) / 2) - 1) * 1).
    { apply Rle_trans with (1 := B). apply Rmult_le_compat_l; [lra|]. rewrite Rabs_right; lra. }
    split; [|intros _; exact B']. apply (off_mono (4 + (n + 3) / 2)); [lia|lra|exact B'].
  - destruct (HL eq_refl) as (P1 & P2). destruct (C80_lin o t tl SM 0 v1 v2 n _ _ H1 H2 P1 P2) as (x & E & B). change R in (type of x). exists x. split; [exact E|]. rewrite lin_code_nonneg by assumption.
    apply (near_off o t tl SM) in B. pose proof (lin_le1 n (fent v1 0) (fent v2 0) P1 P2) as L. change (2 * 0 + 2 * n + 6)%nat with (2 * n + 6)%nat in B. pose proof (tpow_ge1 t Ht (2 * n + 6)) as TG.
    assert (B' : Rabs (x - lin_score n (fent v1 0) (fent v2 0)) <= (t ^ (2 * n + 6) - 1) * 1).
    { apply Rle_trans with (1 := B). apply Rmult_le_compat_l; [lra|]. rewrite Rabs_right; lra. }
    split; [apply (off_mono (2 * n + 6)); [lia|lra|exact B']|]. intros _. replace (pred (2 * n + 7)) with (2 * n + 6)%nat by lia. exact B'.
Qed.

(** ** a similarity asked of a space *)
(** the space of the second word *)
Definition other (s : @space FN) (space2 : option (@space FN)) : @space FN := match space2 with None => s | Some x => x end.
Lemma conv_self (m : @matrix FN) ty : @type_of FN m = ty -> @conv FN ty m = m.
Proof. intros <-. destruct m; reflexivity. Qed.
Lemma near_0_eq x y : near t 0 x y -> x = y.
Proof. intros (q & (Q1 & Q2) & ->). cbn [pow] in Q1, Q2. replace q with 1 by lra. ring. Qed.
Lemma spec_same sim n u u' v v' : (forall j, (j < n)%nat -> u j = u' j) -> (forall j, (j < n)%nat -> v j = v' j) ->
  sim_spec sim n u v = sim_spec sim n u' v' /\ sim_size sim n u v = sim_size sim n u' v'.
Proof.
  intros H1 H2. split; [apply sim_spec_ext; assumption|]. destruct sim; cbn [sim_size]; try reflexivity. apply rsum_ext. intros j Hj. rewrite H1, H2 by exact Hj. reflexivity.
Qed.
(** both words present, vectors of equal length: the true similarity, up to the error *)
Theorem C80_get_sim : forall s w1 w2 sim space2 p q n,
  @consistent FN s -> @consistent FN (other s space2) ->
  nth_error (s_id2row s) p = Some w1 -> nth_error (s_id2row (other s space2)) q = Some w2 ->
  @m_nc FN (s_mat s) = n -> @m_nc FN (s_mat (other s space2)) = n ->
  let u := fent (s_mat s) p in let v := fent (s_mat (other s space2)) q in
  (sim = Lin -> nonneg_vec n u /\ nonneg_vec n v) ->
  exists x : R, @get_sim FN s w1 w2 sim space2 = Ok x /\ Rabs (x - sim_spec sim n u v) <= sim_error t sim n u v.
Proof.
  intros s w1 w2 sim s2 p q n Hc Hc2 Hp Hq N1 N2 u v HL. unfold get_sim.
  destruct (@C03_get_row FN s w1 p Hc Hp) as (v1 & E1 & W1 & T1 & R1 & C1 & X1). rewrite E1. cbn [is_key_error bind].
  fold (other s s2). set (S2 := other s s2) in *.
  destruct (@C03_get_row FN S2 w2 q Hc2 Hq) as (v2 & E2 & W2 & T2 & R2 & C2 & X2). rewrite E2. cbn [is_key_error bind].
  rewrite N1 in C1, X1. rewrite N2 in C2, X2.
  pose proof (holds_exact o t tl SM v1 n W1 R1 C1) as H1. pose proof (holds_exact o t tl SM v2 n W2 R2 C2) as H2.
  assert (K : exists u1 u2, @resolve2 FN v1 v2 (Some TDense) = Ok (u1, u2) /\ holds o t 0 u1 n (fent v1 0) /\ holds o t 0 u2 n (fent v2 0)).
  { unfold resolve2, resolve_type_conflict. destruct (type_conflict [v1; v2]); cbn [map bind].
    - eexists _, _. split; [reflexivity|]. split; apply (holds_conv o t); assumption.
    - eexists _, _. split; [reflexivity|]. split; assumption. }
  destruct K as (u1 & u2 & -> & K1 & K2). cbn [bind].
  assert (Y1 : forall j, (j < n)%nat -> fent u1 0 j = u j) by (intros j Hj; rewrite (near_0_eq _ _ (proj2 (proj2 (proj2 K1)) j Hj)); apply X1, Hj).
  assert (Y2 : forall j, (j < n)%nat -> fent u2 0 j = v j) by (intros j Hj; rewrite (near_0_eq _ _ (proj2 (proj2 (proj2 K2)) j Hj)); apply X2, Hj).
  destruct K1 as (WA & RA & CA & _). destruct K2 as (WB & RB & CB & _).
  destruct (sim_round sim u1 u2 n WA WB RA RB CA CB) as (x & EX & B & _).
  { intros HS. destruct (HL HS) as (P1 & P2). split; intros j Hj; [rewrite Y1|rewrite Y2]; auto. }
  exists x. split; [exact EX|]. unfold sim_error in *. destruct (spec_same sim n _ _ _ _ Y1 Y2) as (<- & <-). exact B.
Qed.

(** ** the similarities of a vector with all rows of a matrix *)
Lemma sims_round sim v m n : @mwf FN v -> @m_nr FN v = 1%nat -> @m_nc FN v = n -> @mwf FN m -> @m_nc FN m = n ->
  (sim = Lin -> nonneg_vec n (fent v 0) /\ forall i, (i < @m_nr FN m)%nat -> nonneg_vec n (fent m i)) ->
  exists z, @sims_to_matrix FN sim v m = Ok z /\ @has FN z (@type_of FN v) (@m_nr FN m) 1 /\
    forall i, (i < @m_nr FN m)%nat -> Rabs (fent z i 0 - sim_spec sim n (fent v 0) (fent m i)) <= (t ^ pred (sim_steps sim n) - 1) * sim_size sim n (fent v 0) (fent m i).
Proof.
  intros Wv Rv Cv Wm Cm HL. unfold sims_to_matrix, to_compatible. set (M := @conv FN (@type_of FN v) m).
  assert (VM : @vals FN M (@type_of FN v) (@m_nr FN m) n (fent m)) by (apply (@vals_conv FN) with (t := @type_of FN m); rewrite <- Cm; apply (@vals_self FN), Wm).
  pose proof (@vals_has FN _ _ _ _ _ VM) as (WM & TM & RM & CM). rewrite Cv, CM, Rv, !Nat.eqb_refl. cbn [andb check bind].
  assert (VV : @vals FN v (@type_of FN v) 1 n (fent v)) by (pose proof (@vals_self FN v Wv) as VV; rewrite Rv, Cv in VV; exact VV).
  pose proof (@vals_pos FN _ _ _ _ _ VM) as (Pr & Pn). pose proof (holds_exact o t tl SM v n Wv Rv Cv) as Hv.
  (* row by row *)
  assert (Hloop : (sim = Euclid \/ sim = Lin) -> exists z, @loop_sims FN sim v M = Ok z /\ @has FN z (@type_of FN v) (@m_nr FN m) 1 /\
    forall i, (i < @m_nr FN m)%nat -> Rabs (fent z i 0 - sim_spec sim n (fent v 0) (fent m i)) <= (t ^ pred (sim_steps sim n) - 1) * sim_size sim n (fent v 0) (fent m i)).
  { intros HS. unfold loop_sims.
    assert (Hone : forall i, (i < @m_nr FN m)%nat -> exists x : R, (let* r := @m_get_row FN M (Z.of_nat i) in @sim_raw FN sim v r) = Ok x /\
       Rabs (x - sim_spec sim n (fent v 0) (fent m i)) <= (t ^ pred (sim_steps sim n) - 1) * sim_size sim n (fent v 0) (fent m i)).
    { intros i Hi. destruct (@vals_get_row FN M _ _ _ _ i VM Hi) as (r & -> & Vr). cbn [bind]. pose proof (@vals_has FN _ _ _ _ _ Vr) as (Wr & Tr & Rr & Cr).
      assert (Er : forall j, (j < n)%nat -> fent r 0 j = fent m i j) by (intros j Hj; exact (@vals_ent FN _ _ _ _ _ O j Vr ltac:(lia) Hj)).
      destruct (sim_round sim v r n Wv Wr Rv Rr Cv Cr) as (x & EX & _ & B).
      { intros H0. destruct (HL H0) as (P1 & P2). split; [exact P1|]. intros j Hj. rewrite Er by exact Hj. apply P2; assumption. }
      rewrite (sim_get_eq o sim v r n Rv Rr Cv Cr) in EX. rewrite (conv_self r _ Tr) in EX.
      exists x. split; [exact EX|]. destruct (spec_same sim n (fent v 0) (fent v 0) _ _ (fun _ _ => eq_refl) Er) as (EA & _). rewrite <- EA.
      replace (sim_size sim n (fent v 0) (fent m i)) with 1 by (destruct HS as [-> | ->]; reflexivity). apply B, HS. }
    assert (Hl : exists l : list R, @mapM nat R (fun i => let* r := @m_get_row FN M (Z.of_nat i) in @sim_raw FN sim v r) (seq 0 (@m_nr FN M)) = Ok l /\ length l = @m_nr FN m /\
      forall i, (i < @m_nr FN m)%nat -> Rabs (nth i l 0 - sim_spec sim n (fent v 0) (fent m i)) <= (t ^ pred (sim_steps sim n) - 1) * sim_size sim n (fent v 0) (fent m i)).
    { rewrite RM.
      assert (G : forall k a, (a + k <= @m_nr FN m)%nat -> exists l : list R, @mapM nat R (fun i => let* r := @m_get_row FN M (Z.of_nat i) in @sim_raw FN sim v r) (seq a k) = Ok l /\ length l = k /\
        forall i, (i < k)%nat -> Rabs (nth i l 0 - sim_spec sim n (fent v 0) (fent m (a + i))) <= (t ^ pred (sim_steps sim n) - 1) * sim_size sim n (fent v 0) (fent m (a + i))).
      { induction k as [|k IH]; intros a Ha; cbn [seq mapM]; [exists []; split; [reflexivity|]; split; [reflexivity|]; intros; lia|].
        destruct (Hone a ltac:(lia)) as (x & EX & B). destruct (IH (S a) ltac:(lia)) as (l & EL & LL & BL). rewrite EX. cbn [bind]. rewrite EL. cbn [bind].
        exists (x :: l). split; [reflexivity|]. split; [cbn; lia|]. intros [|i] Hi; cbn [nth]; [rewrite Nat.add_0_r; exact B|]. replace (a + S i)%nat with (S a + i)%nat by lia. apply BL. lia. }
      destruct (G (@m_nr FN m) O ltac:(lia)) as (l & EL & LL & BL). exists l. auto. }
    destruct Hl as (l & EL & LL & BL). change (@F FN) with R in *. rewrite EL. cbn [bind]. eexists. split; [reflexivity|].
    assert (Vz : @vals FN (@of_dense FN (@type_of FN M) (@tab FN (@m_nr FN M) 1 (fun i _ => nth i l 0))) (@type_of FN v) (@m_nr FN m) 1 (fun i _ => nth i l 0)).
    { rewrite TM, RM. apply (@vals_of_dense FN); lia. }
    split; [exact (@vals_has FN _ _ _ _ _ Vz)|]. intros i Hi. unfold fent at 1. pose proof (@vals_ent FN _ _ _ _ _ i O Vz Hi ltac:(lia)) as EZ. change (@F FN) with R in *.
    refine (eq_ind_r (fun y : R => Rabs (y - _) <= _) _ EZ). apply BL, Hi. }
  (* products *)
  assert (Hdot : exists z, @dot_sims FN v M = Ok z /\ @vals FN z (@type_of FN v) (@m_nr FN m) 1 (fun i _ => @sumn FN n (fun j => @fmul FN (fent m i j) (fent v 0 j)))).
  { unfold dot_sims. destruct (@vals_mul FN M (@m_transpose FN v) _ _ _ _ _ _ VM (@vals_transpose FN _ _ _ _ _ VV)) as (z & EZ & VZ). exists z. split; [exact EZ|].
    eapply (@vals_ext FN); [exact VZ|]. intros i j Hi Hj. replace j with O by lia. reflexivity. }
  assert (Doff : forall i, Rabs (@sumn FN n (fun j => @fmul FN (fent m i j) (fent v 0 j)) - dot n (fent v 0) (fent m i)) <= (t ^ S n - 1) * rsum n (fun j => Rabs (fent v 0 j) * Rabs (fent m i j))).
  { intros i. pose proof (sum_off o t tl SM 1 n (fun j => @fmul FN (fent m i j) (fent v 0 j)) (fun j => fent v 0 j * fent m i j)) as SO.
    rewrite (rsum_ext n (fun j => Rabs (fent v 0 j) * Rabs (fent m i j)) (fun j => Rabs (fent v 0 j * fent m i j))) by (intros; rewrite Rabs_mult; reflexivity). apply SO.
    intros j Hj. rewrite (Rmult_comm (fent v 0 j)). apply (st_mul _ _ _ SM). }
  destruct sim; try (apply Hloop; auto); cbn [sim_steps sim_size sim_spec].
  - (* cosine *)
    unfold cos_sims. destruct Hdot as (z & -> & Vz). cbn [bind]. set (rn := @nonzero_invert FN _).
    assert (Lrn : length rn = @m_nr FN m).
    { unfold rn, nonzero_invert, m_norm1. rewrite !map_length. rewrite (@len_sum1 FN). destruct M; cbn [of_dense type_of m_nr d_map2 tab d_nr csr_of_dense csr_of_rows s_nr to_dense] in *; rewrite ?map_length, ?seq_length; cbn in RM |- *; lia. }
    destruct (@vals_scale_rows FN z _ _ _ _ rn Vz Lrn) as (q & EQ & Vq). exists q. split; [exact EQ|]. split; [exact (@vals_has FN _ _ _ _ _ Vq)|].
    intros i Hi. unfold fent at 1. rewrite (@vals_ent FN _ _ _ _ _ i O Vq Hi ltac:(lia)). set (d := @sumn FN n _). specialize (Doff i). fold d in Doff. clearbody d. change R in (type of d).
    set (A := norm n (fent v 0)). set (B := norm n (fent m i)).
    pose proof (holds_norm o t tl SM 0 v n _ Hv) as NA. fold A in NA.
    assert (NB : near t (S ((n + 2) / 2)) (nth i (@m_norm1 FN M) 0) B).
    { pose proof (near_norm1 o t tl SM 0 M (exact M) i (approx_exact o t tl SM M WM)) as NB. rewrite exact_nr, exact_nc, RM, CM in NB. specialize (NB Hi).
      rewrite (nth_m_norm1_R (exact M) i) in NB; [|apply exact_wf, WM|rewrite exact_nr, RM; exact Hi]. rewrite exact_nc, CM in NB.
      assert (EB : norm n (@ment RNum (exact M) i) = B).
      { unfold B. apply norm_ext. intros j Hj. rewrite exact_ent. exact (@vals_ent FN _ _ _ _ _ i j VM Hi Hj). }
      rewrite EB in NB. replace (n + 2)%nat with (S (S n)) by lia. exact NB. }
    assert (NR : near t (S (S (S (0 + (n + 3) / 2) + S ((n + 2) / 2)))) (nth i rn 0) (@finv0 RNum (A * B))).
    { unfold rn. change (@nth R i (@nonzero_invert FN (map (fun x => @fmul FN (@m_norm FN v) x) (@m_norm1 FN M))) 0) with (@nth (@F FN) i (@nonzero_invert FN (map (fun x => @fmul FN (@m_norm FN v) x) (@m_norm1 FN M))) (@f0 FN)).
      rewrite (@nth_inv0 FN). apply (near_finv0 o t tl SM). 
      assert (EN : @nth R i (map (fun x => @fmul FN (@m_norm FN v) x) (@m_norm1 FN M)) 0 = @fmul FN (@m_norm FN v) (nth i (@m_norm1 FN M) 0)).
      { rewrite (nth_indep _ 0 (@fmul FN (@m_norm FN v) 0)) by (unfold rn, nonzero_invert in Lrn; rewrite map_length in Lrn; change (@F FN) with R in *; lia). apply (map_nth (fun x => @fmul FN (@m_norm FN v) x)). }
      change (@F FN) with R in *. change (@f0 FN) with 0. refine (eq_ind_r (fun y : R => near t _ y _) _ EN). apply (near_fmul o t tl SM); [exact NA|exact NB]. }
    pose proof (near_fmul o t tl SM 0 _ d _ d _ (near_refl t Ht 0 d) NR) as NX. set (x := @fmul FN d (nth i rn 0)) in *.
    assert (HG : (S (0 + S (S (S (0 + (n + 3) / 2) + S ((n + 2) / 2)))) <= n + 7)%nat).
    { pose proof (Nat.mul_div_le (n + 3) 2 ltac:(lia)). pose proof (Nat.mul_div_le (n + 2) 2 ltac:(lia)). lia. }
    apply (near_mono t Ht _ _ _ _ HG) in NX. clear HG NR NA NB.
    assert (GOAL : Rabs (x - cosine n (fent v 0) (fent m i)) <= (t ^ pred (2 * n + 9) - 1) * 1); [|exact GOAL]. clearbody x. change R in (type of x).
    unfold cosine. fold A B. assert (A0 : 0 <= A) by apply sqrt_pos. assert (B0 : 0 <= B) by apply sqrt_pos. unfold finv0 in NX. change (@feqb RNum) with Reqb in NX. change (@f0 RNum) with 0 in NX. change (@f1 RNum) with 1 in NX. change (@fdiv RNum) with Rdiv in NX.
    pose proof (tpow_ge1 t Ht (pred (2 * n + 9))) as TG0.
    assert (Zcase : A * B = 0 -> Rabs (x - 0) <= (t ^ pred (2 * n + 9) - 1) * 1).
    { intros Z. rewrite (proj2 (Reqb_eq _ _) Z) in NX. rewrite Rmult_0_r in NX. apply near_0 in NX; [|exact Ht]. rewrite NX, Rminus_0_r, Rabs_R0. lra. }
    destruct (Req_EM_T A 0) as [EA|EA]; [apply Zcase; rewrite EA; ring|]. destruct (Req_EM_T B 0) as [EB|EB]; [apply Zcase; rewrite EB; ring|]. clear Zcase.
    assert (AB : 0 < A * B) by (apply Rmult_lt_0_compat; lra). destruct (Reqb (A * B) 0) eqn:EZ; [exfalso; apply Reqb_eq in EZ; lra|].
    set (D := dot n (fent v 0) (fent m i)) in *. set (P := rsum n (fun j => Rabs (fent v 0 j) * Rabs (fent m i j))) in *.
    assert (CS : P <= A * B).
    { pose proof (cauchy_schwarz n (fun j => Rabs (fent v 0 j)) (fun j => Rabs (fent m i j))) as CS. unfold dot at 1 in CS. rewrite Rabs_right in CS.
      2: { apply Rle_ge, rsum_nonneg. intros; apply Rmult_le_pos; apply Rabs_pos. }
      assert (NA : forall w, norm n (fun j => Rabs (w j)) = norm n w).
      { intros w. unfold norm, dot. f_equal. apply rsum_ext. intros j _. rewrite <- Rabs_mult. apply Rabs_right. apply Rle_ge, Rle_0_sqr. }
      rewrite !NA in CS. exact CS. }
    pose proof (cauchy_schwarz n (fent v 0) (fent m i)) as CD. fold D A B in CD.
    assert (T1 : Rabs (d - D) <= (t ^ S n - 1) * (A * B)). { apply Rle_trans with (1 := Doff). pose proof (tpow_ge1 t Ht (S n)). apply Rmult_le_compat_l; lra. }
    assert (T2 : Rabs d <= t ^ S n * (A * B)). { pose proof (Rabs_triang (d - D) D) as T. replace (d - D + D) with d in T by ring. change (@F FN) with R in *. lra. }
    apply (near_off o t tl SM) in NX. rewrite Rabs_mult in NX. assert (I1 : Rabs (1 / (A * B)) = / (A * B)). { unfold Rdiv. rewrite Rmult_1_l. apply Rabs_right, Rle_ge, Rlt_le, Rinv_0_lt_compat, AB. } rewrite I1 in NX.
    assert (II : 0 < / (A * B)) by (apply Rinv_0_lt_compat, AB).
    assert (U1 : Rabs (d * (1 / (A * B)) - D / (A * B)) <= t ^ S n - 1).
    { replace (d * (1 / (A * B)) - D / (A * B)) with ((d - D) * (1 / (A * B))) by (unfold Rdiv; ring). rewrite Rabs_mult, I1. apply Rmult_le_reg_r with (r := A * B); [exact AB|]. rewrite Rmult_assoc, Rinv_l by lra. rewrite Rmult_1_r. exact T1. }
    assert (U2 : Rabs d * / (A * B) <= t ^ S n). { apply Rmult_le_reg_r with (r := A * B); [exact AB|]. rewrite Rmult_assoc, Rinv_l by lra. rewrite Rmult_1_r. exact T2. }
    pose proof (tpow_ge1 t Ht (n + 7)) as TG7. assert (U3 : (t ^ (n + 7) - 1) * (Rabs d * / (A * B)) <= (t ^ (n + 7) - 1) * t ^ S n) by (apply Rmult_le_compat_l; lra).
    pose proof (Rabs_triang (x - d * (1 / (A * B))) (d * (1 / (A * B)) - D / (A * B))) as T. replace (x - d * (1 / (A * B)) + (d * (1 / (A * B)) - D / (A * B))) with (x - D / (A * B)) in T by ring.
    replace (pred (2 * n + 9)) with (n + 7 + S n)%nat by lia. rewrite pow_add. change (@F FN) with R in *. lra.
  - (* inner product *)
    destruct Hdot as (z & EZ & Vz). exists z. split; [exact EZ|]. split; [exact (@vals_has FN _ _ _ _ _ Vz)|]. intros i Hi. unfold fent at 1. rewrite (@vals_ent FN _ _ _ _ _ i O Vz Hi ltac:(lia)).
    replace (pred (n + 2)) with (S n) by lia. apply Doff.
Qed.

(** ** lists of neighbours *)
Theorem C81_neighbours : forall s w k sim space2 p n,
  @consistent FN s -> @consistent FN (other s space2) -> nth_error (s_id2row s) p = Some w ->
  @m_nc FN (s_mat s) = n -> @m_nc FN (s_mat (other s space2)) = n ->
  (sim = Lin -> nonneg_vec n (fent (s_mat s) p) /\ forall q, (q < @m_nr FN (s_mat (other s space2)))%nat -> nonneg_vec n (fent (s_mat (other s space2)) q)) ->
  let score := fun q => sim_spec sim n (fent (s_mat s) p) (fent (s_mat (other s space2)) q) in
  let err := fun q => sim_error t sim n (fent (s_mat s) p) (fent (s_mat (other s space2)) q) in
  exists l : list (string * R), @get_neighbours FN s w k sim space2 = Ok l /\ nearly_top_k (s_id2row (other s space2)) score err (Z.to_nat k) l.
Proof.
  intros s w k sim s2 p n Hc Hc2 Hp N1 N2 HL score err. unfold get_neighbours.
  destruct (@C03_get_row FN s w p Hc Hp) as (v & Ev & Wv & Tv & Rv & Cv & Xv). rewrite Ev. cbn [bind]. rewrite N1 in Cv, Xv.
  pose proof (holds_exact o t tl SM v n Wv Rv Cv) as Hv.
  assert (Hv' : exists v', match s2 with None => v | Some x => @conv FN (@type_of FN (s_mat x)) v end = v' /\ holds o t 0 v' n (fent v 0)).
  { destruct s2 as [x|]; eexists; (split; [reflexivity|]); [apply holds_conv, Hv|exact Hv]. }
  destruct Hv' as (v' & -> & Hv'). fold (other s s2). set (S2 := other s s2) in *. pose proof Hc2 as (W2 & L2 & _ & (Nd & _) & _).
  assert (Y : forall j, (j < n)%nat -> fent v' 0 j = fent (s_mat s) p j) by (intros j Hj; rewrite (near_0_eq _ _ (proj2 (proj2 (proj2 Hv')) j Hj)); apply Xv, Hj).
  destruct Hv' as (Wv' & Rv' & Cv' & _).
  destruct (sims_round sim v' (s_mat S2) n Wv' Rv' Cv' W2 N2) as (z & EZ & Hz & Bz).
  { intros HS. destruct (HL HS) as (P1 & P2). split; [|exact P2]. intros j Hj. rewrite Y by exact Hj. apply P1, Hj. }
  rewrite EZ. cbn [bind]. pose proof Hz as (Wz & Tz & Rz & Cz).
  assert (SC : forall q, (q < @m_nr FN (s_mat S2))%nat -> Rabs (fent z q 0 - score q) <= (t ^ pred (sim_steps sim n) - 1) * sim_size sim n (fent (s_mat s) p) (fent (s_mat S2) q)).
  { intros q Hq. specialize (Bz q Hq). destruct (spec_same sim n (fent v' 0) (fent (s_mat s) p) (fent (s_mat S2) q) (fent (s_mat S2) q) Y (fun _ _ => eq_refl)) as (EA & EB). rewrite EA, EB in Bz. exact Bz. }
  assert (SP : (S (pred (sim_steps sim n)) = sim_steps sim n)%nat) by (destruct sim; cbn [sim_steps]; lia).
  assert (NS : forall q, 0 <= sim_size sim n (fent (s_mat s) p) (fent (s_mat S2) q)) by (intros; apply sim_size_nonneg).
  assert (SZ : forall q, (q < @m_nr FN (s_mat S2))%nat -> Rabs (fent z q 0 - score q) <= err q).
  { intros q Hq. unfold err, sim_error. apply (off_mono (pred (sim_steps sim n))); [lia|apply NS|apply SC, Hq]. }
  set (keys := @m_sum1 FN z).
  assert (KL : length keys = length (s_id2row S2)) by (unfold keys; rewrite (@len_sum1 FN), Rz; symmetry; exact L2).
  assert (KV : forall q, (q < length (s_id2row S2))%nat -> Rabs (nth q keys 0 - score q) <= err q).
  { intros q Hq. rewrite L2 in Hq. pose proof (@vals_self FN z Wz) as Vz. rewrite Tz, Rz, Cz in Vz. pose proof (@vals_sum1 FN _ _ _ _ _ q Vz Hq) as KE. change (@f0 FN) with 0 in KE.
    refine (eq_ind_r (fun y : R => Rabs (y - score q) <= err q) _ KE). cbn [sumn]. unfold err, sim_error. rewrite <- SP.
    apply (fadd_off o t tl SM (pred (sim_steps sim n)) (fent z q 0)).
    - apply NS.
    - apply SC, Hq.
    - unfold score. apply spec_size. intros HS. destruct (HL HS) as (P1 & P2). split; [exact P1|apply P2, Hq].
    - pose proof (st_add _ _ _ SM 0 (fent z q 0)) as A. rewrite Rplus_0_l in A. exact A. }
  change R in (type of keys) || idtac. change (@sorted_permutation FN keys) with (@sorted_permutation RNum keys).
  pose proof (ranking_top_k (s_id2row S2) (fun i => nth i keys 0) keys (Z.to_nat k) KL (fun _ _ => eq_refl) Nd) as TK.
  set (perm := @sorted_permutation RNum keys) in *. set (m0 := Nat.min (Z.to_nat k) (length (s_id2row S2))) in *.
  set (g := fun a => let i := nth a perm O in (nth i (s_id2row S2) EmptyString, fent z i 0)).
  assert (PL : length perm = length (s_id2row S2)) by (unfold perm; rewrite (@sorted_permutation_length); exact KL).
  assert (Hlt : forall a, (a < length (s_id2row S2))%nat -> (nth a perm O < length (s_id2row S2))%nat).
  { intros a Ha. assert (IN : In (nth a perm O) perm) by (apply nth_In; lia). apply (@sorted_permutation_In RNum) in IN. rewrite <- KL. exact IN. }
  exists (map g (seq 0 m0)). split.
  - replace (Z.to_nat (Z.min k (Z.of_nat (length (s_id2row S2))))) with m0 by (unfold m0; lia).
    apply mapM_all_ok. intros a Ha. apply in_seq in Ha. assert (Hal : (a < length (s_id2row S2))%nat) by (unfold m0 in Ha; lia).
    rewrite (nth_error_nth' _ O) by lia. rewrite (nth_error_nth' _ EmptyString) by (apply Hlt, Hal). reflexivity.
  - set (l' := map (fun a => let i := nth a perm O in (nth i (s_id2row S2) EmptyString, nth i keys 0)) (seq 0 m0)) in *.
    assert (FE : map fst (map g (seq 0 m0)) = map fst l') by (unfold l'; rewrite !map_map; reflexivity).
    assert (NE : forall a x c, nth_error (map g (seq 0 m0)) a = Some (x, c) -> exists q, nth_error (s_id2row S2) q = Some x /\ c = fent z q 0 /\ nth_error l' a = Some (x, nth q keys 0)).
    { intros a x c Ha. rewrite nth_error_map in Ha. unfold l'. rewrite nth_error_map. destruct (nth_error (seq 0 m0) a) as [b|] eqn:Eb; [|discriminate]. cbn [option_map] in Ha |- *.
      apply nth_error_In, in_seq in Eb. unfold g in Ha. cbn zeta in Ha. injection Ha as HX HY. exists (nth b perm O).
      assert (Hb : (b < length (s_id2row S2))%nat) by (unfold m0 in Eb; lia). split; [|split; [symmetry; exact HY|rewrite HX; reflexivity]].
      rewrite <- HX. apply nth_error_nth', Hlt, Hb. }
    assert (LT : forall q x, nth_error (s_id2row S2) q = Some x -> (q < length (s_id2row S2))%nat) by (intros q x H; apply nth_error_Some; congruence).
    assert (AP : forall q, (q < length (s_id2row S2))%nat -> score q - err q <= nth q keys 0 <= score q + err q).
    { intros q Hq. pose proof (KV q Hq) as KQ. unfold Rabs in KQ. destruct (Rcase_abs (nth q keys 0 - score q)) in KQ; lra. }
    split.
    + rewrite map_length, seq_length. reflexivity.
    + rewrite FE. apply TK.
    + intros x c Hin. apply In_nth_error in Hin. destruct Hin as (a & Ha). destruct (NE a x c Ha) as (q & Hq & -> & _). exists q. split; [exact Hq|]. apply SZ. rewrite <- L2. exact (LT _ _ Hq).
    + intros a b x c y d p0 q Hab Ha Hb Hp0 Hq. destruct (NE a x c Ha) as (p1 & Hp1 & _ & Na). destruct (NE b y d Hb) as (q1 & Hq1 & _ & Nb).
      rewrite (NoDup_nth_error_inj _ _ _ _ Nd Hp0 Hp1), (NoDup_nth_error_inj _ _ _ _ Nd Hq Hq1).
      destruct (tk_order _ _ _ _ TK a b x _ y _ Hab Na Nb) as (K1 & _). pose proof (AP p1 (LT _ _ Hp1)). pose proof (AP q1 (LT _ _ Hq1)). lra.
    + intros q y x c p0 Hq Hni Hin Hp0. apply In_nth_error in Hin. destruct Hin as (a & Ha). destruct (NE a x c Ha) as (p1 & Hp1 & _ & Na). rewrite (NoDup_nth_error_inj _ _ _ _ Nd Hp0 Hp1). rewrite FE in Hni.
      destruct (tk_omitted _ _ _ _ TK q y x _ Hq Hni (nth_error_In _ _ Na)) as (K1 & _). pose proof (AP p1 (LT _ _ Hp1)). pose proof (AP q (LT _ _ Hq)). lra.
Qed.
(** two words whose true scores differ by more than the errors are listed in the right order *)
Theorem C81_order : forall rows score err k l p q x y, NoDup rows -> nearly_top_k rows score err k l -> nth_error rows p = Some x -> nth_error rows q = Some y -> score q + err q < score p - err p ->
  In y (map fst l) -> exists a b c d, (a < b)%nat /\ nth_error l a = Some (x, c) /\ nth_error l b = Some (y, d).
Proof.
  intros rows score err k l p q x y Nd T Hp Hq Hlt Hin.
  assert (Iy : exists b d, nth_error l b = Some (y, d)).
  { apply in_map_iff in Hin. destruct Hin as ((y' & d) & Ey & Hi). cbn [fst] in Ey. subst y'. apply In_nth_error in Hi. destruct Hi as (b & Hb). eauto. }
  destruct Iy as (b & d & Hb).
  assert (Ix : In x (map fst l)).
  { destruct (in_dec string_dec x (map fst l)) as [I|I]; [exact I|]. exfalso. pose proof (nk_omitted _ _ _ _ _ T p x y d q Hp I (nth_error_In _ _ Hb) Hq). lra. }
  apply in_map_iff in Ix. destruct Ix as ((x' & c) & Ex & Hi). cbn [fst] in Ex. subst x'. apply In_nth_error in Hi. destruct Hi as (a & Ha).
  exists a, b, c, d. split; [|split; assumption]. destruct (lt_eq_lt_dec a b) as [[Hab|Hab]|Hab]; [exact Hab| |].
  - subst b. rewrite Ha in Hb. injection Hb as Exy Ecd. subst y. rewrite (NoDup_nth_error_inj _ _ _ _ Nd Hp Hq) in Hlt.
    exfalso. destruct (nk_score _ _ _ _ _ T x c (nth_error_In _ _ Ha)) as (q' & Hq' & B). rewrite (NoDup_nth_error_inj _ _ _ _ Nd Hq' Hq) in B. pose proof (Rabs_pos (c - score q)). lra.
  - exfalso. pose proof (nk_order _ _ _ _ _ T b a y d x c q p Hab Hb Ha Hq Hp). lra.
Qed.
End Neigh.
