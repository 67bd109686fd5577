(** Prop_RoundPipe.v -- property C105, continued: whole pipelines computed with rounding errors. *)
From Coq Require Import Reals Lra Psatz.
From Verif Require Import Base PyList Dict Num SpecReal Dense Sparse Matrix PSparse PMatrix PMatOps PShape PVals PReal PSort PPos Scaling Linalg Operation Similarity Space
  Peripheral SpecSpace PDictList PSpace PCols Prop_Space Prop_Periph Prop_Scaling Prop_Sim Prop_Neigh Prop_Order Prop_Counts Prop_Metric Round PRound Prop_Round Prop_RoundSim Prop_RoundNeigh Prop_RoundSel.
Open Scope R_scope.

(** a space held by the rounding model has the words, columns and (up to k rounding errors) vectors of an exact one *)
Record close {o : ops} (t : R) (k : nat) (s : @space (FNum o)) (e : @space RNum) : Prop := {
  cl_ok : @consistent (FNum o) s; cl_ok' : @consistent RNum e;
  cl_rows : s_id2row s = s_id2row e; cl_cols : s_id2col s = s_id2col e; cl_row2id : s_row2id s = s_row2id e; cl_col2id : s_col2id s = s_col2id e;
  cl_shape : s_eshape s = s_eshape e; cl_mat : @approx o t k (s_mat s) (s_mat e) }.
(** the same exception, or close spaces, the exact one without negative entries *)
Definition close_outcome {o : ops} (t : R) (k : nat) (x : res (@space (FNum o))) (y : res (@space RNum)) : Prop :=
  match x, y with Ok a, Ok b => close t k a b /\ nonneg (s_mat b) | Err e, Err e' => e = e' | _, _ => False end.

(** rounding errors after a transformation, and after a list of them, of a matrix with r rows and c columns *)
Definition step_errors (tr : transformation) (r c k : nat) : nat := match tr with TScale sc => rounding_errors sc r c k | _ => k end.
Definition step_cols (tr : transformation) (c : nat) : nat := match tr with TFS _ K => Nat.min K c | _ => c end.
Fixpoint run_errors (ts : list transformation) (r c k : nat) : nat :=
  match ts with [] => k | tr :: l => run_errors l r (step_cols tr c) (step_errors tr r c k) end.
(** scalings without logarithms and clear feature selections, of the exact space e and of what becomes of it *)
Fixpoint clear_run {E : @Ext RNum} (t : R) (k : nat) (e : @space RNum) (ts : list transformation) : Prop :=
  match ts with
  | [] => True
  | tr :: l =>
    match tr with
    | TScale sc => no_log sc = true
    | TFS c K => (0 < K)%nat /\ clear_by (t ^ (2 * score_errors c (@m_nr RNum (s_mat e)) k)) (@m_nc RNum (s_mat e)) K (col_score c (s_mat e))
    | TDim _ _ => False end /\
    forall e', @space_apply RNum E e tr = Ok e' -> clear_run t (step_errors tr (@m_nr RNum (s_mat e)) (@m_nc RNum (s_mat e)) k) e' l
  end.

Section Pipe.
Context (o : ops) (t tl : R) (SM : standard o t tl).
Local Notation FN := (FNum o).
Let Ht : 1 <= t := st_t _ _ _ SM.
Context {EF : @Ext FN} {ER : @Ext RNum}.

(** the constructor looks at the labels and the shape only *)
Lemma mk_space_close k z z' r c dr dc ops ops' : @approx o t k z z' -> @mwf FN z -> 
  match @mk_space FN z r c (Some dr) (Some dc) ops None, @mk_space RNum z' r c (Some dr) (Some dc) ops' None with
  | Ok a, Ok b => s_id2row a = s_id2row b /\ s_id2col a = s_id2col b /\ s_row2id a = s_row2id b /\ s_col2id a = s_col2id b /\ s_eshape a = s_eshape b /\ s_mat a = z /\ s_mat b = z'
  | Err e, Err e' => e = e' | _, _ => False end.
Proof.
  intros A _. pose proof A as (_ & AR & AC & _). unfold mk_space. rewrite AR, AC. destruct (assert_dict_match_list dr r); cbn [bind]; [|reflexivity]. destruct (assert_dict_match_list dc c); cbn [bind]; [|reflexivity].
  destruct (assert_shape_consistent _ _ _ _ _ _); cbn [bind]; [|reflexivity]. cbn. auto 10.
Qed.
Lemma close_step tr k s e : close t k s e -> nonneg (s_mat e) ->
  match tr with
  | TScale sc => no_log sc = true
  | TFS c K => (0 < K)%nat /\ clear_by (t ^ (2 * score_errors c (@m_nr RNum (s_mat e)) k)) (@m_nc RNum (s_mat e)) K (col_score c (s_mat e))
  | TDim _ _ => False end ->
  close_outcome t (step_errors tr (@m_nr RNum (s_mat e)) (@m_nc RNum (s_mat e)) k) (@space_apply FN EF s tr) (@space_apply RNum ER e tr) /\
  (forall e', @space_apply RNum ER e tr = Ok e' -> @m_nr RNum (s_mat e') = @m_nr RNum (s_mat e) /\ @m_nc RNum (s_mat e') = step_cols tr (@m_nc RNum (s_mat e))).
Proof.
  intros H P HT. destruct H as [C1 C2 ER1 EC1 ER2 EC2 ES A].
  assert (TK : tr_ok tr) by (destruct tr; cbn [tr_ok]; tauto).
  assert (KEY : exists z z' op op', @op_apply FN EF (@create_operation FN tr) (s_mat s) = Ok (z, op) /\ @op_apply RNum ER (@create_operation RNum tr) (s_mat e) = Ok (z', op') /\
     approx t (step_errors tr (@m_nr RNum (s_mat e)) (@m_nc RNum (s_mat e)) k) z z' /\ nonneg z' /\ @m_nr RNum z' = @m_nr RNum (s_mat e) /\ @m_nc RNum z' = step_cols tr (@m_nc RNum (s_mat e)) /\
     match tr with TScale sc => op = @OpScale FN sc None \/ exists st, op = @OpScale FN sc st | TFS c K => exists sel, op = @OpFS FN c K (Some sel) None /\ op' = @OpFS RNum c K (Some sel) None | _ => False end /\
     match tr with TScale sc => exists st, op' = @OpScale RNum sc st | _ => True end).
  { destruct tr as [sc|dk n|c K]; [|destruct HT|]; cbn [create_operation op_apply step_errors step_cols].
    - destruct (C79_scaling o t tl SM sc k (s_mat s) (s_mat e) HT A P) as (z & z' & E1 & E2 & A' & P' & R' & C'). rewrite E1, E2. cbn [bind].
      eexists z, z', _, _. split; [reflexivity|]. split; [reflexivity|]. split; [exact A'|]. split; [exact P'|]. split; [exact R'|]. split; [exact C'|]. split; [right; eexists; reflexivity|eexists; reflexivity].
    - destruct HT as (HK & CL). destruct (C105_same o t tl SM c K k (s_mat s) (s_mat e) A (fun _ => P) HK CL) as (z & z' & sel & E1 & E2 & A' & P'). rewrite E1, E2. cbn [bind].
      pose proof A as (_ & _ & _ & _ & EW & _). destruct (C20_selection c K (s_mat e) EW HK) as (z2 & sel2 & E3 & B & _ & _ & R3 & C3 & _).
      assert (z2 = z') by congruence. assert (sel2 = sel) by congruence. subst z2 sel2.
      eexists z, z', _, _. split; [reflexivity|]. split; [reflexivity|]. split; [exact A'|]. split; [apply P', P|]. split; [exact R3|]. split; [rewrite C3; apply B|]. split; [|exact I]. exists sel. split; reflexivity. }
  destruct KEY as (z & z' & op & op' & E1 & E2 & A' & P' & R' & C' & O1 & O2). split.
  - assert (D : match @space_apply FN EF s tr, @space_apply RNum ER e tr with
      | Ok a, Ok b => s_id2row a = s_id2row b /\ s_id2col a = s_id2col b /\ s_row2id a = s_row2id b /\ s_col2id a = s_col2id b /\ s_eshape a = s_eshape b /\ s_mat a = z /\ s_mat b = z'
      | Err x, Err x' => x = x' | _, _ => False end).
    { unfold space_apply. rewrite E1, E2. cbn [bind]. unfold assert_1dim_element. rewrite ES, EC1, EC2, ER1, ER2. destruct tr as [sc|dk n|c K]; [|destruct HT|].
      - destruct O2 as (st' & ->). assert (Q : exists st, op = @OpScale FN sc st) by (destruct O1 as [-> | (st & ->)]; eauto). destruct Q as (st & ->). cbn [bind]. apply mk_space_close with (k := step_errors (TScale sc) (@m_nr RNum (s_mat e)) (@m_nc RNum (s_mat e)) k); [exact A'|apply A'].
      - destruct O1 as (sel & -> & ->). destruct (Nat.ltb 1 (length (s_eshape e))); cbn [bind]; [reflexivity|]. destruct (s_id2col e) as [|c0 cs] eqn:Ec; cbn [bind].
        + apply mk_space_close with (k := k); [exact A'|apply A'].
        + destruct (select_labels (c0 :: cs) sel) as [ic|x]; cbn [bind]; [|reflexivity]. destruct (list2dict ic) as [dc|x]; cbn [bind]; [|reflexivity]. apply mk_space_close with (k := k); [exact A'|apply A']. }
    unfold close_outcome. destruct (@space_apply FN EF s tr) as [a|x] eqn:Ea; destruct (@space_apply RNum ER e tr) as [b|x'] eqn:Eb; try exact D.
    destruct D as (D1 & D2 & D3 & D4 & D5 & D6 & D7).
    destruct (@space_apply_ok FN EF s tr a C1 TK Ea) as (?&?&?&?&?&_&_&_&_&_&_&K1). destruct (@space_apply_ok RNum ER e tr b C2 TK Eb) as (?&?&?&?&?&_&_&_&_&_&_&K2).
    split; [|rewrite D7; exact P']. split; try assumption. rewrite D6, D7. exact A'.
  - intros e' Eb. destruct (@space_apply_ok RNum ER e tr e' C2 TK Eb) as (m&?&?&?&?&Q&->&_). cbn [s_mat]. assert (m = z') by congruence. subst m. auto.
Qed.

(** a list of transformations: both runs raise the same exception, or end in close spaces *)
Theorem C105_chain : forall ts k s e, close t k s e -> nonneg (s_mat e) -> clear_run t k e ts ->
  close_outcome t (run_errors ts (@m_nr RNum (s_mat e)) (@m_nc RNum (s_mat e)) k) (@apply_all FN EF s ts) (@apply_all RNum ER e ts).
Proof.
  induction ts as [|tr ts IH]; intros k s e H P CR; cbn [apply_all run_errors]; [split; assumption|]. destruct CR as (HT & CR).
  destruct (close_step tr k s e H P HT) as (CO & DM). unfold close_outcome in CO.
  destruct (@space_apply FN EF s tr) as [a|x] eqn:Ea; destruct (@space_apply RNum ER e tr) as [b|x'] eqn:Eb; try contradiction; cbn [bind]; [|exact CO].
  destruct CO as (CO & P'). destruct (DM b eq_refl) as (D1 & D2). specialize (CR b eq_refl).
  pose proof (IH _ a b CO P' CR) as Q. rewrite D1, D2 in Q. exact Q.
Qed.

(** ** similarities asked of the resulting spaces *)
(** bound on the error of a similarity of u and v, computed from vectors with k rounding errors per entry *)
Definition end_error (sim : similarity) (n k : nat) (u v : nat -> R) : R :=
  match sim with
  | Cos => t ^ (4 * k + 2 * n + 9) - 1
  | Dot => (t ^ (2 * k + n + 2) - 1) * rsum n (fun j => Rabs (u j) * Rabs (v j))
  | Euclid => (t ^ (4 + (n + 3) / 2) - 1) + (t ^ k - 1) * (norm n u + norm n v)
  | Lin => t ^ (2 * k + 2 * n + 6) - 1 end.

Lemma norm_le n (x y : nat -> R) c : 0 <= c -> (forall j, (j < n)%nat -> Rabs (x j) <= c * Rabs (y j)) -> norm n x <= c * norm n y.
Proof.
  intros Hc H. unfold norm. rewrite <- (sqrt_square c Hc) at 1. rewrite <- sqrt_mult; [|nra|apply rsum_nonneg; intros; apply Rle_0_sqr]. apply sqrt_le_1_alt. unfold dot. rewrite <- rsum_scal_l.
  assert (G : forall m, (m <= n)%nat -> rsum m (fun i => x i * x i) <= rsum m (fun i => c * c * (y i * y i))).
  { induction m as [|m IH]; intros Hm; cbn [rsum]; [lra|]. specialize (IH ltac:(lia)). specialize (H m ltac:(lia)). pose proof (Rabs_pos (x m)). pose proof (Rabs_pos (y m)).
    assert (Q : Rabs (x m) * Rabs (x m) <= (c * Rabs (y m)) * (c * Rabs (y m))) by nra.
    rewrite <- Rabs_mult in Q. replace (c * Rabs (y m) * (c * Rabs (y m))) with (c * c * (Rabs (y m) * Rabs (y m))) in Q by ring. rewrite <- Rabs_mult in Q.
    rewrite !(Rabs_right (_ * _)) in Q by (apply Rle_ge, Rle_0_sqr). lra. }
  apply G. lia.
Qed.
Lemma near_vec k n (x u : nat -> R) : (forall j, (j < n)%nat -> near t k (x j) (u j)) -> norm n (fun j => x j - u j) <= (t ^ k - 1) * norm n u.
Proof. intros H. apply norm_le; [pose proof (tpow_ge1 t Ht k); lra|]. intros j Hj. apply (near_off o t tl SM), H, Hj. Qed.
Lemma euclid_lipschitz n u v u' v' : Rabs (euclid_score n u v - euclid_score n u' v') <= norm n (fun j => u j - u' j) + norm n (fun j => v j - v' j).
Proof.
  unfold euclid_score. set (D := norm n (fun i => u i - v i)). set (D' := norm n (fun i => u' i - v' i)). assert (P : 0 <= D) by apply sqrt_pos. assert (P' : 0 <= D') by apply sqrt_pos.
  set (a := norm n (fun j => u j - u' j)). set (b := norm n (fun j => v j - v' j)).
  assert (SY : forall x y, norm n (fun j => x j - y j) = norm n (fun j => y j - x j)).
  { intros x y. unfold norm, dot. f_equal. apply rsum_ext. intros; ring. }
  assert (T1 : D <= D' + (a + b)).
  { unfold D. eapply Rle_trans; [apply (dist_triangle n u u' v)|]. pose proof (dist_triangle n u' v' v) as T. rewrite (SY v' v) in T. fold a b D' in T |- *. lra. }
  assert (T2 : D' <= D + (a + b)).
  { unfold D'. eapply Rle_trans; [apply (dist_triangle n u' u v')|]. rewrite (SY u' u). pose proof (dist_triangle n u v v') as T. fold a b D in T |- *. lra. }
  replace (1 / (1 + D) - 1 / (1 + D')) with ((D' - D) * / ((1 + D) * (1 + D'))) by (field; lra). rewrite Rabs_mult.
  assert (I : 0 < / ((1 + D) * (1 + D')) <= 1).
  { split; [apply Rinv_0_lt_compat; nra|]. apply Rle_trans with (/ 1); [apply Rinv_le_contravar; [lra|nra]|rewrite Rinv_1; lra]. }
  rewrite (Rabs_right (/ _)) by lra. assert (Q : Rabs (D' - D) <= a + b) by (unfold Rabs; destruct (Rcase_abs (D' - D)); lra). pose proof (Rabs_pos (D' - D)). nra.
Qed.
Lemma sim_close sim k v1 v2 n u v : holds o t k v1 n u -> holds o t k v2 n v -> (sim = Lin -> nonneg_vec n u /\ nonneg_vec n v) ->
  exists x : R, @sim_get FN sim v1 v2 = Ok x /\ Rabs (x - sim_spec sim n u v) <= end_error sim n k u v.
Proof.
  intros H1 H2 HL. destruct sim; cbn [sim_spec end_error].
  - destruct (C80_cosine o t tl SM k v1 v2 n u v H1 H2) as (x & E & B & _). exists x. split; [exact E|exact B].
  - destruct (C80_dot o t tl SM k v1 v2 n u v H1 H2) as (x & E & B & _). exists x. split; [exact E|exact B].
  - pose proof H1 as (W1 & R1 & C1 & X1). pose proof H2 as (W2 & R2 & C2 & X2). destruct (C80_euclid o t tl SM v1 v2 n W1 W2 R1 R2 C1 C2) as (x & E & B). change R in (type of x). exists x. split; [exact E|].
    apply (near_off o t tl SM) in B. pose proof (euclid_le1 n (fent v1 0) (fent v2 0)) as L. rewrite (Rabs_right (euclid_score _ _ _)) in B by lra. pose proof (tpow_ge1 t Ht (4 + (n + 3) / 2)) as TG.
    pose proof (euclid_lipschitz n (fent v1 0) (fent v2 0) u v) as LP. pose proof (near_vec k n _ u X1) as V1. pose proof (near_vec k n _ v X2) as V2.
    pose proof (Rabs_triang (x - euclid_score n (fent v1 0) (fent v2 0)) (euclid_score n (fent v1 0) (fent v2 0) - euclid_score n u v)) as T.
    replace (x - euclid_score n (fent v1 0) (fent v2 0) + (euclid_score n (fent v1 0) (fent v2 0) - euclid_score n u v)) with (x - euclid_score n u v) in T by ring.
    assert ((t ^ (4 + (n + 3) / 2) - 1) * euclid_score n (fent v1 0) (fent v2 0) <= t ^ (4 + (n + 3) / 2) - 1) by nra. lra.
  - destruct (HL eq_refl) as (P1 & P2). destruct (C80_lin o t tl SM k v1 v2 n u v H1 H2 P1 P2) as (x & E & B). change R in (type of x). exists x. split; [exact E|]. rewrite lin_code_nonneg by assumption.
    apply (near_off o t tl SM) in B. pose proof (lin_le1 n u v P1 P2) as L. rewrite (Rabs_right (lin_score n u v)) in B by lra. pose proof (tpow_ge1 t Ht (2 * k + 2 * n + 6)). nra.
Qed.
(** the row of a word in both models *)
Lemma close_row k s e w p : close t k s e -> nth_error (s_id2row e) p = Some w ->
  exists v, @get_row FN s w = Ok v /\ holds o t k v (@m_nc RNum (s_mat e)) (@ment RNum (s_mat e) p).
Proof.
  intros H Hp. pose proof (cl_mat _ _ _ _ H) as (_ & AR & AC & _ & _ & G). pose proof (cl_ok' _ _ _ _ H) as (_ & L & _). assert (Hp' : nth_error (s_id2row s) p = Some w) by (rewrite (cl_rows _ _ _ _ H); exact Hp).
  destruct (@C03_get_row FN s w p (cl_ok _ _ _ _ H) Hp') as (v & E & W & _ & R1 & C1 & X). exists v. split; [exact E|]. split; [exact W|]. split; [exact R1|]. split; [rewrite C1; exact AC|].
  intros j Hj. change (near t k (@ment FN v 0 j) (@ment RNum (s_mat e) p j)). rewrite X by (rewrite AC; exact Hj). apply G; [|exact Hj]. rewrite <- L. apply nth_error_Some. congruence.
Qed.
(** both spaces, or neither, are given; the given ones are close *)
Definition close_opt (k : nat) (x : option (@space FN)) (y : option (@space RNum)) : Prop :=
  match x, y with Some a, Some b => close t k a b | None, None => True | _, _ => False end.
Theorem C105_get_sim : forall k s e s2 e2 w1 w2 sim, close t k s e -> close_opt k s2 e2 -> (sim = Lin -> nonneg (s_mat e) /\ nonneg (s_mat (searched e e2))) ->
  @m_nc RNum (s_mat (searched e e2)) = @m_nc RNum (s_mat e) ->
  exists x y : R, @get_sim FN s w1 w2 sim s2 = Ok x /\ @get_sim RNum e w1 w2 sim e2 = Ok y /\
    (~ (In w1 (s_id2row e) /\ In w2 (s_id2row (searched e e2))) -> x = 0 /\ y = 0) /\
    (forall p q, nth_error (s_id2row e) p = Some w1 -> nth_error (s_id2row (searched e e2)) q = Some w2 ->
       Rabs (x - y) <= end_error sim (@m_nc RNum (s_mat e)) k (@ment RNum (s_mat e) p) (@ment RNum (s_mat (searched e e2)) q)).
Proof.
  intros k s e s2 e2 w1 w2 sim H H2 HL NC. set (n := @m_nc RNum (s_mat e)) in *.
  assert (HS : close t k (other o s s2) (searched e e2)) by (destruct s2, e2; try contradiction; assumption).
  assert (CC : @consistent RNum (searched e e2)) by apply HS. pose proof (cl_ok' _ _ _ _ H) as CE. pose proof (cl_ok _ _ _ _ H) as CS.
  destruct (in_dec string_dec w1 (s_id2row e)) as [I1|I1]; [destruct (in_dec string_dec w2 (s_id2row (searched e e2))) as [I2|I2]|].
  - apply In_nth_error in I1, I2. destruct I1 as (p & Hp), I2 as (q & Hq). pose proof CE as (_ & LE & _ & (NDE & _) & _). pose proof CC as (_ & LC & _ & (NDC & _) & _).
    destruct (close_row k s e w1 p H Hp) as (v1 & E1 & K1). destruct (close_row k _ _ w2 q HS Hq) as (v2 & E2 & K2). rewrite NC in K2. fold n in K1.
    assert (K : exists a b, @resolve2 FN v1 v2 (Some TDense) = Ok (a, b) /\ holds o t k a n (@ment RNum (s_mat e) p) /\ holds o t k b n (@ment RNum (s_mat (searched e e2)) q)).
    { unfold resolve2, resolve_type_conflict. destruct (type_conflict [v1; v2]); cbn [map bind]; eexists _, _; (split; [reflexivity|]).
      - split; apply (holds_conv o t); assumption.
      - split; assumption. }
    destruct K as (a & b & K & KA & KB).
    destruct (sim_close sim k a b n _ _ KA KB) as (x & EX & B).
    { intros Q. destruct (HL Q) as (P1 & P2). split; intros j Hj; [apply P1|apply P2; rewrite ?NC]; try assumption.
      - rewrite <- LE. apply nth_error_Some. congruence.
      - rewrite <- LC. apply nth_error_Some. congruence. }
    exists x, (sim_spec sim n (@ment RNum (s_mat e) p) (@ment RNum (s_mat (searched e e2)) q)).
    split; [|split; [|split]].
    + unfold get_sim. rewrite E1. cbn [is_key_error bind]. fold (other o s s2). rewrite E2. cbn [is_key_error bind]. rewrite K. cbn [bind]. exact EX.
    + apply C10_get_sim_present; auto.
    + intros Q. exfalso. apply Q. split; eapply nth_error_In; eassumption.
    + intros p' q' Hp' Hq'. rewrite (NoDup_nth_error_inj _ _ _ _ NDE Hp' Hp), (NoDup_nth_error_inj _ _ _ _ NDC Hq' Hq). exact B.
  - exists 0, 0. split; [|split; [|split; [auto|intros p q _ Hq; exfalso; apply I2; eapply nth_error_In; eassumption]]].
    + apply In_nth_error in I1. destruct I1 as (p & Hp). destruct (close_row k s e w1 p H Hp) as (v1 & E1 & K1). unfold get_sim. rewrite E1. cbn [is_key_error bind]. fold (other o s s2).
      rewrite (proj2 (proj1 (@C03_get_row_missing FN (other o s s2) w2 (cl_ok _ _ _ _ HS)))) by (rewrite (cl_rows _ _ _ _ HS); exact I2). reflexivity.
    + apply C10_get_sim_missing; auto.
  - exists 0, 0. split; [|split; [|split; [auto|intros p q Hp _; exfalso; apply I1; eapply nth_error_In; eassumption]]].
    + unfold get_sim. rewrite (proj2 (proj1 (@C03_get_row_missing FN s w1 CS))) by (rewrite (cl_rows _ _ _ _ H); exact I1). reflexivity.
    + apply C10_get_sim_missing; auto.
Qed.
(** from the counts to the similarities: the counts are held exactly, everything else is computed with rounding errors *)
Theorem C105_pipeline : forall ts s e s' w1 w2 sim, close t 0 s e -> nonneg (s_mat e) -> clear_run t 0 e ts -> @apply_all RNum ER e ts = Ok s' ->
  exists z (x y : R), @apply_all FN EF s ts = Ok z /\ s_id2row z = s_id2row s' /\ s_id2col z = s_id2col s' /\
    @get_sim FN z w1 w2 sim None = Ok x /\ @get_sim RNum s' w1 w2 sim None = Ok y /\
    forall p q, nth_error (s_id2row e) p = Some w1 -> nth_error (s_id2row e) q = Some w2 ->
      Rabs (x - y) <= end_error sim (@m_nc RNum (s_mat s')) (run_errors ts (@m_nr RNum (s_mat e)) (@m_nc RNum (s_mat e)) 0) (@ment RNum (s_mat s') p) (@ment RNum (s_mat s') q).
Proof.
  intros ts s e s' w1 w2 sim H P CR E. pose proof (C105_chain ts 0 s e H P CR) as Q. rewrite E in Q. unfold close_outcome in Q. destruct (@apply_all FN EF s ts) as [z|]; [|contradiction]. destruct Q as (Q & P').
  assert (RS : s_id2row s' = s_id2row e).
  { clear -E H CR. pose proof (cl_ok' _ _ _ _ H) as C. clear H. revert e C CR E. generalize 0%nat. induction ts as [|tr ts IH]; intros k e C CR E; cbn [apply_all] in E; [congruence|].
    destruct (@space_apply RNum ER e tr) as [b|] eqn:Eb; [|discriminate]. cbn [bind] in E. destruct CR as (HT & CR). assert (TK : tr_ok tr) by (destruct tr; cbn [tr_ok]; tauto).
    destruct (@space_apply_ok RNum ER e tr b C TK Eb) as (?&?&?&?&?&_&EB&_&_&_&_&C'). specialize (IH _ b C' (CR b Eb) E). rewrite IH, EB. reflexivity. }
  destruct (C105_get_sim _ z s' None None w1 w2 sim Q I (fun _ => conj P' P') eq_refl) as (x & y & E1 & E2 & _ & B). exists z, x, y.
  split; [reflexivity|]. split; [apply Q|]. split; [apply Q|]. split; [exact E1|]. split; [exact E2|]. rewrite <- RS. exact B.
Qed.

(** ** lists of neighbours of the resulting spaces *)
Lemma nearly_mono rows sc sc' err err' k l : (forall q, (q < length rows)%nat -> Rabs (sc' q - sc q) + err' q <= err q) -> nearly_top_k rows sc' err' k l -> nearly_top_k rows sc err k l.
Proof.
  intros H T. assert (AP : forall q x, nth_error rows q = Some x -> sc' q + err' q <= sc q + err q /\ sc q - err q <= sc' q - err' q).
  { intros q x Hq. assert (L : (q < length rows)%nat) by (apply nth_error_Some; congruence). specialize (H q L). unfold Rabs in H. destruct (Rcase_abs (sc' q - sc q)); lra. }
  split.
  - apply T.
  - apply T.
  - intros x c Hin. destruct (nk_score _ _ _ _ _ T x c Hin) as (q & Hq & B). exists q. split; [exact Hq|]. assert (L : (q < length rows)%nat) by (apply nth_error_Some; congruence). specialize (H q L).
    pose proof (Rabs_triang (c - sc' q) (sc' q - sc q)) as TT. replace (c - sc' q + (sc' q - sc q)) with (c - sc q) in TT by ring. lra.
  - intros a b x c y d p q Hab Ha Hb Hp Hq. pose proof (nk_order _ _ _ _ _ T a b x c y d p q Hab Ha Hb Hp Hq). destruct (AP p x Hp), (AP q y Hq). lra.
  - intros q y x c p Hq Hn Hin Hp. pose proof (nk_omitted _ _ _ _ _ T q y x c p Hq Hn Hin Hp). destruct (AP p x Hp), (AP q y Hq). lra.
Qed.
End Pipe.

(** how the exact similarities depend on the vectors: C80 of a machine that does not round *)
Definition no_rounding : ops := {| o_add := Rplus; o_sub := Rminus; o_mul := Rmult; o_div := Rdiv; o_sqrt := sqrt; o_ln := ln; o_ofZ := IZR |}.
Lemma no_rounding_standard t : 1 <= t -> standard no_rounding t t.
Proof. intros Ht. split; try exact Ht; intros; apply near_refl, Ht. Qed.
Section Perturb.
Context (t : R) (Ht : 1 <= t).
Local Notation XN := (FNum no_rounding).
Definition row_of (n : nat) (u : nat -> R) : @matrix XN := @of_dense XN TDense (@tab XN 1 n (fun _ j => u j)).
Lemma row_of_vals n u : (0 < n)%nat -> @vals XN (row_of n u) TDense 1 n (fun _ j => u j).
Proof. intros Hn. apply (@vals_of_dense XN); lia. Qed.
Lemma sim_perturb sim k n u v u' v' : (0 < n)%nat -> (forall j, (j < n)%nat -> near t k (u' j) (u j)) -> (forall j, (j < n)%nat -> near t k (v' j) (v j)) -> (sim = Lin -> nonneg_vec n u /\ nonneg_vec n v) ->
  Rabs (sim_spec sim n u' v' - sim_spec sim n u v) <= end_error t sim n k u v.
Proof.
  intros Hn H1 H2 HL. pose proof (no_rounding_standard t Ht) as SX.
  assert (HH : forall w w' : nat -> R, (forall j, (j < n)%nat -> near t k (w' j) (w j)) -> holds no_rounding t k (row_of n w') n w).
  { intros w w' H. pose proof (row_of_vals n w' Hn) as V. pose proof (@vals_has XN _ _ _ _ _ V) as (W & _ & R1 & C1). split; [exact W|]. split; [exact R1|]. split; [exact C1|]. intros j Hj.
    change (near t k (@ment XN (row_of n w') 0 j) (w j)). rewrite (@vals_ent XN _ _ _ _ _ 0%nat j V ltac:(lia) Hj). apply H, Hj. }
  destruct (sim_close no_rounding t t SX sim k _ _ n u v (HH u u' H1) (HH v v' H2) HL) as (x & E & B).
  assert (RV : forall w, row_vec (@MD RNum (@tab RNum 1 n (fun _ j => w j))) n /\ forall j, (j < n)%nat -> @ment RNum (@MD RNum (@tab RNum 1 n (fun _ j => w j))) 0 j = w j).
  { intros w. pose proof (@vals_of_dense RNum TDense 1 n (fun _ j => w j) ltac:(lia) Hn) as V. pose proof (@vals_has RNum _ _ _ _ _ V) as (W & _ & R1 & C1). split; [split; [exact W|split; [exact R1|exact C1]]|].
    intros j Hj. exact (@vals_ent RNum _ _ _ _ _ 0%nat j V ltac:(lia) Hj). }
  destruct (RV u') as (A1 & A2). destruct (RV v') as (B1 & B2).
  pose proof (sim_get_row sim _ _ n A1 B1) as SG. rewrite (sim_spec_ext sim n _ u' _ v' A2 B2) in SG.
  assert (X : x = sim_spec sim n u' v'). { change (@sim_get XN sim (row_of n u') (row_of n v')) with (@sim_get RNum sim (@MD RNum (@tab RNum 1 n (fun _ j => u' j))) (@MD RNum (@tab RNum 1 n (fun _ j => v' j)))) in E. congruence. }
  rewrite <- X. exact B.
Qed.
End Perturb.
Section PipeN.
Context (o : ops) (t tl : R) (SM : standard o t tl).
Local Notation FN := (FNum o).
Let Ht : 1 <= t := st_t _ _ _ SM.
Context {EF : @Ext FN} {ER : @Ext RNum}.
(** bound on the error of a reported score, and of the order of the list *)
Definition list_error (sim : similarity) (n k : nat) (u v : nat -> R) : R :=
  end_error t sim n k u v + match sim with Dot => t ^ (2 * k) * sim_error t Dot n u v | _ => sim_error t sim n u v end.
Theorem C105_neighbours : forall k s e s2 e2 w K sim p, close t k s e -> close_opt o t k s2 e2 -> (sim = Lin -> nonneg (s_mat e) /\ nonneg (s_mat (searched e e2))) ->
  @m_nc RNum (s_mat (searched e e2)) = @m_nc RNum (s_mat e) -> nth_error (s_id2row e) p = Some w ->
  let n := @m_nc RNum (s_mat e) in let u := @ment RNum (s_mat e) p in let v := @ment RNum (s_mat (searched e e2)) in
  exists l : list (string * R), @get_neighbours FN s w K sim s2 = Ok l /\
    nearly_top_k (s_id2row (searched e e2)) (fun q => sim_spec sim n u (v q)) (fun q => list_error sim n k u (v q)) (Z.to_nat K) l.
Proof.
  intros k s e s2 e2 w K sim p H H2 HL NC Hp n u v.
  assert (HS : close t k (other o s s2) (searched e e2)) by (destruct s2, e2; try contradiction; assumption).
  pose proof (cl_mat _ _ _ _ H) as (_ & AR & AC & _ & EW & G). pose proof (cl_mat _ _ _ _ HS) as (_ & AR2 & AC2 & _ & _ & G2).
  pose proof (cl_ok' _ _ _ _ H) as (_ & LE & _). pose proof (cl_ok' _ _ _ _ HS) as (_ & LE2 & _).
  assert (Hpl : (p < @m_nr RNum (s_mat e))%nat) by (rewrite <- LE; apply nth_error_Some; congruence).
  assert (Hn : (0 < n)%nat) by apply (mwf_pos _ EW).
  assert (NU : forall j, (j < n)%nat -> near t k (fent (s_mat s) p j) (u j)) by (intros j Hj; apply G; assumption).
  assert (NV : forall q, (q < @m_nr RNum (s_mat (searched e e2)))%nat -> forall j, (j < n)%nat -> near t k (fent (s_mat (other o s s2)) q j) (v q j)) by (intros q Hq j Hj; apply G2; rewrite ?NC; assumption).
  assert (PU : sim = Lin -> nonneg_vec n u) by (intros Q j Hj; apply (proj1 (HL Q)); assumption).
  assert (PV : sim = Lin -> forall q, (q < @m_nr RNum (s_mat (searched e e2)))%nat -> nonneg_vec n (v q)) by (intros Q q Hq j Hj; apply (proj2 (HL Q)); rewrite ?NC; assumption).
  assert (Hp' : nth_error (s_id2row s) p = Some w) by (rewrite (cl_rows _ _ _ _ H); exact Hp).
  destruct (C81_neighbours o t tl SM s w K sim s2 p n (cl_ok _ _ _ _ H) (cl_ok _ _ _ _ HS) Hp' AC ltac:(rewrite AC2; exact NC)) as (l & E & T).
  { intros Q. split.
    - intros j Hj. apply (near_nonneg t Ht _ _ _ (NU j Hj)), PU; assumption.
    - intros q Hq j Hj. rewrite AR2 in Hq. apply (near_nonneg t Ht _ _ _ (NV q Hq j Hj)), PV; assumption. }
  exists l. split; [exact E|]. rewrite <- (cl_rows _ _ _ _ HS). eapply nearly_mono; [|exact T]. cbv beta. intros q Hq. rewrite (cl_rows _ _ _ _ HS), LE2 in Hq.
  unfold list_error. apply Rplus_le_compat.
  - apply (sim_perturb t Ht); auto.
  - destruct sim; cbn [sim_error sim_size]; unfold sim_error; cbn [sim_size sim_steps]; try lra. rewrite <- Rmult_assoc, (Rmult_comm (t ^ (2 * k))), Rmult_assoc. pose proof (tpow_ge1 t Ht (n + 2)) as TG. apply Rmult_le_compat_l; [lra|].
    rewrite <- rsum_scal_l. assert (GG : forall m, (m <= n)%nat -> rsum m (fun j => Rabs (fent (s_mat s) p j) * Rabs (fent (s_mat (other o s s2)) q j)) <= rsum m (fun j => t ^ (2 * k) * (Rabs (u j) * Rabs (v q j)))).
    { induction m as [|m IH]; intros Hm; cbn [rsum]; [lra|]. specialize (IH ltac:(lia)). destruct (NU m ltac:(lia)) as (a & (A1 & A2) & ->). destruct (NV q Hq m ltac:(lia)) as (b & (B1 & B2) & ->).
      pose proof (tinv_pos t Ht k). rewrite !Rabs_mult, (Rabs_right a), (Rabs_right b) by lra. assert (T2 : t ^ (2 * k) = t ^ k * t ^ k) by (rewrite <- pow_add; f_equal; lia).
      assert (Q : a * b <= t ^ (2 * k)) by (rewrite T2; apply Rmult_le_compat; lra). pose proof (Rabs_pos (u m)). pose proof (Rabs_pos (v q m)). assert (W0 : 0 <= Rabs (u m) * Rabs (v q m)) by (apply Rmult_le_pos; assumption).
      pose proof (Rmult_le_compat_r _ _ _ W0 Q) as Q2. replace (Rabs (u m) * a * (Rabs (v q m) * b)) with (a * b * (Rabs (u m) * Rabs (v q m))) by ring. apply Rplus_le_compat; assumption. }
    apply GG. lia.
Qed.
End PipeN.
