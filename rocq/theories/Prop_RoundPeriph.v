(** Prop_RoundPeriph.v -- property C105, continued: peripheral spaces built with rounding errors. *)
From Coq Require Import Reals Lra Psatz.
From Verif Require Import Base PyList Dict Num SpecReal Dense Sparse Matrix PSparse PMatrix PMatOps PShape PVals PReal PSort PPos Scaling Linalg Operation Similarity Space
  Peripheral SpecSpace PDictList PSpace PCols Prop_Space Prop_Periph Prop_Scaling Prop_Sim Prop_Neigh Prop_Order Prop_Counts Prop_Metric Round PRound Prop_Round Prop_RoundSim Prop_RoundNeigh Prop_RoundSel Prop_RoundPipe.
Open Scope R_scope.

(** rounding errors of the statistics that a scaling of an r x c core matrix with k errors per entry remembers *)
Definition stat_errors (sc : scaling) (r c k : nat) : nat :=
  match sc with Norm CSum => k + c + r | Norm CLength => S (k + (r * c + r + c + 2) / 2) | _ => k + r end.
(** rounding errors of a matrix with a errors per entry after one transformation of the core space (core: r x c, k errors) was projected on it *)
Definition side_errors (tr : transformation) (r c k a : nat) : nat :=
  match tr with
  | TScale (Norm q) => a + stat_errors (Norm q) r c k + 2
  | TScale (RowNorm q) => rounding_errors (RowNorm q) r c a
  | TScale sc => 2 * a + 2 * stat_errors sc r c k + 2 * c + 5
  | _ => a end.
(** ... and after all of them *)
Fixpoint side_run_errors (ts : list transformation) (r c k a : nat) : nat :=
  match ts with [] => a | tr :: l => side_run_errors l r (step_cols tr c) (step_errors tr r c k) (side_errors tr r c k a) end.
Definition run_cols (ts : list transformation) (c : nat) : nat := fold_left (fun n tr => step_cols tr n) ts c.

Section Periph.
Context (o : ops) (t tl : R) (SM : standard o t tl).
Local Notation FN := (FNum o).
Let Ht : 1 <= t := st_t _ _ _ SM.
Context {EF : @Ext FN} {ER : @Ext RNum}.

(** the statistics remembered by the two runs *)
Definition stat_near (sc : scaling) (b n : nat) (st : option (@cstats FN)) (st' : option (@cstats RNum)) : Prop :=
  match sc with
  | Epmi => exists l l', st = Some (@SCol FN l) /\ st' = Some (@SCol RNum l') /\ marg_near t b n l l'
  | Norm _ => exists x x', st = Some (@SScal FN x) /\ st' = Some (@SScal RNum x') /\ 0 <= x' /\ near t b x x'
  | _ => st = None /\ st' = None
  end.
(** the operations remembered by the two runs of the list ts *)
Fixpoint ops_near (ts : list transformation) (r c k : nat) (l : list (@operation FN)) (l' : list (@operation RNum)) : Prop :=
  match ts with
  | [] => l = [] /\ l' = []
  | tr :: ts => exists x x' m m', l = x :: m /\ l' = x' :: m' /\ ops_near ts r (step_cols tr c) (step_errors tr r c k) m m' /\
      match tr with
      | TScale sc => no_log sc = true /\ exists st st', x = @OpScale FN sc st /\ x' = @OpScale RNum sc st' /\ stat_near sc (stat_errors sc r c k) c st st'
      | TDim _ _ => False
      | TFS q K => exists sel orig, x = @OpFS FN q K (Some sel) orig /\ x' = @OpFS RNum q K (Some sel) orig /\ length sel = Nat.min K c /\ (0 < length sel)%nat /\ Forall (fun j => j < c)%nat sel
      end
  end.

Lemma stats_near sc k m e : no_log sc = true -> @approx o t k m e -> nonneg e ->
  stat_near sc (stat_errors sc (@m_nr RNum e) (@m_nc RNum e) k) (@m_nc RNum e)
    (if uses_column_stats sc then Some (@get_column_stats FN sc m) else None) (if uses_column_stats sc then Some (@get_column_stats RNum sc e) else None).
Proof.
  intros Hs A P. pose proof A as (AT & AR & AC & AW & EW & G). destruct sc as [| | | |q|[]]; try discriminate; cbn [stat_near uses_column_stats get_column_stats stat_errors].
  - do 2 eexists. split; [reflexivity|]. split; [reflexivity|]. exact (sums_near o t tl SM k m e A P).
  - split; reflexivity.
  - do 2 eexists. split; [reflexivity|]. split; [reflexivity|]. split; [|apply (near_sum o t tl SM); assumption].
    refine (eq_ind_r (fun z : R => 0 <= z) _ (m_sum_R e)). apply rsum_nonneg. intros; apply rsum_nonneg; intros; apply P; assumption.
  - do 2 eexists. split; [reflexivity|]. split; [reflexivity|]. split; [refine (eq_ind_r (fun z : R => 0 <= z) _ (m_norm_R e EW)); apply sqrt_pos|].
    refine (near_mono t Ht _ _ _ _ _ (near_norm o t tl SM k m e A)).
    pose proof (stored_le o m AW) as SL. rewrite AR, AC in SL. pose proof (Nat.div_le_mono (S (S (stored o m))) (@m_nr RNum e * @m_nc RNum e + @m_nr RNum e + @m_nc RNum e + 2) 2 ltac:(lia) ltac:(lia)). lia.
Qed.

(** the operations recorded while the list ts is applied *)
Lemma recorded : forall ts k s e s' e', close t k s e -> nonneg (s_mat e) -> clear_run t k e ts -> @apply_all FN EF s ts = Ok s' -> @apply_all RNum ER e ts = Ok e' ->
  exists l l', s_ops s' = s_ops s ++ l /\ s_ops e' = s_ops e ++ l' /\ ops_near ts (@m_nr RNum (s_mat e)) (@m_nc RNum (s_mat e)) k l l'.
Proof.
  induction ts as [|tr ts IH]; intros k s e s' e' H P CR Es Ee.
  - cbn [apply_all] in Es, Ee. assert (s' = s) by congruence. assert (e' = e) by congruence. subst. exists [], []. rewrite !app_nil_r. repeat split.
  - cbn [apply_all] in Es, Ee. destruct CR as (HT & CR). destruct (close_step o t tl SM tr k s e H P HT) as (CO & DM). unfold close_outcome in CO.
    destruct (@space_apply FN EF s tr) as [a|x] eqn:Ea; destruct (@space_apply RNum ER e tr) as [b|x'] eqn:Eb; try discriminate; try contradiction. cbn [bind] in Es, Ee.
    destruct CO as (CO & P'). destruct (DM b eq_refl) as (D1 & D2). specialize (CR b eq_refl).
    destruct (IH _ a b s' e' CO P' CR Es Ee) as (l & l' & O1 & O2 & ON). rewrite D1, D2 in ON. destruct H as [C1 C2 ER1 EC1 ER2 EC2 ES A].
    assert (TK : tr_ok tr) by (destruct tr; cbn [tr_ok]; tauto).
    destruct (@space_apply_ok FN EF s tr a C1 TK Ea) as (z & op & op0 & ? & ? & Q1 & Qa & Qo & _). destruct (@space_apply_ok RNum ER e tr b C2 TK Eb) as (z' & op' & op0' & ? & ? & Q1' & Qb & Qo' & _).
    subst a b. cbn [s_ops] in O1, O2. exists (op :: l), (op' :: l'). rewrite O1, O2, <- !app_assoc. split; [reflexivity|]. split; [reflexivity|].
    cbn [ops_near]. exists op, op', l, l'. split; [reflexivity|]. split; [reflexivity|]. split; [exact ON|]. subst op op'.
    destruct tr as [sc|dk n|c K]; [|destruct HT|]; cbn [create_operation op_apply] in Q1, Q1'.
    + split; [exact HT|]. destruct (@scaling_apply FN sc (s_mat s) None) as [w|]; [|discriminate]. destruct (@scaling_apply RNum sc (s_mat e) None) as [w'|]; [|discriminate]. cbn [bind] in Q1, Q1'.
      do 2 eexists. split; [symmetry; apply (f_equal (fun r => match r with Ok (_, y) => y | Err _ => op0 end)) in Q1; exact Q1|]. split; [symmetry; apply (f_equal (fun r => match r with Ok (_, y) => y | Err _ => op0' end)) in Q1'; exact Q1'|].
      apply stats_near; assumption.
    + destruct HT as (HK & CL). destruct (C105_same o t tl SM c K k (s_mat s) (s_mat e) A (fun _ => P) HK CL) as (w & w' & sel & E1 & E2 & _). rewrite E1 in Q1. rewrite E2 in Q1'. cbn [bind] in Q1, Q1'.
      assert (op0 = @OpFS FN c K (Some sel) None) by congruence. assert (op0' = @OpFS RNum c K (Some sel) None) by congruence. subst op0 op0'. cbn [op_set_original].
      exists sel, (Some (s_id2col s)). split; [reflexivity|]. split; [rewrite EC1; reflexivity|].
      pose proof A as (_ & _ & _ & _ & EW & _). destruct (C20_selection c K (s_mat e) EW HK) as (z2 & sel2 & E3 & B & _ & _ & R3 & C3 & _).
      assert (sel2 = sel) by congruence. subst sel2. split; [apply B|]. split; [|apply Forall_forall; intros j Hj; apply (bc_range _ _ _ _ B), Hj].
      rewrite (bc_length _ _ _ _ B). pose proof (proj2 (@mwf_pos RNum _ EW)). lia.
Qed.

(** projecting one operation *)
Lemma project_near tr r c k a x x' m e : @approx o t a m e -> nonneg e -> @m_nc RNum e = c ->
  match tr with
  | TScale sc => no_log sc = true /\ exists st st', x = @OpScale FN sc st /\ x' = @OpScale RNum sc st' /\ stat_near sc (stat_errors sc r c k) c st st'
  | TDim _ _ => False
  | TFS q K => exists sel orig, x = @OpFS FN q K (Some sel) orig /\ x' = @OpFS RNum q K (Some sel) orig /\ length sel = Nat.min K c /\ (0 < length sel)%nat /\ Forall (fun j => j < c)%nat sel
  end ->
  exists z z', @op_project FN x m = Ok z /\ @op_project RNum x' e = Ok z' /\ approx t (side_errors tr r c k a) z z' /\ nonneg z' /\ @m_nr RNum z' = @m_nr RNum e /\ @m_nc RNum z' = step_cols tr c.
Proof.
  intros A P EC HX. pose proof A as (AT & AR & AC & AW & EW & G). destruct tr as [sc|dk n|q K]; [|destruct HX|].
  - destruct HX as (Hs & st & st' & -> & -> & ST). destruct sc as [| | | |q|q]; try discriminate; cbn [stat_near] in ST; cbn [op_project uses_column_stats side_errors step_cols].
    + destruct ST as (l & l' & -> & -> & ML). rewrite <- EC in ML. destruct (epmi_round o t tl SM a _ m e l l' (Some l) (Some l') A P ML eq_refl eq_refl) as (m' & e' & E1 & E2 & A' & P' & _ & R' & C').
      exists m', e'. split; [exact E1|]. split; [exact E2|]. split; [|split; [exact P'|split; [exact R'|rewrite C'; exact EC]]]. refine (approx_mono o t tl SM _ _ _ _ _ A'). rewrite EC. lia.
    + destruct ST as (-> & ->). destruct (C79_scaling o t tl SM (RowNorm q) a m e eq_refl A P) as (m' & e' & E1 & E2 & A' & P' & R' & C').
      exists m', e'. split; [exact E1|]. split; [exact E2|]. split; [|split; [exact P'|split; [exact R'|rewrite C'; exact EC]]]. rewrite EC in A'. destruct q; exact A'.
    + destruct ST as (y & y' & -> & -> & Y0 & Y). destruct (whole_round o t tl SM a _ m e y y' A P Y0 Y) as (m' & e' & E1 & E2 & A' & P' & R' & C').
      exists m', e'. split; [exact E1|]. split; [exact E2|]. split; [exact A'|]. split; [exact P'|]. split; [exact R'|]. rewrite C'; exact EC.
  - destruct HX as (sel & orig & -> & -> & LS & L0 & FS). cbn [op_project side_errors step_cols]. destruct (approx_vals o t _ _ _ A) as (V & W). rewrite <- EC in FS.
    destruct (@vals_get_cols FN _ _ _ _ _ sel V FS L0) as (z & Ez & Vz). destruct (@vals_get_cols RNum _ _ _ _ _ sel W FS L0) as (z' & Ez' & Vz'). pose proof (vals_has _ _ _ _ _ Vz') as (_ & T2 & R2 & C2).
    exists z, z'. split; [exact Ez|]. split; [exact Ez'|].
    assert (RG : forall j, (j < length sel)%nat -> (nth j sel 0 < @m_nc RNum e)%nat) by (intros j Hj; rewrite Forall_forall in FS; apply FS, nth_In, Hj).
    split; [|split; [|split; [exact R2|congruence]]].
    + refine (vals_approx o t _ _ _ _ _ _ _ _ Vz Vz' _). intros i j Hi Hj. apply G; auto.
    + intros i j Hi Hj. rewrite R2 in Hi. rewrite C2 in Hj. rewrite (vals_ent _ _ _ _ _ i j Vz' Hi Hj). apply P; auto.
Qed.
Lemma project_ops_near : forall ts r c k a l l' cs m e, ops_near ts r c k l l' -> @approx o t a m e -> nonneg e -> @m_nc RNum e = c ->
  fst (@project_ops FN l cs m) = fst (@project_ops RNum l' cs e) /\
  match snd (@project_ops FN l cs m), snd (@project_ops RNum l' cs e) with
  | Ok z, Ok z' => approx t (side_run_errors ts r c k a) z z' /\ nonneg z' /\ @m_nr RNum z' = @m_nr RNum e /\ @m_nc RNum z' = run_cols ts c
  | Err x, Err x' => x = x' | _, _ => False end.
Proof.
  induction ts as [|tr ts IH]; intros r c k a l l' cs m e ON A P EC.
  - destruct ON as (-> & ->). cbn. auto.
  - destruct ON as (x & x' & q & q' & -> & -> & ON & HX). destruct (project_near tr r c k a x x' m e A P EC HX) as (z & z' & E1 & E2 & A' & P' & R' & C').
    assert (EO : @op_columns FN x cs = @op_columns RNum x' cs).
    { destruct tr as [sc|dk n|c0 K]; [|destruct HX|]; [destruct HX as (_ & st & st' & -> & -> & _); reflexivity|destruct HX as (sel & orig & -> & -> & _); reflexivity]. }
    cbn [project_ops]. rewrite EO. destruct (@op_columns RNum x' cs) as [c' [u|y]]; [|split; reflexivity]. rewrite E1, E2.
    cbn [side_run_errors]. unfold run_cols. cbn [fold_left]. pose proof (IH r _ _ _ q q' c' z z' ON A' P' C') as Q. rewrite R' in Q. exact Q.
Qed.

(** ** C105, peripheral spaces *)
(** a core space is made by the list ts from a space without operations; a matrix with the columns of the first core matrix is projected:
    both runs raise the same exception, or end in close peripheral spaces *)
Theorem C105_peripheral : forall ts k s e s' e' a m me rows r2i, close t k s e -> s_ops s = [] -> s_ops e = [] -> nonneg (s_mat e) -> clear_run t k e ts ->
  @apply_all FN EF s ts = Ok s' -> @apply_all RNum ER e ts = Ok e' ->
  @approx o t a m me -> nonneg me -> @m_nc RNum me = @m_nc RNum (s_mat e) -> opt_dict r2i ->
  close_outcome t (side_run_errors ts (@m_nr RNum (s_mat e)) (@m_nc RNum (s_mat e)) k a) (@mk_peripheral FN s' m rows r2i) (@mk_peripheral RNum e' me rows r2i).
Proof.
  intros ts k s e s' e' a m me rows r2i H O1 O2 P CR Es Ee A PM EC OD.
  destruct (recorded ts k s e s' e' H P CR Es Ee) as (l & l' & L1 & L2 & ON). rewrite O1 in L1. rewrite O2 in L2. cbn [app] in L1, L2.
  pose proof (C105_chain o t tl SM ts k s e H P CR) as CO. unfold close_outcome in CO. rewrite Es, Ee in CO. destruct CO as (CO & _). pose proof CO as [C1 C2 ER1 EC1 ER2 EC2 ES A2].
  destruct (project_ops_near ts _ _ k a l l' (CS (s_id2col e') (s_col2id e')) m me ON A PM EC) as (PC & PR).
  assert (D : match @mk_peripheral FN s' m rows r2i, @mk_peripheral RNum e' me rows r2i with
      | Ok p, Ok q => s_id2row p = s_id2row q /\ s_id2col p = s_id2col q /\ s_row2id p = s_row2id q /\ s_col2id p = s_col2id q /\ s_eshape p = s_eshape q /\
          approx t (side_run_errors ts (@m_nr RNum (s_mat e)) (@m_nc RNum (s_mat e)) k a) (s_mat p) (s_mat q) /\ nonneg (s_mat q)
      | Err x, Err x' => x = x' | _, _ => False end).
  { unfold mk_peripheral. destruct (match r2i with Some d => _ | None => _ end) as [d|x]; cbn [bind]; [|reflexivity]. rewrite L1, L2, EC1, EC2.
    destruct (@project_ops FN l _ m) as [c0 [z|x]]; destruct (@project_ops RNum l' _ me) as [c1 [z'|x']]; cbn [fst snd] in PC, PR; try contradiction; cbn [bind]; [|exact PR].
    subst c1. destruct PR as (A' & P' & R' & C'). pose proof A' as (_ & R2 & C2' & _). rewrite R2, C2'. destruct (assert_shape_consistent _ _ _ _ _ _); cbn [bind]; [|reflexivity].
    cbn [s_id2row s_id2col s_row2id s_col2id s_eshape s_mat]. auto 10. }
  unfold close_outcome. destruct (@mk_peripheral FN s' m rows r2i) as [p|x] eqn:Ep; destruct (@mk_peripheral RNum e' me rows r2i) as [q|x'] eqn:Eq; try exact D.
  destruct D as (D1 & D2 & D3 & D4 & D5 & D6 & D7). split; [|exact D7].
  destruct (@mk_peripheral_ok FN s' m rows r2i p C1 (proj1 (proj2 (proj2 (proj2 A)))) OD Ep) as (?&?&?&_&_&_&_&_&K1).
  destruct (@mk_peripheral_ok RNum e' me rows r2i q C2 (proj1 (proj2 (proj2 (proj2 (proj2 A))))) OD Eq) as (?&?&?&_&_&_&_&_&K2).
  split; assumption.
Qed.

(** rows added later to a peripheral space *)
Theorem C105_add_rows : forall ts r c k b a p q m me rows, close t b p q -> nonneg (s_mat q) -> positional_rows q -> ops_near ts r c k (s_ops p) (s_ops q) ->
  @approx o t a m me -> nonneg me -> @m_nc RNum me = c ->
  match @add_rows FN p m rows, @add_rows RNum q me rows with
  | (p', Ok _), (q', Ok _) => close t (Nat.max b (side_run_errors ts r c k a)) p' q' /\ nonneg (s_mat q') /\ positional_rows q' /\ ops_near ts r c k (s_ops p') (s_ops q')
  | (_, Err x), (_, Err x') => x = x' | _, _ => False end.
Proof.
  intros ts r c k b a p q m me rows H P PO ON A PM EC. pose proof H as [C1 C2 ER1 EC1 ER2 EC2 ES A2].
  destruct (project_ops_near ts r c k a _ _ (CS (s_id2col q) (s_col2id q)) m me ON A PM EC) as (PC & PR).
  set (B := Nat.max b (side_run_errors ts r c k a)).
  assert (D : match @add_rows FN p m rows, @add_rows RNum q me rows with
      | (p', Ok _), (q', Ok _) => s_id2row p' = s_id2row q' /\ s_id2col p' = s_id2col q' /\ s_row2id p' = s_row2id q' /\ s_col2id p' = s_col2id q' /\ s_eshape p' = s_eshape q' /\
          approx t B (s_mat p') (s_mat q') /\ nonneg (s_mat q') /\ s_ops p' = s_ops p /\ s_ops q' = s_ops q
      | (_, Err x), (_, Err x') => x = x' | _, _ => False end).
  { unfold add_rows. rewrite ER2. destruct (add_items_to_dict (s_row2id q) rows) as [d [u|x]]; [|reflexivity].
    pose proof A as (_ & AR & _). rewrite AR. destruct (negb (Nat.eqb (@m_nr RNum me) (length rows))); [reflexivity|].
    unfold set_row2id, set_id2row. cbn [s_mat s_id2row s_id2col s_row2id s_col2id s_ops s_eshape]. rewrite EC1, EC2, ER1.
    destruct (@project_ops FN (s_ops p) _ m) as [c0 [z|x]]; destruct (@project_ops RNum (s_ops q) _ me) as [c1 [z'|x']]; cbn [fst snd] in PC, PR; try contradiction; [|exact PR].
    subst c1. destruct PR as (A' & P' & R' & C'). unfold set_cols, set_mat. cbn [s_mat s_id2row s_id2col s_row2id s_col2id s_ops s_eshape].
    pose proof A' as (T3 & R3 & C3 & _). pose proof A2 as (T4 & R4 & C4 & _). destruct (approx_vals o t _ _ _ A2) as (V & W). destruct (approx_vals o t _ _ _ A') as (V' & W').
    assert (ST : @same_type FN (s_mat p) z = @same_type RNum (s_mat q) z') by (unfold same_type; rewrite T3, T4; reflexivity).
    destruct (@same_type RNum (s_mat q) z') as [[]|x] eqn:Et; [|unfold m_vstack; rewrite ST, Et; cbn [bind]; reflexivity].
    destruct (Nat.eqb (@m_nc RNum (s_mat q)) (@m_nc RNum z')) eqn:En; [|unfold m_vstack; rewrite ST, Et, C3, C4; cbn [bind]; rewrite En; reflexivity].
    apply Nat.eqb_eq in En. apply same_type_ok in Et. rewrite <- En, <- Et in V', W'.
    destruct (@vals_vstack FN _ _ _ _ _ _ _ _ V V') as (w & Ew & Vw). destruct (@vals_vstack RNum _ _ _ _ _ _ _ _ W W') as (w' & Ew' & Ww). rewrite Ew, Ew'.
    pose proof (vals_has _ _ _ _ _ Vw) as (_ & T5 & R5 & C5). pose proof (vals_has _ _ _ _ _ Ww) as (_ & T6 & R6 & C6).
    cbn [s_mat s_id2row s_id2col s_row2id s_col2id s_ops s_eshape]. rewrite R5, R6, C5, C6.
    destruct (assert_shape_consistent _ _ _ _ _ _) as [u2|x]; [|reflexivity]. do 4 (split; [reflexivity|]). split; [exact ES|].
    split; [|split; [|split; reflexivity]].
    - refine (vals_approx o t _ _ _ _ _ _ _ _ Vw Ww _). intros i j Hi Hj. cbn beta. destruct (Nat.ltb_spec i (@m_nr RNum (s_mat q))) as [L|L].
      + apply (near_mono t Ht b); [unfold B; lia|]. apply A2; assumption.
      + apply (near_mono t Ht (side_run_errors ts r c k a)); [unfold B; lia|]. apply A'; [lia|rewrite <- En; exact Hj].
    - intros i j Hi Hj. rewrite R6 in Hi. rewrite C6 in Hj. rewrite (vals_ent _ _ _ _ _ i j Ww Hi Hj). cbn beta. destruct (Nat.ltb_spec i (@m_nr RNum (s_mat q))) as [L|L]; [apply P; assumption|apply P'; [lia|rewrite <- En; exact Hj]]. }
  destruct (@add_rows FN p m rows) as [p' [[]|x]] eqn:Ep; destruct (@add_rows RNum q me rows) as [q' [[]|x']] eqn:Eq; try exact D.
  destruct D as (D1 & D2 & D3 & D4 & D5 & D6 & D7 & D8 & D9).
  assert (GP : @good FN p) by (split; [exact C1|]; unfold positional_rows in *; rewrite ER1, ER2; exact PO).
  destruct (@add_rows_good FN p m rows p' GP (proj1 (proj2 (proj2 (proj2 A)))) Ep) as (K1 & _).
  destruct (@add_rows_good RNum q me rows q' (conj C2 PO) (proj1 (proj2 (proj2 (proj2 (proj2 A))))) Eq) as (K2 & K3).
  split; [split; assumption|]. split; [exact D7|]. split; [exact K3|]. rewrite D8, D9. exact ON.
Qed.
(** the peripheral spaces of C105_peripheral are such spaces *)
Theorem C105_peripheral_ops : forall ts k s e s' e' a m me rows p q, close t k s e -> s_ops s = [] -> s_ops e = [] -> nonneg (s_mat e) -> clear_run t k e ts ->
  @apply_all FN EF s ts = Ok s' -> @apply_all RNum ER e ts = Ok e' -> @approx o t a m me -> nonneg me -> @m_nc RNum me = @m_nc RNum (s_mat e) ->
  @mk_peripheral FN s' m rows None = Ok p -> @mk_peripheral RNum e' me rows None = Ok q ->
  ops_near ts (@m_nr RNum (s_mat e)) (@m_nc RNum (s_mat e)) k (s_ops p) (s_ops q) /\ positional_rows q.
Proof.
  intros ts k s e s' e' a m me rows p q H O1 O2 P CR Es Ee A PM EC Ep Eq.
  destruct (recorded ts k s e s' e' H P CR Es Ee) as (l & l' & L1 & L2 & ON). rewrite O1 in L1. rewrite O2 in L2. cbn [app] in L1, L2.
  pose proof (C105_chain o t tl SM ts k s e H P CR) as CO. unfold close_outcome in CO. rewrite Es, Ee in CO. destruct CO as (CO & _). destruct CO as [C1 C2 _ _ _ _ _ _].
  destruct (@mk_peripheral_ok FN s' m rows None p C1 (proj1 (proj2 (proj2 (proj2 A)))) I Ep) as (?&?&?&_&-> & _).
  destruct (@mk_peripheral_ok RNum e' me rows None q C2 (proj1 (proj2 (proj2 (proj2 (proj2 A))))) I Eq) as (?&?&d&_&-> & AC & _).
  cbn [s_ops]. rewrite L1, L2. split; [exact ON|]. unfold positional_rows. cbn [s_id2row s_row2id].
  exact (proj2 (proj2 AC)).
Qed.
Lemma close_mono j k s e : (j <= k)%nat -> @close o t j s e -> close t k s e.
Proof. intros L [C1 C2 ER1 EC1 ER2 EC2 ES A]. split; try assumption. apply (approx_mono o t tl SM j); assumption. Qed.
End Periph.
