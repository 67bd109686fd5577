(** Prop_RoundPipeEx.v -- property C105 in double precision. *)
From Coq Require Import Reals Lra Psatz ZArith.
From Flocq Require Import Core.
From Verif Require Import Base PyList Dict Num SpecReal Dense Sparse Matrix PSparse PMatrix PMatOps PShape PVals PReal PPos Scaling Linalg Operation Similarity Space
  Peripheral SpecSpace PSpace Prop_Space Prop_Periph Prop_Scaling Prop_Sim Prop_Neigh Prop_Counts Round PRound Prop_Round Prop_RoundSim Prop_RoundNeigh Prop_RoundSel Prop_RoundPipe RoundEx Prop_RoundEx.
Open Scope R_scope.
Local Notation DN := (FNum double).

(** the counts of [animals] (Prop_RoundEx.v), held exactly *)
Definition animals' : @space RNum := @SP RNum (exact counts) ["car"; "dog"]%string [] [("car", 0%Z); ("dog", 1%Z)]%string [] [] [2%nat].
Lemma animals_consistent' : @consistent RNum animals'.
Proof. eapply (@mk_space_consistent RNum (exact counts) ["car"; "dog"]%string [] None None [] None animals'); [apply (exact_wf double), counts_wf|constructor|exact I|exact I|reflexivity]. Qed.
Lemma animals_close : close ulp1 0 animals animals'.
Proof. split; try reflexivity; [apply animals_consistent|apply animals_consistent'|apply (approx_exact _ _ _ double_standard), counts_wf]. Qed.
Lemma ulp1_small k : (k <= 100)%nat -> ulp1 ^ k < 2.
Proof.
  intros Hk. pose proof (pow_bound k) as B. assert (I : INR k <= 100) by (apply (le_INR k 100) in Hk; replace 100 with (INR 100) by (cbn; lra); exact Hk).
  assert (U : 0 < / 2 ^ 53 < / 1000) by (split; [apply Rinv_0_lt_compat, pow_lt; lra|apply Rinv_lt_contravar; [|]; cbn; lra]).
  pose proof (pos_INR k). assert (INR k * / 2 ^ 53 <= 100 * / 1000) by (apply Rmult_le_compat; lra). specialize (B ltac:(lra)). lra.
Qed.
(** columns "3 1" and "0 2": their sums 4 and 2 are clearly different *)
Lemma counts_clear : clear_by (ulp1 ^ 4) 2 1 (col_score CSum (exact counts)).
Proof.
  assert (S0 : col_score CSum (exact counts) 0 = 4) by (unfold col_score, col_sum, ment, exact, counts, dent; cbn; lra).
  assert (S1 : col_score CSum (exact counts) 1 = 2) by (unfold col_score, col_sum, ment, exact, counts, dent; cbn; lra).
  intros sel B. pose proof (bc_length _ _ _ _ B) as L. change (length sel = 1%nat) in L. destruct sel as [|a [|? ?]]; try discriminate.
  pose proof (bc_range _ _ _ _ B a (or_introl eq_refl)) as Ra.
  assert (a = 0)%nat as ->.
  { destruct a as [|[|a]]; [reflexivity| |lia]. destruct (bc_dropped _ _ _ _ B 0%nat 1%nat ltac:(lia) ltac:(intros [Q|[]]; discriminate) (or_introl eq_refl)) as (Q & _). lra. }
  split; [intros a b Hab; cbn in Hab; lia|]. intros q j Hq Hn [<-|[]]. destruct q as [|[|q]]; [exfalso; apply Hn; left; reflexivity| |lia]. rewrite S0, S1. pose proof (ulp1_small 4 ltac:(lia)). lra.
Qed.
Section Ex.
Context {EF : @Ext DN} {ER : @Ext RNum}.
Definition pipe_ex : list transformation := [TFS CSum 1; TScale (RowNorm CLength)].
Lemma pipe_runs : exists s', @apply_all RNum ER animals' pipe_ex = Ok s'.
Proof.
  destruct (C20_selection CSum 1 (exact counts) (proj2 (exact_wf double counts) counts_wf) (le_n 1)) as (a & sel & Ea & _ & Wa & _).
  pose proof (apply_fs animals' CSum 1 a sel animals_consistent' (le_n 1) Ea) as H. change (fs_labels animals' sel) with (@Ok (list string) []) in H. destruct H as (s1 & E1 & C1 & M1 & _).
  assert (T : exists z, @scaling_apply RNum (RowNorm CLength) (s_mat s1) None = Ok z).
  { destruct (C18_row_normalization CLength (s_mat s1) (proj1 C1)) as (z & Ez & _). exists z. exact Ez. }
  destruct T as (z & Ez). destruct (apply_scale s1 _ z C1 Ez) as (s2 & E2 & _). exists s2. unfold pipe_ex. cbn [apply_all]. rewrite E1. cbn [bind]. rewrite E2. reflexivity.
Qed.
Example C105_example : standard double ulp1 ulp1 /\ close ulp1 0 animals animals' /\ nonneg (s_mat animals') /\ @clear_run ER ulp1 0 animals' pipe_ex /\
  (exists s', @apply_all RNum ER animals' pipe_ex = Ok s') /\ close_opt double ulp1 0 (Some animals) (Some animals').
Proof.
  split; [apply double_standard|]. split; [apply animals_close|]. split; [apply counts_nonneg|]. split; [|split; [apply pipe_runs|apply animals_close]].
  split; [split; [lia|exact counts_clear]|]. intros e' _. split; [reflexivity|]. intros e2 _. exact I.
Qed.
End Ex.

(** without a clear choice the rounded run may keep other columns: two columns with the same exact sum, of the same four numbers in another order *)
Definition tiny : R := bpow radix2 (-54).
Definition tied : @matrix DN := @MD DN (@DM DN 4 2 [[1; tiny]; [tiny; tiny]; [tiny; tiny]; [tiny; 1]]).
Lemma tied_wf : @mwf DN tied.
Proof. repeat split; cbn; try lia; repeat constructor. Qed.
Lemma tied_nonneg : nonneg (exact tied).
Proof.
  intros i j Hi Hj. cbn in Hi, Hj. pose proof (bpow_gt_0 radix2 (-54)). fold tiny in H.
  destruct i as [|[|[|[|i]]]]; [| | | |lia]; (destruct j as [|[|j]]; [| |lia]); unfold ment, exact, tied, dent; cbn; lra.
Qed.
Theorem C105_tie : exists z z' , @topfs_apply DN CSum 1 tied = Ok (z, [1%nat]) /\ @topfs_apply RNum CSum 1 (exact tied) = Ok (z', [0%nat]) /\
  col_score CSum (exact tied) 0 = col_score CSum (exact tied) 1.
Proof.
  assert (TE : tiny = / 2 ^ 54) by (unfold tiny; cbn; lra).
  assert (SE : col_score CSum (exact tied) 0 = col_score CSum (exact tied) 1) by (unfold col_score, col_sum, ment, exact, tied, dent; cbn; lra).
  assert (R1 : rnd (0 + 1) = 1) by (rewrite Rplus_0_l; apply (rnd_int 1); lia).
  assert (R2 : rnd (1 + tiny) = 1).
  { rewrite (rnd_val (1 + tiny) 4503599627370496 (-52)); [cbn; lra|lia| |]; unfold tiny; cbn; [lra|apply Rabs_lt; lra]. }
  assert (Q1 : rnd (0 + tiny) = tiny).
  { rewrite Rplus_0_l. replace tiny with (IZR 1 * bpow radix2 (-54)) by (unfold tiny; ring). apply rnd_exact. lia. }
  assert (Q2 : rnd (tiny + tiny) = 2 * tiny). { replace (tiny + tiny) with (IZR 2 * bpow radix2 (-54)) by (unfold tiny; ring). apply rnd_exact. lia. }
  assert (Q3 : rnd (2 * tiny + tiny) = 3 * tiny). { replace (2 * tiny + tiny) with (IZR 3 * bpow radix2 (-54)) by (unfold tiny; ring). apply rnd_exact. lia. }
  assert (Q4 : rnd (3 * tiny + 1) = IZR 4503599627370497 * bpow radix2 (-52)). { apply rnd_val; [lia| |]; unfold tiny; cbn; [lra|apply Rabs_lt; lra]. }
  assert (K0 : nth 0 (@fs_norms DN CSum tied) 0 = 1). { change (rnd (rnd (rnd (rnd (0 + 1) + tiny) + tiny) + tiny) = 1). rewrite R1, R2, R2, R2. reflexivity. }
  assert (K1 : 1 < nth 1 (@fs_norms DN CSum tied) 0). { change (1 < rnd (rnd (rnd (rnd (0 + tiny) + tiny) + tiny) + 1)). rewrite Q1, Q2, Q3, Q4. cbn. lra. }
  pose proof (approx_exact double ulp1 ulp1 double_standard tied tied_wf) as A.
  destruct (C105_selection double ulp1 ulp1 double_standard CSum 1 0 tied (exact tied) A (fun _ => tied_nonneg) (le_n 1)) as (z & sel & E & NB & _).
  destruct (C20_selection CSum 1 (exact tied) (proj2 (exact_wf double tied) tied_wf) (le_n 1)) as (z' & sel' & E' & B' & _).
  pose proof (topfs_rounded double CSum 1 tied z sel E) as B. exists z, z'.
  assert (L : length sel = 1%nat) by exact (bc_length _ _ _ _ B). assert (L' : length sel' = 1%nat) by exact (bc_length _ _ _ _ B').
  destruct sel as [|a [|? ?]]; try discriminate. destruct sel' as [|a' [|? ?]]; try discriminate.
  pose proof (bc_range _ _ _ _ B a (or_introl eq_refl)) as Ra. pose proof (bc_range _ _ _ _ B' a' (or_introl eq_refl)) as Ra'. change (a < 2)%nat in Ra. change (a' < 2)%nat in Ra'.
  assert (a = 1)%nat as ->.
  { destruct a as [|[|a]]; [|reflexivity|lia]. destruct (bc_dropped _ _ _ _ B 1%nat 0%nat ltac:(cbn; lia) ltac:(intros [Q|[]]; discriminate) (or_introl eq_refl)) as (Q & _). lra. }
  assert (a' = 0)%nat as ->.
  { destruct a' as [|[|a']]; [reflexivity| |lia]. destruct (bc_dropped _ _ _ _ B' 0%nat 1%nat ltac:(cbn; lia) ltac:(intros [Q|[]]; discriminate) (or_introl eq_refl)) as (_ & Q). specialize (Q SE). lia. }
  auto.
Qed.
