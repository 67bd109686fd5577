(** Prop_RoundCompPipeEx.v -- property C109 in double precision. *)
From Coq Require Import Reals Lra Psatz ZArith.
From Verif Require Import Base PyList Dict Num SpecReal Dense Sparse Matrix PSparse PMatrix PMatOps PShape PVals PReal PPos Scaling Linalg Operation Similarity Space
  Peripheral SpecSpace PSpace Prop_Space Prop_Periph Prop_Scaling Prop_Sim Prop_Neigh Prop_Counts Learner Composition SpecComp PComp Prop_Comp Utils LexFun PLexAny Round PRound Prop_Round
  Prop_RoundSim Prop_RoundNeigh Prop_RoundSel Prop_RoundPipe Prop_RoundComp Prop_RoundCompPipe RoundEx Prop_RoundEx Prop_RoundPipeEx Prop_RoundCompEx.
Open Scope R_scope.
Local Notation DN := (FNum double).
Local Open Scope string_scope.
Local Open Scope list_scope.

Lemma dil_same l : @same_model double (@CM DN (@Dil DN l) None) (@CM RNum (@Dil RNum l) None).
Proof. split; reflexivity. Qed.
(** both machines compose "car dog" and "dog dog" by dilation with factor 2; the exact first entry is 18 *)
Example C109_example_dil : exists s e, snd (@compose DN (@CM DN (@Dil DN 2) None) dn_data (@One DN animals)) = Ok s /\ snd (@compose RNum (@CM RNum (@Dil RNum 2) None) dn_data (@One RNum animals')) = Ok e /\
  @keeps_sign (@Dil RNum 2) /\ nonneg (s_mat animals') /\ close ulp1 9 s e /\ s_id2row e = ["car dog"; "dog dog"].
Proof.
  destruct (dn_total (@Dil DN 2) eq_refl Logic.I) as (m' & s & H).
  assert (KS : @keeps_sign (@Dil RNum 2)) by (cbn; lra).
  pose proof (C109_compose double ulp1 ulp1 double_standard (@CM DN (@Dil DN 2) None) (@CM RNum (@Dil RNum 2) None) 0 dn_data (@One DN animals) (@One RNum animals') animals animals animals' animals'
    (dil_same 2) animals_close animals_close ltac:(left; auto) ltac:(left; auto) eq_refl) as G. cbv zeta in G. rewrite H in G. cbn [snd] in G.
  destruct (snd (@compose RNum (@CM RNum (@Dil RNum 2) None) dn_data (@One RNum animals'))) as [e|] eqn:Ee; [|contradiction]. exists s, e. rewrite H. split; [reflexivity|]. split; [reflexivity|]. split; [exact KS|]. split; [apply counts_nonneg|].
  destruct G as (_ & _ & ER' & _ & _ & _ & _ & G). split; [exact (proj1 (G KS counts_nonneg counts_nonneg))|].
  destruct (@compose RNum (@CM RNum (@Dil RNum 2) None) dn_data (@One RNum animals')) as [m1 r] eqn:Q. cbn [snd] in Ee. subst r.
  destruct (@C34_rows RNum (@CM RNum (@Dil RNum 2) None) dn_data (@One RNum animals') animals' animals' m1 e animals_consistent' animals_consistent' ltac:(left; auto) eq_refl Q) as (_ & Re & _). rewrite Re. reflexivity.
Qed.

Section Ex.
Context {EF : @Ext DN} {ER : @Ext RNum}.
Definition norm_ex : list transformation := [TScale (RowNorm CLength)].
Lemma norm_runs : exists e', @apply_all RNum ER animals' norm_ex = Ok e' /\ s_id2row e' = s_id2row animals' /\ @consistent RNum e' /\ @m_nc RNum (s_mat e') = 2%nat.
Proof.
  destruct (C18_row_normalization CLength (s_mat animals') (proj1 animals_consistent')) as (z & Ez & RO & _).
  destruct (apply_scale animals' _ z animals_consistent' Ez) as (s2 & E2 & C2 & M2 & R2 & _ & _). exists s2. unfold norm_ex. cbn [apply_all]. rewrite E2. cbn [bind].
  split; [reflexivity|]. split; [exact R2|]. split; [exact C2|]. rewrite M2. apply RO.
Qed.
(** count vectors, scaled to length 1, multiplied, and the cosine of "car dog" and "dog dog" *)
Example C109_example : close ulp1 0 animals animals' /\ nonneg (s_mat animals') /\ @clear_run ER ulp1 0 animals' norm_ex /\
  exists e' s' z y (a b : R), @apply_all RNum ER animals' norm_ex = Ok e' /\ @apply_all DN EF animals norm_ex = Ok s' /\
    snd (@compose DN (@CM DN (@Mult DN) None) dn_data (@One DN s')) = Ok z /\ snd (@compose RNum (@CM RNum (@Mult RNum) None) dn_data (@One RNum e')) = Ok y /\
    s_id2row y = ["car dog"; "dog dog"] /\ @get_sim DN z "car dog" "dog dog" Cos None = Ok a /\ @get_sim RNum y "car dog" "dog dog" Cos None = Ok b /\
    Rabs (a - b) <= @end_error ulp1 Cos 2 (2 * run_errors norm_ex 2 2 0 + 1) (@ment RNum (s_mat y) 0) (@ment RNum (s_mat y) 1).
Proof.
  split; [apply animals_close|]. split; [apply counts_nonneg|].
  assert (CR : @clear_run ER ulp1 0 animals' norm_ex) by (split; [reflexivity|intros ? _; exact Logic.I]). split; [exact CR|].
  destruct norm_runs as (e' & E & RR & CE & NC). assert (SMo : @same_model double (@CM DN (@Mult DN) None) (@CM RNum (@Mult RNum) None)) by (split; [reflexivity|exact Logic.I]).
  destruct (C109_end_to_end double ulp1 ulp1 double_standard norm_ex animals animals' e' (@CM DN (@Mult DN) None) (@CM RNum (@Mult RNum) None) dn_data "car dog" "dog dog" Cos animals_close counts_nonneg CR E SMo Logic.I) as (s' & Es & G).
  assert (FE : filter (@usable2 RNum e' e') dn_data = [("car", "dog", "car dog"); ("dog", "dog", "dog dog")]).
  { unfold usable2, known, dn_data. rewrite RR. reflexivity. }
  destruct (proj1 (@C34_total RNum (@CM RNum (@Mult RNum) None) dn_data (@One RNum e') e' e' CE CE ltac:(left; auto) eq_refl eq_refl ltac:(rewrite FE; discriminate) Logic.I)) as (y & Hy).
  { rewrite FE. vm_compute. repeat constructor; cbn; intuition discriminate. }
  rewrite Hy in G. destruct (snd (@compose DN (@CM DN (@Mult DN) None) dn_data (@One DN s'))) as [z|] eqn:Ez; [|contradiction].
  assert (Ry : s_id2row y = ["car dog"; "dog dog"]).
  { destruct (@compose RNum (@CM RNum (@Mult RNum) None) dn_data (@One RNum e')) as [m1 r] eqn:Q. cbn [snd] in Hy. subst r.
    destruct (@C34_rows RNum (@CM RNum (@Mult RNum) None) dn_data (@One RNum e') e' e' m1 y CE CE ltac:(left; auto) eq_refl Q) as (_ & Re & _). rewrite Re, FE. reflexivity. }
  destruct G as (_ & a & b & E1 & E2 & _ & B). exists e', s', z, y, a, b. split; [exact E|]. split; [exact Es|]. split; [exact Ez|]. split; [exact Hy|]. split; [exact Ry|]. split; [exact E1|]. split; [exact E2|].
  specialize (B 0%nat 1%nat). rewrite Ry, NC in B. exact (B eq_refl eq_refl).
Qed.
End Ex.
