(** Prop_RoundPeriphEx.v -- a case of C105_peripheral and C105_add_rows in double precision. *)
From Coq Require Import Reals Lra.
From Flocq Require Import Core.
From Verif Require Import Base PyList Dict Num SpecReal Dense Sparse Matrix PSparse PMatrix PMatOps PShape PVals PReal Scaling Linalg Operation Similarity Space
  Peripheral SpecSpace PSpace Prop_Space Prop_Periph Prop_Scaling Prop_Counts Round PRound Prop_Round Prop_RoundSim Prop_RoundSel Prop_RoundPipe RoundEx Prop_RoundEx Prop_RoundPipeEx Prop_RoundPeriph.
Open Scope R_scope.
Section Ex.
Local Notation DN := (FNum double).
Context {EF : @Ext DN} {ER : @Ext RNum}.
Definition weigh : list transformation := [TScale Epmi; TScale (RowNorm CLength)].
Lemma weigh_runs : exists s', @apply_all RNum ER animals' weigh = Ok s' /\ s_id2col s' = [] /\ s_col2id s' = [] /\ s_id2row s' = s_id2row animals'.
Proof.
  destruct (C79_scaling double ulp1 ulp1 double_standard Epmi 0 counts (exact counts) eq_refl (cl_mat _ _ _ _ animals_close) counts_nonneg) as (m1 & z1 & _ & E1 & A1 & P1 & _).
  destruct (apply_scale animals' Epmi z1 animals_consistent' E1) as (s1 & F1 & C1 & M1 & G1).
  destruct (C79_scaling double ulp1 ulp1 double_standard (RowNorm CLength) _ m1 z1 eq_refl A1 P1) as (m2 & z2 & _ & E2 & _).
  rewrite <- M1 in E2. destruct (apply_scale s1 (RowNorm CLength) z2 C1 E2) as (s2 & F2 & C2 & M2 & G2).
  exists s2. cbn [weigh apply_all]. rewrite F1. cbn [bind]. rewrite F2. cbn [bind]. split; [reflexivity|].
  destruct (space_apply_ok _ (TScale Epmi) _ animals_consistent' Logic.I F1) as (?&?&?&?&?&_&->&_&(-> & ->)&_). destruct (space_apply_ok _ (TScale (RowNorm CLength)) _ C1 Logic.I F2) as (?&?&?&?&?&_&->&_&(-> & ->)&_). cbn. auto.
Qed.
(** the counts of "car" and "dog" are weighed; the same counts are projected once more as raw vectors of other words *)
Example C105_peripheral_example : standard double ulp1 ulp1 /\ exists s' e', close ulp1 0 animals animals' /\ s_ops animals = [] /\ s_ops animals' = [] /\ nonneg (s_mat animals') /\ @clear_run ER ulp1 0 animals' weigh /\
  @apply_all DN EF animals weigh = Ok s' /\ @apply_all RNum ER animals' weigh = Ok e' /\ @approx double ulp1 0 counts (exact counts) /\ nonneg (exact counts) /\ @m_nc RNum (exact counts) = @m_nc RNum (s_mat animals') /\
  exists p q, @mk_peripheral DN s' counts ["truck"; "cat"]%string None = Ok p /\ @mk_peripheral RNum e' (exact counts) ["truck"; "cat"]%string None = Ok q /\
    close ulp1 (side_run_errors weigh 2 2 0 0) p q /\ nonneg (s_mat q) /\ positional_rows q /\ ops_near double ulp1 weigh 2 2 0 (s_ops p) (s_ops q).
Proof.
  pose proof double_standard as SM. split; [exact SM|]. pose proof animals_close as CL. pose proof counts_nonneg as NN.
  assert (CR : @clear_run ER ulp1 0 animals' weigh) by (split; [reflexivity|]; intros e1 _; split; [reflexivity|]; intros e2 _; exact Logic.I).
  destruct weigh_runs as (e' & Ee & L1 & L2 & L3).
  pose proof (C105_chain double ulp1 ulp1 SM (EF := EF) (ER := ER) weigh 0 animals animals' CL NN CR) as CO. unfold close_outcome in CO. rewrite Ee in CO.
  destruct (@apply_all DN EF animals weigh) as [s'|] eqn:Es; [|contradiction]. destruct CO as (CO & _).
  assert (AX : @approx double ulp1 0 counts (exact counts)) by apply CL.
  exists s', e'. do 9 (split; [first [assumption|reflexivity]|]). split; [reflexivity|].
  pose proof (C105_peripheral double ulp1 ulp1 SM weigh 0 animals animals' s' e' 0 counts (exact counts) ["truck"; "cat"]%string None CL eq_refl eq_refl NN CR Es Ee AX NN eq_refl Logic.I) as PO. unfold close_outcome in PO.
  destruct (recorded double ulp1 ulp1 SM weigh 0 animals animals' s' e' CL NN CR Es Ee) as (l & l' & O1 & O2 & ON). change (s_ops s' = l) in O1. change (s_ops e' = l') in O2.
  change (@m_nr RNum (s_mat animals')) with 2%nat in *. change (@m_nc RNum (s_mat animals')) with 2%nat in *.
  assert (K : exists q, @mk_peripheral RNum e' (exact counts) ["truck"; "cat"]%string None = Ok q).
  { unfold mk_peripheral. change (list2dict ["truck"; "cat"]%string) with (@Ok (dict Z) [("truck", 0%Z); ("cat", 1%Z)]%string). cbn [bind]. rewrite O2.
    destruct ON as (x1 & y1 & m1 & n1 & -> & -> & (x2 & y2 & m2 & n2 & -> & -> & (-> & ->) & (_ & st2 & st2' & -> & -> & ST2)) & (_ & st & st' & -> & -> & ST)).
    destruct (project_near double ulp1 ulp1 SM (TScale Epmi) 2 2 0 0 _ _ counts (exact counts) AX NN eq_refl (conj eq_refl (ex_intro _ st (ex_intro _ st' (conj eq_refl (conj eq_refl ST)))))) as (w & w' & F1 & F2 & A1 & P1 & R1 & Q1).
    destruct (project_near double ulp1 ulp1 SM (TScale (RowNorm CLength)) 2 2 _ _ _ _ w w' A1 P1 Q1 (conj eq_refl (ex_intro _ st2 (ex_intro _ st2' (conj eq_refl (conj eq_refl ST2)))))) as (z & z' & G1 & G2 & _ & _ & R2 & _).
    cbn [project_ops op_columns]. rewrite F2, G2. cbn [bind c_id2col c_col2id]. rewrite L1, L2, R2, R1. change (@m_nr RNum (exact counts)) with 2%nat. eexists. reflexivity. }
  destruct K as (q & Eq). rewrite Eq in PO. destruct (@mk_peripheral DN s' counts ["truck"; "cat"]%string None) as [p|] eqn:Ep; [|contradiction]. destruct PO as (PO & PN).
  exists p, q. split; [reflexivity|]. split; [exact Eq|]. split; [exact PO|]. split; [exact PN|].
  destruct (C105_peripheral_ops double ulp1 ulp1 SM weigh 0 animals animals' s' e' 0 counts (exact counts) _ p q CL eq_refl eq_refl NN CR Es Ee AX NN eq_refl Ep Eq) as (X & Y). split; [exact Y|exact X].
Qed.
End Ex.
