(** Prop_RoundCompEx.v -- property C102 in double precision. *)
From Coq Require Import Reals Lra Psatz ZArith.
From Verif Require Import Base PyList Dict Num SpecReal Dense Sparse Matrix PSparse PMatrix PMatOps PShape PVals PReal PPos Scaling Linalg Operation Similarity Space
  SpecSpace PSpace Prop_Space Prop_Sim Learner Composition SpecComp PComp Prop_Comp Utils LexFun PLexAny Round PRound Prop_Round Prop_RoundSim Prop_RoundNeigh Prop_RoundComp RoundEx Prop_RoundEx.
Open Scope R_scope.
Local Notation DN := (FNum double).

(** in double precision an error of k roundings is at most k 2^-52 times the terms: 2.3e-10 for a million coordinates *)
Theorem C102_double : forall k x y T, off ulp1 k x y T -> INR k * / 2 ^ 53 <= / 2 -> Rabs (x - y) <= INR k * / 2 ^ 52 * T.
Proof.
  intros k x y T H Hk. pose proof (off_pos _ _ _ _ _ H) as T0. destruct H as (_ & H). apply Rle_trans with (1 := H). apply Rmult_le_compat_r; [exact T0|].
  pose proof (pow_bound k Hk) as B. replace (/ 2 ^ 52) with (2 * / 2 ^ 53) by (cbn; lra). lra.
Qed.

Local Open Scope string_scope.
Local Open Scope list_scope.
Definition dn_data : list tuple3 := [("car", "dog", "car dog"); ("car", "cat", "car cat"); ("dog", "dog", "dog dog")].
Lemma dn_args : @args_of DN (@One DN animals) animals animals.
Proof. left. auto. Qed.
Lemma dn_total k : @fits DN k 2 2 -> (match k with FAdd _ _ _ => False | _ => True end) -> exists m' s, @compose DN (@CM DN k None) dn_data (@One DN animals) = (m', Ok s).
Proof.
  intros Hf Hk. destruct (proj1 (@C34_total DN (@CM DN k None) dn_data (@One DN animals) animals animals animals_consistent animals_consistent dn_args eq_refl Hf ltac:(discriminate) Logic.I)) as (s & Hs).
  - vm_compute. repeat constructor; cbn; intuition discriminate.
  - destruct (@compose DN (@CM DN k None) dn_data (@One DN animals)) as [m' r]. cbn [snd] in Hs. subst r. eauto.
Qed.
Lemma dn_rows : filter (@usable2 DN animals animals) dn_data = [("car", "dog", "car dog"); ("dog", "dog", "dog dog")].
Proof. reflexivity. Qed.
(** composing words of the double-precision space [animals]: "car" is (3, 0), "dog" is (1, 2) *)
Example C102_example : standard double ulp1 ulp1 /\ @consistent DN animals /\
  (exists m' s, @compose DN (@CM DN (@Mult DN) None) dn_data (@One DN animals) = (m', Ok s) /\ near ulp1 1 (fent (s_mat s) 1 1) 4) /\
  (exists m' s, @compose DN (@CM DN (@WAdd DN (1/2) (1/3)) None) dn_data (@One DN animals) = (m', Ok s) /\ near ulp1 2 (fent (s_mat s) 0 0) (3/2 + 1/3)) /\
  (exists m' s, @compose DN (@CM DN (@Dil DN 2) None) dn_data (@One DN animals) = (m', Ok s) /\ Rabs (fent (s_mat s) 0 0 - 18) <= (ulp1 ^ 9 - 1) * 18).
Proof.
  split; [apply double_standard|]. split; [apply animals_consistent|]. split; [|split].
  - destruct (dn_total (@Mult DN) eq_refl Logic.I) as (m' & s & H). exists m', s. split; [exact H|].
    destruct (C102_multiplicative double ulp1 ulp1 double_standard (@CM DN (@Mult DN) None) dn_data (@One DN animals) animals animals m' s eq_refl animals_consistent animals_consistent dn_args eq_refl H) as (_ & K).
    specialize (K 1%nat "dog" "dog" "dog dog" 1%nat eq_refl ltac:(cbn; lia)).
    replace 4 with (@vec DN animals "dog" 1 * @vec DN animals "dog" 1); [exact K|]. cbn. lra.
  - destruct (dn_total (@WAdd DN (1/2) (1/3)) eq_refl Logic.I) as (m' & s & H). exists m', s. split; [exact H|].
    destruct (C102_weighted_additive double ulp1 ulp1 double_standard (@CM DN (@WAdd DN (1/2) (1/3)) None) (1/2) (1/3) dn_data (@One DN animals) animals animals m' s eq_refl animals_consistent animals_consistent dn_args eq_refl H) as (_ & K).
    destruct (K 0%nat "car" "dog" "car dog" 0%nat eq_refl ltac:(cbn; lia)) as (_ & K2).
    replace (3/2 + 1/3) with (1/2 * @vec DN animals "car" 0 + 1/3 * @vec DN animals "dog" 0) by (cbn; lra). apply K2; cbn; lra.
  - destruct (dn_total (@Dil DN 2) eq_refl Logic.I) as (m' & s & H). exists m', s. split; [exact H|].
    destruct (C102_dilation double ulp1 ulp1 double_standard (@CM DN (@Dil DN 2) None) 2 dn_data (@One DN animals) animals animals m' s eq_refl animals_consistent animals_consistent dn_args eq_refl H) as (_ & K).
    specialize (K 0%nat "car" "dog" "car dog" 0%nat eq_refl ltac:(cbn; lia)). cbv zeta in K.
    change (@m_nc DN (s_mat animals)) with 2%nat in K. change (2 + 7)%nat with 9%nat in K.
    assert (E1 : dot 2 (@vec DN animals "car") (@vec DN animals "car") * @vec DN animals "dog" 0 + (2 - 1) * dot 2 (@vec DN animals "car") (@vec DN animals "dog") * @vec DN animals "car" 0 = 18) by (cbn; lra).
    assert (E2 : dot 2 (@vec DN animals "car") (@vec DN animals "car") * Rabs (@vec DN animals "dog" 0) + Rabs (2 - 1) * rsum 2 (fun q => Rabs (@vec DN animals "car" q) * Rabs (@vec DN animals "dog" q)) * Rabs (@vec DN animals "car" 0) = 18).
    { replace (2 - 1) with 1 by ring. cbn. rewrite !Rabs_pos_eq by lra. lra. }
    rewrite E1, E2 in K. exact K.
Qed.
