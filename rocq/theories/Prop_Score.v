(** Prop_Score.v -- property C52: score(gold, prediction, 'auc'). *)
From Coq Require Import Reals Lra Psatz Permutation Sorted.
From Verif Require Import Base PyList Num SpecReal PReal Utils.
#[local] Existing Instance RNum.
Open Scope string_scope.
Open Scope list_scope.
Open Scope R_scope.
Open Scope nat_scope.

(** ** specification *)
(** sum of f over a list *)
Fixpoint total {A} (f : A -> R) (l : list A) : R := match l with [] => 0%R | x :: xs => (f x + total f xs)%R end.
(** scores given to the positive (gold 1) and to the negative (gold 0) items *)
Definition positives (gold pred : list R) : list R := map snd (filter (fun x => Reqb (fst x) 1) (combine gold pred)).
Definition negatives (gold pred : list R) : list R := map snd (filter (fun x => Reqb (fst x) 0) (combine gold pred)).
(** credit of a (positive, negative) pair: 1 if the positive is scored higher, [tie] if equal, 0 if lower *)
Definition credit (tie p n : R) : R := if Rlt_dec n p then 1%R else if Req_EM_T n p then tie else 0%R.
(** average credit over all (positive, negative) pairs *)
Definition pair_fraction (tie : R) (ps ns : list R) : R :=
  (total (fun n => total (fun p => credit tie p n) ps) ns / (INR (length ps) * INR (length ns)))%R.
Definition zero_one (gold : list R) : Prop := Forall (fun g => g = 0%R \/ g = 1%R) gold.

(** ** proofs *)
Lemma total_app {A} (f : A -> R) l1 l2 : total f (l1 ++ l2) = (total f l1 + total f l2)%R.
Proof. induction l1 as [|x l IH]; cbn; [lra|]. rewrite IH. lra. Qed.
Lemma total_ext {A} (f g : A -> R) l : (forall x, In x l -> f x = g x) -> total f l = total g l.
Proof. induction l as [|x l IH]; cbn; intros H; [reflexivity|]. rewrite IH, H by auto. reflexivity. Qed.
Lemma total_perm {A} (f : A -> R) l1 l2 : Permutation l1 l2 -> total f l1 = total f l2.
Proof. induction 1; cbn; lra. Qed.
Lemma total_const {A} (c : R) (l : list A) : total (fun _ => c) l = (INR (length l) * c)%R.
Proof. induction l as [|x l IH]; [cbn; lra|]. cbn [total length]. rewrite IH, S_INR. lra. Qed.
Lemma filter_perm {A} (p : A -> bool) l1 l2 : Permutation l1 l2 -> Permutation (filter p l1) (filter p l2).
Proof.
  induction 1; cbn.
  - constructor.
  - destruct (p x); [constructor|]; assumption.
  - destruct (p x), (p y); try apply Permutation_refl; constructor.
  - eapply Permutation_trans; eassumption.
Qed.

Definition pos1 (x : R * R) : bool := Reqb (fst x) 1.
Definition neg0 (x : R * R) : bool := Reqb (fst x) 0.
Definition posl (s : list (R * R)) : list R := map snd (filter pos1 s).
Definition negl (s : list (R * R)) : list R := map snd (filter neg0 s).
Definition zo (s : list (R * R)) : Prop := Forall (fun x => fst x = 0%R \/ fst x = 1%R) s.

(** number of (negative, later positive) pairs *)
Fixpoint later (s : list (R * R)) : R :=
  match s with
  | [] => 0%R
  | x :: xs => ((if pos1 x then 0 else INR (length (posl xs))) + later xs)%R
  end.

Lemma Reqb_true a b : Reqb a b = true -> a = b. Proof. apply Reqb_eq. Qed.
Lemma pos_neg x : fst x = 0%R \/ fst x = 1%R -> neg0 x = negb (pos1 x).
Proof.
  unfold neg0, pos1, Reqb. intros [E|E]; rewrite E; repeat destruct Req_EM_T; try reflexivity; exfalso; lra.
Qed.

Lemma step_pos P Nn yi xo tp fp a x : pos1 x = true ->
  auc_step (N := RNum) P Nn (yi, xo, tp, fp, a) x = ((tp - 1) / P, xo, tp - 1, fp, a)%R.
Proof. intros H. unfold auc_step. change (feqb (fst x) f1) with (pos1 x). rewrite H. reflexivity. Qed.
Lemma step_neg P Nn yi xo tp fp a x : pos1 x = false ->
  auc_step (N := RNum) P Nn (yi, xo, tp, fp, a) x = (yi, (fp - 1) / Nn, tp, fp - 1, a + (xo - (fp - 1) / Nn) * yi)%R.
Proof. intros H. unfold auc_step. change (feqb (fst x) f1) with (pos1 x). rewrite H. reflexivity. Qed.

Lemma auc_loop P Nn s : zo s -> (0 < P)%R -> (0 < Nn)%R -> forall a,
  let '(_, _, _, _, r) := fold_left (auc_step P Nn) s
      (INR (length (posl s)) / P, INR (length (negl s)) / Nn, INR (length (posl s)), INR (length (negl s)), a)%R in
  r = (a + later s / (P * Nn))%R.
Proof.
  intros Hz HP HN. induction s as [|x s IH]; intros a; [cbn; lra|].
  inversion Hz as [|? ? Hx Hz']; subst. specialize (IH Hz'). pose proof (pos_neg x Hx) as Hpn.
  cbn [fold_left]. destruct (pos1 x) eqn:Ep.
  - assert (E1 : posl (x :: s) = snd x :: posl s) by (unfold posl; cbn [filter]; rewrite Ep; reflexivity).
    assert (E2 : negl (x :: s) = negl s) by (unfold negl; cbn [filter]; rewrite Hpn; reflexivity).
    rewrite E1, E2. cbn [length later]. rewrite Ep, S_INR.
    rewrite (step_pos _ _ _ _ _ _ _ _ Ep). replace (INR (length (posl s)) + 1 - 1)%R with (INR (length (posl s))) by lra.
    specialize (IH a). destruct (fold_left _ _ _) as [[[[? ?] ?] ?] r]. rewrite IH. apply R_eq_intro. lra.
  - assert (E1 : posl (x :: s) = posl s) by (unfold posl; cbn [filter]; rewrite Ep; reflexivity).
    assert (E2 : negl (x :: s) = snd x :: negl s) by (unfold negl; cbn [filter]; rewrite Hpn; reflexivity).
    rewrite E1, E2. cbn [length later]. rewrite Ep, S_INR.
    rewrite (step_neg _ _ _ _ _ _ _ _ Ep). replace (INR (length (negl s)) + 1 - 1)%R with (INR (length (negl s))) by lra.
    specialize (IH (a + ((INR (length (negl s)) + 1) / Nn - INR (length (negl s)) / Nn) * (INR (length (posl s)) / P))%R).
    destruct (fold_left _ _ _) as [[[[? ?] ?] ?] r]. rewrite IH. apply R_eq_intro. field. lra.
Qed.

(** without positives yi stays 1: every negative contributes 1/N *)
Lemma auc_loop_nopos Nn s : zo s -> posl s = [] -> (0 < Nn)%R -> forall P tp a,
  let '(_, _, _, _, r) := fold_left (auc_step P Nn) s (1, INR (length (negl s)) / Nn, tp, INR (length (negl s)), a)%R in
  r = (a + INR (length (negl s)) / Nn)%R.
Proof.
  intros Hz Hp HN P tp. induction s as [|x s IH]; intros a; [cbn; lra|].
  inversion Hz as [|? ? Hx Hz']; subst. pose proof (pos_neg x Hx) as Hpn.
  unfold posl in Hp. cbn [filter] in Hp. destruct (pos1 x) eqn:Ep; [discriminate|]. specialize (IH Hz' Hp).
  assert (E2 : negl (x :: s) = snd x :: negl s) by (unfold negl; cbn [filter]; rewrite Hpn; reflexivity).
  rewrite E2. cbn [length]. rewrite S_INR. cbn [fold_left]. rewrite (step_neg _ _ _ _ _ _ _ _ Ep). replace (INR (length (negl s)) + 1 - 1)%R with (INR (length (negl s))) by lra.
  specialize (IH (a + ((INR (length (negl s)) + 1) / Nn - INR (length (negl s)) / Nn) * 1)%R).
  destruct (fold_left _ _ _) as [[[[? ?] ?] ?] r]. rewrite IH. apply R_eq_intro. field. lra.
Qed.

Lemma auc_loop_noneg s : zo s -> negl s = [] -> forall P Nn st,
  let '(_, _, _, _, r) := fold_left (auc_step P Nn) s st in r = snd st.
Proof.
  intros Hz Hn P Nn. induction s as [|x s IH]; intros [[[[yi xo] tp] fp] a]; [reflexivity|].
  inversion Hz as [|? ? Hx Hz']; subst. pose proof (pos_neg x Hx) as Hpn.
  unfold negl in Hn. cbn [filter] in Hn. rewrite Hpn in Hn. destruct (pos1 x) eqn:Ep; [|discriminate]. specialize (IH Hz' Hn).
  cbn [fold_left]. rewrite (step_pos _ _ _ _ _ _ _ _ Ep).
  match goal with |- context [fold_left _ _ ?st] => specialize (IH st) end.
  destruct (fold_left _ _ _) as [[[[? ?] ?] ?] r]. rewrite IH. reflexivity.
Qed.

Lemma Rltb_true a b : Rltb a b = true <-> (a < b)%R.
Proof. unfold Rltb. destruct (Rlt_dec a b); split; intros; (congruence || lra || reflexivity || contradiction). Qed.

Lemma point_swo : swo (point_before (N := RNum)).
Proof.
  unfold point_before. cbn [fltb feqb RNum]. unfold Rltb, Reqb.
  split; intros; repeat match goal with |- context [Rlt_dec ?a ?b] => destruct (Rlt_dec a b)
    | |- context [Req_EM_T ?a ?b] => destruct (Req_EM_T a b)
    | H : context [Rlt_dec ?a ?b] |- _ => destruct (Rlt_dec a b)
    | H : context [Req_EM_T ?a ?b] |- _ => destruct (Req_EM_T a b) end; cbn in *; try reflexivity; try congruence; exfalso; lra.
Qed.

Lemma pb_false (y x : R * R) : point_before (N := RNum) y x = false ->
  ~ (snd y < snd x)%R /\ ~ (snd y = snd x /\ (fst y < fst x)%R).
Proof.
  unfold point_before. intros H. apply orb_false_iff in H. destruct H as [H1 H2].
  split; intros K.
  - apply Rltb_true in K. pose proof (eq_trans (eq_sym K) H1). discriminate.
  - destruct K as [K1 K2]. apply Rltb_true in K2. apply Reqb_eq in K1.
    change (Reqb (snd y) (snd x) && Rltb (fst y) (fst x) = false) in H2. rewrite K1, K2 in H2. discriminate.
Qed.

(** in a sorted list, the positives after a negative are those scored at least as high *)
Lemma later_sorted s : zo s -> StronglySorted (fun x y => point_before y x = false) s ->
  later s = total (fun n => total (fun p => credit 1 p n) (posl s)) (negl s).
Proof.
  intros Hz Hs. induction s as [|x s IH]; [reflexivity|].
  inversion Hz as [|? ? Hx Hz']; subst. inversion Hs as [|? ? Hs' Hf]; subst. specialize (IH Hz' Hs').
  pose proof (pos_neg x Hx) as Hpn. rewrite Forall_forall in Hf. cbn [later].
  unfold zo in Hz'. rewrite Forall_forall in Hz'.
  destruct (pos1 x) eqn:Ep.
  - assert (E1 : posl (x :: s) = snd x :: posl s) by (unfold posl; cbn [filter]; rewrite Ep; reflexivity).
    assert (E2 : negl (x :: s) = negl s) by (unfold negl; cbn [filter]; rewrite Hpn; reflexivity).
    rewrite E1, E2, IH, Rplus_0_l. apply total_ext. intros n Hn. cbn [total].
    replace (credit 1 (snd x) n) with 0%R; [lra|].
    unfold negl in Hn. apply in_map_iff in Hn. destruct Hn as (y & <- & Hy). apply filter_In in Hy. destruct Hy as [Hy Ny].
    destruct (pb_false _ _ (Hf y Hy)) as [B1 B2].
    unfold neg0 in Ny. apply Reqb_true in Ny. unfold pos1 in Ep. apply Reqb_true in Ep. rewrite Ny, Ep in B2.
    unfold credit. destruct (Rlt_dec (snd y) (snd x)); [contradiction|]. destruct (Req_EM_T (snd y) (snd x)); [|reflexivity].
    elim B2. split; [assumption|lra].
  - assert (E1 : posl (x :: s) = posl s) by (unfold posl; cbn [filter]; rewrite Ep; reflexivity).
    assert (E2 : negl (x :: s) = snd x :: negl s) by (unfold negl; cbn [filter]; rewrite Hpn; reflexivity).
    rewrite E1, E2, IH. cbn [total]. f_equal.
    rewrite total_ext with (g := fun _ => 1%R); [rewrite total_const; lra|].
    intros p Hp. unfold posl in Hp. apply in_map_iff in Hp. destruct Hp as (y & <- & Hy). apply filter_In in Hy. destruct Hy as [Hy Py].
    destruct (pb_false _ _ (Hf y Hy)) as [B1 B2]. unfold credit.
    destruct (Rlt_dec (snd x) (snd y)); [reflexivity|]. destruct (Req_EM_T (snd x) (snd y)); [reflexivity|]. lra.
Qed.

Lemma total_swap_perm (f : R -> R -> R) a a' b b' : Permutation a a' -> Permutation b b' ->
  total (fun n => total (fun p => f p n) a) b = total (fun n => total (fun p => f p n) a') b'.
Proof.
  intros H1 H2. rewrite (total_perm _ _ _ H2). apply total_ext. intros n _. apply total_perm, H1.
Qed.

Lemma zo_perm s s' : Permutation s s' -> zo s -> zo s'.
Proof. intros H K. unfold zo in *. rewrite Forall_forall in *. intros x Hx. apply K. eapply Permutation_in; [apply Permutation_sym, H|assumption]. Qed.
Lemma zo_combine gold : forall pred, zero_one gold -> zo (combine gold pred).
Proof.
  induction gold as [|g gold IH]; intros [|p pred] H; try constructor; inversion H; subst; [assumption|apply IH; assumption].
Qed.
Lemma count1_posl gold : forall pred, length gold = length pred -> count1 (N := RNum) gold = length (posl (combine gold pred)).
Proof.
  unfold count1, posl. induction gold as [|g gold IH]; intros [|p pred] H; try discriminate; [reflexivity|].
  injection H as H. cbn [combine filter]. change (feqb g f1) with (Reqb g 1). unfold pos1 at 1. cbn [fst].
  specialize (IH pred H). destruct (Reqb g 1); cbn [map length]; rewrite IH; reflexivity.
Qed.
Lemma posneg_length s : zo s -> length s = length (posl s) + length (negl s).
Proof.
  unfold posl, negl. induction s as [|x s IH]; intros Hz; [reflexivity|]. inversion Hz; subst. cbn [filter].
  rewrite (pos_neg x) by assumption. specialize (IH H2). destruct (pos1 x); cbn [map length negb]; lia.
Qed.

Lemma auc_value gold pred : length gold = length pred -> zero_one gold ->
  exists s, Permutation (combine gold pred) s /\ StronglySorted (fun x y => point_before y x = false) s /\ zo s /\
  let ps := posl s in let ns := negl s in
  auc (N := RNum) gold pred = Ok (let '(_, _, _, _, r) := fold_left (auc_step (INR (length ps)) (INR (length ns))) s
      (1, 1, INR (length ps), INR (length ns), 0)%R in r).
Proof.
  intros HL Hz. set (s := stable_sort point_before (combine gold pred)).
  assert (HP : Permutation (combine gold pred) s) by apply stable_sort_perm.
  exists s. split; [assumption|]. split; [apply stable_sort_sorted, point_swo|].
  assert (Hzs : zo s) by (eapply zo_perm; [exact HP|apply zo_combine, Hz]). split; [assumption|]. cbv zeta.
  unfold auc. replace (forallb _ gold) with true.
  2:{ symmetry. apply forallb_forall. intros g Hg. unfold zero_one in Hz. rewrite Forall_forall in Hz.
      cbn [feqb f0 f1 RNum]. destruct (Hz g Hg) as [->| ->]; [|rewrite orb_comm]; replace (Reqb _ _) with true by (symmetry; apply Reqb_eq; reflexivity); reflexivity. }
  cbn [check bind]. fold s.
  assert (EP : fnat (count1 gold) = INR (length (posl s))).
  { unfold fnat. cbn [fofZ RNum]. rewrite <- INR_IZR_INZ. f_equal. rewrite (count1_posl gold pred HL). unfold posl. rewrite !map_length.
    apply Permutation_length, filter_perm, HP. }
  assert (EN : fsub (fnat (@length (@F RNum) gold)) (fnat (count1 gold)) = INR (length (negl s))).
  { rewrite EP. unfold fnat. cbn [fofZ fsub RNum]. rewrite <- INR_IZR_INZ.
    assert (HLs : length gold = length s) by (transitivity (length (combine gold pred)); [rewrite combine_length, HL, Nat.min_id; reflexivity|exact (Permutation_length HP)]).
    transitivity (INR (length gold) - INR (length (posl s)))%R; [reflexivity|]. 
    replace (INR (length gold)) with (INR (length (posl s)) + INR (length (negl s)))%R; [lra|].
    rewrite <- plus_INR. f_equal. symmetry. exact (eq_trans HLs (posneg_length s Hzs)). }
  rewrite EN, EP. cbn [f1 f0 RNum]. destruct (fold_left _ _ _) as [[[[? ?] ?] ?] r]. reflexivity.
Qed.

Section Score.
Context (pearson spearman : list R -> list R -> res R).

Lemma score_auc (gold pred : list R) : length gold = length pred -> score pearson spearman gold pred "auc" = auc gold pred.
Proof.
  intros H. unfold score. assert (HE : Nat.eqb (length gold) (length pred) = true) by (apply Nat.eqb_eq; exact H).
  match goal with |- context [check ?b _] => change b with (Nat.eqb (length gold) (length pred)) end. rewrite HE. reflexivity.
Qed.

(** what the code computes: a pair scored equally counts fully for the positive *)
Theorem C52_auc_value (gold pred : list R) : length gold = length pred -> zero_one gold ->
  positives gold pred <> [] -> negatives gold pred <> [] ->
  score pearson spearman gold pred "auc" = Ok (pair_fraction 1 (positives gold pred) (negatives gold pred)).
Proof.
  intros HL Hz Hp Hn. rewrite (score_auc _ _ HL).
  destruct (auc_value gold pred HL Hz) as (s & HP & Hs & Hzs & E). cbv zeta in E. rewrite E. clear E.
  assert (P1 : Permutation (positives gold pred) (posl s)) by (apply Permutation_map, filter_perm, HP).
  assert (P2 : Permutation (negatives gold pred) (negl s)) by (apply Permutation_map, filter_perm, HP).
  assert (L1 : (0 < INR (length (posl s)))%R).
  { apply lt_0_INR. rewrite <- (Permutation_length P1). destruct (positives gold pred); [congruence|cbn; lia]. }
  assert (L2 : (0 < INR (length (negl s)))%R).
  { apply lt_0_INR. rewrite <- (Permutation_length P2). destruct (negatives gold pred); [congruence|cbn; lia]. }
  pose proof (auc_loop _ _ s Hzs L1 L2 0%R) as H. cbn [RNum F] in H.
  replace (INR (length (posl s)) / INR (length (posl s)))%R with 1%R in H by (field; lra).
  replace (INR (length (negl s)) / INR (length (negl s)))%R with 1%R in H by (field; lra).
  destruct (fold_left _ _ _) as [[[[? ?] ?] ?] r]. rewrite H. f_equal.
  unfold pair_fraction. rewrite later_sorted by assumption.
  rewrite (total_swap_perm (credit 1) _ _ _ _ P1 P2), (Permutation_length P1), (Permutation_length P2). lra.
Qed.

(** when no positive is scored like a negative this is the area under the ROC curve *)
Theorem C52_auc_no_ties_partial (gold pred : list R) : length gold = length pred -> zero_one gold ->
  positives gold pred <> [] -> negatives gold pred <> [] ->
  (forall p n, In p (positives gold pred) -> In n (negatives gold pred) -> p <> n) ->
  score pearson spearman gold pred "auc" = Ok (pair_fraction (1 / 2) (positives gold pred) (negatives gold pred)).
Proof.
  intros HL Hz Hp Hn Ht. rewrite C52_auc_value by assumption. f_equal. unfold pair_fraction. f_equal.
  apply total_ext. intros n Hn'. apply total_ext. intros p Hp'. unfold credit.
  destruct (Rlt_dec n p); [reflexivity|]. destruct (Req_EM_T n p); [|reflexivity]. exfalso. apply (Ht p n Hp' Hn'). congruence.
Qed.

(** in general it exceeds the area under the ROC curve by half the fraction of tied pairs *)
Theorem C52_auc_tie_excess (gold pred : list R) : length gold = length pred -> zero_one gold ->
  positives gold pred <> [] -> negatives gold pred <> [] ->
  exists a, score pearson spearman gold pred "auc" = Ok a /\
  (a - pair_fraction (1 / 2) (positives gold pred) (negatives gold pred)
   = / 2 * (total (fun n => total (fun p => if Req_EM_T n p then 1 else 0) (positives gold pred)) (negatives gold pred)
            / (INR (length (positives gold pred)) * INR (length (negatives gold pred)))))%R.
Proof.
  intros HL Hz Hp Hn. rewrite C52_auc_value by assumption. eexists. split; [reflexivity|].
  unfold pair_fraction. set (ps := positives gold pred) in *. set (ns := negatives gold pred) in *.
  set (D := (INR (length ps) * INR (length ns))%R).
  assert (HT : forall ps n, total (fun p => credit 1 p n) ps = (total (fun p => credit (1 / 2) p n) ps + / 2 * total (fun p => if Req_EM_T n p then 1 else 0) ps)%R).
  { clear. induction ps as [|p ps IH]; intros n; cbn; [lra|]. rewrite IH. unfold credit. destruct (Rlt_dec n p), (Req_EM_T n p); try lra. }
  assert (HT2 : forall ns, total (fun n => total (fun p => credit 1 p n) ps) ns = (total (fun n => total (fun p => credit (1 / 2) p n) ps) ns + / 2 * total (fun n => total (fun p => if Req_EM_T n p then 1 else 0) ps) ns)%R).
  { clear - HT. induction ns as [|n ns IH]; cbn; [lra|]. rewrite IH, HT. lra. }
  rewrite HT2. unfold Rdiv. lra.
Qed.

Theorem C52_order_irrelevant (gold pred gold' pred' : list R) :
  length gold = length pred -> length gold' = length pred' -> zero_one gold ->
  Permutation (combine gold pred) (combine gold' pred') ->
  score pearson spearman gold pred "auc" = score pearson spearman gold' pred' "auc".
Proof.
  intros HL HL' Hz HP.
  assert (Hz' : zero_one gold').
  { pose proof (zo_perm _ _ HP (zo_combine gold pred Hz)) as K. clear - K HL'. revert pred' HL' K.
    induction gold' as [|g gold' IH]; intros [|p pred'] HL K; try constructor; try discriminate; inversion K; subst; [assumption|].
    injection HL as HL. apply (IH pred' HL); assumption. }
  assert (P1 : Permutation (positives gold pred) (positives gold' pred')) by (apply Permutation_map, filter_perm, HP).
  assert (P2 : Permutation (negatives gold pred) (negatives gold' pred')) by (apply Permutation_map, filter_perm, HP).
  destruct (positives gold pred) as [|p ps] eqn:Ep.
  - (* no positives: 1 for each *)
    apply Permutation_nil in P1.
    assert (HN : forall g q, length g = length q -> zero_one g -> positives g q = [] ->
       score pearson spearman g q "auc" = Ok (if Nat.eqb (length (negatives g q)) 0 then 0 else 1)%R).
    { clear. intros g q HL Hz Hp. rewrite (score_auc _ _ HL).
      destruct (auc_value g q HL Hz) as (s & HP & Hs & Hzs & E). cbv zeta in E. rewrite E. clear E.
      assert (P1 : Permutation (positives g q) (posl s)) by (apply Permutation_map, filter_perm, HP).
      assert (P2 : Permutation (negatives g q) (negl s)) by (apply Permutation_map, filter_perm, HP).
      rewrite (Permutation_length P2). rewrite Hp in P1. apply Permutation_nil in P1.
      destruct (Nat.eqb_spec (length (negl s)) 0) as [E0|E0].
      - pose proof (auc_loop_noneg s Hzs ltac:(apply length_zero_iff_nil, E0) (INR (length (posl s))) (INR (length (negl s))) (1, 1, INR (length (posl s)), INR (length (negl s)), 0)%R) as H.
        cbn [RNum F] in H. destruct (fold_left _ _ _) as [[[[? ?] ?] ?] r]. rewrite H. reflexivity.
      - assert (L : (0 < INR (length (negl s)))%R) by (apply lt_0_INR; lia).
        pose proof (auc_loop_nopos (INR (length (negl s))) s Hzs P1 L (INR (length (posl s))) (INR (length (posl s))) 0%R) as H.
        replace (INR (length (negl s)) / INR (length (negl s)))%R with 1%R in H by (field; lra). cbn [RNum F] in H.
        destruct (fold_left _ _ _) as [[[[? ?] ?] ?] r]. rewrite H. f_equal. lra. }
    rewrite !HN by assumption. rewrite (Permutation_length P2). reflexivity.
  - assert (Hp : positives gold pred <> []) by congruence.
    assert (Hp' : positives gold' pred' <> []) by (intros K; rewrite K in P1; apply Permutation_sym, Permutation_nil in P1; discriminate).
    destruct (negatives gold pred) as [|n ns] eqn:En.
    + apply Permutation_nil in P2.
      assert (HN : forall g q, length g = length q -> zero_one g -> negatives g q = [] -> score pearson spearman g q "auc" = Ok 0%R).
      { clear. intros g q HL Hz Hp. rewrite (score_auc _ _ HL).
        destruct (auc_value g q HL Hz) as (s & HP & Hs & Hzs & E). cbv zeta in E. rewrite E. clear E.
        assert (P2 : Permutation (negatives g q) (negl s)) by (apply Permutation_map, filter_perm, HP).
        rewrite Hp in P2. apply Permutation_nil in P2.
        pose proof (auc_loop_noneg s Hzs P2 (INR (length (posl s))) (INR (length (negl s))) (1, 1, INR (length (posl s)), INR (length (negl s)), 0)%R) as H.
        cbn [RNum F] in H. destruct (fold_left _ _ _) as [[[[? ?] ?] ?] r]. rewrite H. reflexivity. }
      rewrite !HN by assumption. reflexivity.
    + assert (Hn : negatives gold pred <> []) by congruence.
      assert (Hn' : negatives gold' pred' <> []) by (intros K; rewrite K in P2; apply Permutation_sym, Permutation_nil in P2; discriminate).
      rewrite !C52_auc_value by assumption. unfold pair_fraction. rewrite Ep, En.
      rewrite (total_swap_perm (credit 1) _ _ _ _ P1 P2), (Permutation_length P1), (Permutation_length P2). reflexivity.
Qed.

(** the call fails exactly on lists of different lengths and on gold scores other than 0 and 1 *)
Theorem C52_errors (gold pred : list R) :
  score pearson spearman gold pred "auc" = Err ValueError <-> (length gold <> length pred \/ ~ zero_one gold).
Proof.
  destruct (Nat.eq_dec (length gold) (length pred)) as [E|E]; [rewrite (score_auc _ _ E)|].
  2:{ split; [auto|]. intros _. unfold score. apply Nat.eqb_neq in E.
      match goal with |- context [check ?b _] => change b with (Nat.eqb (length gold) (length pred)) end. rewrite E. reflexivity. }
  split.
  - intros H. right. intros Hz. destruct (auc_value gold pred E Hz) as (s & _ & _ & _ & K). cbv zeta in K. rewrite K in H. discriminate.
  - intros [H|H]; [contradiction|]. unfold auc.
    match goal with |- context [forallb ?f gold] => destruct (forallb f gold) eqn:Ef end; [|reflexivity].
    elim H. unfold zero_one. rewrite forallb_forall in Ef. rewrite Forall_forall. intros g Hg. specialize (Ef g Hg).
    apply orb_true_iff in Ef. destruct Ef as [Ef|Ef]; apply Reqb_eq in Ef; auto.
Qed.

(** the English claim fails on ties: two items with the same score give 1, not 1/2 *)
Theorem C52_ties_refuted :
  exists gold pred : list R, length gold = length pred /\ zero_one gold /\ positives gold pred <> [] /\ negatives gold pred <> [] /\
  score pearson spearman gold pred "auc" = Ok 1%R /\
  pair_fraction (1 / 2) (positives gold pred) (negatives gold pred) = (1 / 2)%R.
Proof.
  exists [1%R; 0%R], [3%R; 3%R].
  assert (Hz : zero_one [1%R; 0%R]) by (constructor; [right; reflexivity|constructor; [left; reflexivity|constructor]]).
  assert (Ep : positives [1%R; 0%R] [3%R; 3%R] = [3%R]).
  { unfold positives. cbn [combine filter fst]. unfold Reqb. repeat destruct Req_EM_T; try (exfalso; lra). reflexivity. }
  assert (En : negatives [1%R; 0%R] [3%R; 3%R] = [3%R]).
  { unfold negatives. cbn [combine filter fst]. unfold Reqb. repeat destruct Req_EM_T; try (exfalso; lra). reflexivity. }
  split; [reflexivity|]. split; [assumption|]. rewrite Ep, En. split; [discriminate|]. split; [discriminate|].
  split.
  - rewrite C52_auc_value; [|reflexivity|assumption|rewrite Ep; discriminate|rewrite En; discriminate]. rewrite Ep, En. f_equal.
    unfold pair_fraction, credit. cbn [total length]. destruct (Rlt_dec 3 3); [lra|]. destruct (Req_EM_T 3 3); [|lra]. cbn [INR]. field.
  - unfold pair_fraction, credit. cbn [total length]. destruct (Rlt_dec 3 3); [lra|]. destruct (Req_EM_T 3 3); [|lra]. cbn [INR]. field.
Qed.

(** hypotheses are satisfiable *)
Example C52_example :
  score pearson spearman [1; 0; 1; 0]%R [4; 2; 1; 0]%R "auc" = Ok (3 / 4)%R /\
  length [1; 0; 1; 0]%R = length [4; 2; 1; 0]%R /\ zero_one [1; 0; 1; 0]%R.
Proof.
  assert (Hz : zero_one [1; 0; 1; 0]%R) by (repeat constructor).
  assert (Ep : positives [1; 0; 1; 0]%R [4; 2; 1; 0]%R = [4; 1]%R).
  { unfold positives. cbn [combine filter fst]. unfold Reqb. repeat destruct Req_EM_T; try (exfalso; lra). reflexivity. }
  assert (En : negatives [1; 0; 1; 0]%R [4; 2; 1; 0]%R = [2; 0]%R).
  { unfold negatives. cbn [combine filter fst]. unfold Reqb. repeat destruct Req_EM_T; try (exfalso; lra). reflexivity. }
  split; [|split; [reflexivity|assumption]].
  rewrite C52_auc_value; [|reflexivity|assumption|rewrite Ep; discriminate|rewrite En; discriminate]. rewrite Ep, En. f_equal.
  unfold pair_fraction, credit. cbn [total length].
  repeat match goal with |- context [Rlt_dec ?a ?b] => destruct (Rlt_dec a b); try (exfalso; lra) | |- context [Req_EM_T ?a ?b] => destruct (Req_EM_T a b); try (exfalso; lra) end.
  cbn [INR]. field.
Qed.
End Score.
