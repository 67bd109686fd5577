(** PSort.v -- order properties of [sorted_permutation] over the reals. *)
From Coq Require Import Reals Lra Permutation Sorted.
From Verif Require Import Base PyList Num Dense Sparse Matrix PShape PReal.
#[local] Existing Instance RNum.
Open Scope R_scope.

Lemma key_swo (g : nat -> R) : swo (fun x y => @fltb RNum (g y) (g x)).
Proof.
  split; cbn [fltb RNum]; intros.
  - apply Rltb_false. lra.
  - rewrite Rltb_true in *. lra.
  - rewrite Rltb_false in *. lra.
Qed.

Lemma SSorted_nth {A} (P : A -> A -> Prop) (l : list A) d : StronglySorted P l ->
  forall a b, (a < b < length l)%nat -> P (nth a l d) (nth b l d).
Proof.
  induction 1 as [|x l Hs IH Hf]; cbn [length]; intros a b Hab; [lia|].
  destruct b as [|b]; [lia|]. destruct a as [|a]; cbn [nth].
  - rewrite Forall_forall in Hf. apply Hf, nth_In. lia.
  - apply IH. lia.
Qed.

Lemma SSorted_filter {A} (P : A -> A -> Prop) (f : A -> bool) l : StronglySorted P l -> StronglySorted P (filter f l).
Proof.
  induction 1 as [|x l Hs IH Hf]; cbn; [constructor|]. destruct (f x); [|assumption]. constructor; [assumption|].
  rewrite Forall_forall in *. intros y Hy. apply filter_In in Hy. apply Hf, Hy.
Qed.
Lemma seq_SSorted a n : StronglySorted lt (seq a n).
Proof.
  revert a; induction n as [|n IH]; intros a; cbn; constructor; [apply IH|].
  apply Forall_forall. intros y Hy. apply in_seq in Hy. lia.
Qed.

(** if filtering [l] gives a strictly increasing list, earlier kept elements are smaller *)
Lemma filter_order (p : nat -> bool) (l : list nat) d : StronglySorted lt (filter p l) ->
  forall a b, (a < b < length l)%nat -> p (nth a l d) = true -> p (nth b l d) = true -> (nth a l d < nth b l d)%nat.
Proof.
  induction l as [|x l IH]; cbn [length filter]; intros Hs a b Hab Ha Hb; [lia|].
  destruct b as [|b]; [lia|]. destruct a as [|a]; cbn [nth] in *.
  - rewrite Ha in Hs. inversion Hs as [|? ? Hs' Hf]; subst. rewrite Forall_forall in Hf. apply Hf.
    apply filter_In. split; [apply nth_In; lia|assumption].
  - apply IH; try assumption; [|lia]. destruct (p x); [inversion Hs; assumption|assumption].
Qed.

Lemma sorted_permutation_order (norms : list R) a b : (a < b < length norms)%nat ->
  let l := sorted_permutation norms in
  let i := nth a l O in let j := nth b l O in
  nth j norms 0 <= nth i norms 0 /\ (nth i norms 0 = nth j norms 0 -> (i < j)%nat).
Proof.
  intros Hab l i j. unfold l in *.
  assert (Hlen : length (sorted_permutation norms) = length norms) by apply sorted_permutation_length.
  split.
  - pose proof (stable_sort_sorted _ (key_swo (fun x => nth x norms 0)) (seq 0 (length norms))) as Hs.
    pose proof (SSorted_nth _ _ O Hs a b) as K. cbn beta in K. apply Rltb_false. apply K. rewrite stable_sort_length, seq_length. lia.
  - intros He.
    apply (filter_order (fun x => Reqb (nth x norms 0) (nth i norms 0))); [|rewrite Hlen; assumption| |].
    + unfold sorted_permutation.
      rewrite (stable_sort_filter _ (key_swo (fun x => nth x norms 0))).
      * apply SSorted_filter, seq_SSorted.
      * intros y z Hy Hz. apply Reqb_true in Hy. apply Reqb_true in Hz. apply Rltb_false. lra.
    + apply Reqb_eq. reflexivity.
    + apply Reqb_eq. symmetry. exact He.
Qed.

Lemma sorted_permutation_In {N : Num} (norms : list F) i : (i < length norms)%nat <-> In i (sorted_permutation norms).
Proof.
  unfold sorted_permutation. split; intros H.
  - eapply Permutation_in; [apply stable_sort_perm|]. apply in_seq. lia.
  - apply (Permutation_in _ (Permutation_sym (stable_sort_perm _ _))) in H. apply in_seq in H. lia.
Qed.
Lemma sorted_permutation_pos {N : Num} (norms : list F) i : (i < length norms)%nat ->
  exists a, (a < length norms)%nat /\ nth a (sorted_permutation norms) O = i.
Proof.
  intros H. apply sorted_permutation_In in H. apply (In_nth _ _ O) in H. rewrite sorted_permutation_length in H. exact H.
Qed.
