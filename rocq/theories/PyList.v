(** PyList.v -- Python list primitives: negative indexing, slicing, stable descending sort. *)
From Verif Require Import Base.
From Coq Require Import Permutation Sorted.
Open Scope Z_scope.

(** Python's [l[i]]: negative [i] counts from the end, IndexError outside. *)
Definition py_nth {A} (l : list A) (i : Z) : res A :=
  let n := Z.of_nat (length l) in
  let k := if i <? 0 then i + n else i in
  if (k <? 0) || (n <=? k) then Err IndexError
  else match nth_error l (Z.to_nat k) with Some x => Ok x | None => Err IndexError end.

(** Position denoted by a Python index in a sequence of length [n]. *)
Definition py_index (n : nat) (i : Z) : option nat :=
  let k := if i <? 0 then i + Z.of_nat n else i in
  if (k <? 0) || (Z.of_nat n <=? k) then None else Some (Z.to_nat k).

Lemma py_nth_index {A} (l : list A) i :
  py_nth l i = match py_index (length l) i with
               | Some k => match nth_error l k with Some x => Ok x | None => Err IndexError end
               | None => Err IndexError end.
Proof. unfold py_nth, py_index. destruct (_ || _); reflexivity. Qed.

Lemma py_index_lt n i k : py_index n i = Some k -> (k < n)%nat.
Proof.
  unfold py_index. destruct (i <? 0) eqn:E1;
  destruct (_ || _) eqn:E2; intros H; inversion H; subst; apply orb_false_iff in E2;
  destruct E2 as [Ea Eb]; apply Z.ltb_ge in Ea; apply Z.leb_gt in Eb; lia.
Qed.

Lemma py_index_nat n k : (k < n)%nat -> py_index n (Z.of_nat k) = Some k.
Proof.
  intros H. unfold py_index. replace (Z.of_nat k <? 0) with false by (symmetry; apply Z.ltb_ge; lia).
  replace ((Z.of_nat k <? 0) || (Z.of_nat n <=? Z.of_nat k)) with false.
  - rewrite Nat2Z.id. reflexivity.
  - symmetry. apply orb_false_iff. split; [apply Z.ltb_ge|apply Z.leb_gt]; lia.
Qed.

Open Scope nat_scope.

(** [l[a:b]] for 0 <= a <= b. *)
Definition slice {A} (a b : nat) (l : list A) : list A := firstn (b - a) (skipn a l).

(** Replace position [i] ([l[i] = x], in range). *)
Fixpoint set_nth {A} (l : list A) (i : nat) (x : A) : list A :=
  match l, i with
  | [], _ => []
  | _ :: t, O => x :: t
  | h :: t, S k => h :: set_nth t k x
  end.

(** Python's [sorted(l, key=k, reverse=True)] and [sorted(l, key=k)]: a stable sort.
    [ins before x l] puts [x] after every element [y] for which [before x y] is false. *)
Fixpoint ins {A} (before : A -> A -> bool) (x : A) (l : list A) : list A :=
  match l with
  | [] => [x]
  | y :: ys => if before x y then x :: y :: ys else y :: ins before x ys
  end.
Definition stable_sort {A} (before : A -> A -> bool) (l : list A) : list A :=
  fold_left (fun acc x => ins before x acc) l [].

Lemma ins_perm {A} (b : A -> A -> bool) x l : Permutation (x :: l) (ins b x l).
Proof.
  induction l as [|y ys IH]; cbn; [apply Permutation_refl|].
  destruct (b x y); [apply Permutation_refl|].
  eapply perm_trans; [apply perm_swap|]. apply perm_skip, IH.
Qed.

Lemma stable_sort_perm {A} (b : A -> A -> bool) l : Permutation l (stable_sort b l).
Proof.
  unfold stable_sort.
  assert (H : forall l acc, Permutation (acc ++ l) (fold_left (fun a x => ins b x a) l acc)).
  { clear l; induction l as [|x xs IH]; cbn; intros acc; [rewrite app_nil_r; apply Permutation_refl|].
    eapply perm_trans; [|apply IH].
    eapply perm_trans; [apply Permutation_sym, Permutation_middle|].
    change (x :: acc ++ xs) with ((x :: acc) ++ xs).
    apply Permutation_app_tail, ins_perm. }
  exact (H l []).
Qed.

Lemma stable_sort_length {A} (b : A -> A -> bool) l : length (stable_sort b l) = length l.
Proof. symmetry. apply Permutation_length, stable_sort_perm. Qed.

(** A strict weak order: [before x y] means x must come strictly before y. *)
Record swo {A} (b : A -> A -> bool) : Prop := {
  swo_irr : forall x, b x x = false;
  swo_trans : forall x y z, b x y = true -> b y z = true -> b x z = true;
  swo_neg_trans : forall x y z, b x y = false -> b y z = false -> b x z = false }.

Section Sort.
Context {A : Type} (b : A -> A -> bool) (W : swo b).

(** in the sorted list, a later element is never strictly before an earlier one *)
Definition srt := StronglySorted (fun x y => b y x = false).

Lemma ins_Forall (P : A -> Prop) x l : P x -> Forall P l -> Forall P (ins b x l).
Proof.
  intros Hx Hl. apply Forall_forall. intros y Hy.
  apply (Permutation_in _ (Permutation_sym (ins_perm b x l))) in Hy.
  destruct Hy as [<-|Hy]; [assumption|]. rewrite Forall_forall in Hl. auto.
Qed.

Lemma swo_asym x y : b x y = true -> b y x = false.
Proof.
  intros H. destruct (b y x) eqn:E; [|reflexivity].
  pose proof (swo_trans b W _ _ _ H E) as K. rewrite (swo_irr b W) in K. discriminate.
Qed.

Lemma ins_sorted x l : srt l -> srt (ins b x l).
Proof.
  induction l as [|y ys IH]; cbn; intros H.
  - repeat constructor.
  - inversion H as [|? ? Hs Hf]; subst. destruct (b x y) eqn:E.
    + constructor; [assumption|]. constructor; [apply swo_asym, E|].
      rewrite Forall_forall in *. intros z Hz.
      destruct (b z x) eqn:Ez; [|reflexivity].
      pose proof (swo_trans b W _ _ _ Ez E) as K. rewrite Hf in K; [discriminate|assumption].
    + constructor; [apply IH, Hs|]. apply ins_Forall; assumption.
Qed.

Lemma stable_sort_sorted l : srt (stable_sort b l).
Proof.
  unfold stable_sort.
  assert (H : forall l acc, srt acc -> srt (fold_left (fun a x => ins b x a) l acc)).
  { clear l; induction l as [|x xs IH]; cbn; intros acc Ha; [assumption|]. apply IH, ins_sorted, Ha. }
  apply H. constructor.
Qed.

(** Stability: elements equivalent to [x] keep their relative order. *)
Definition equiv x y := negb (b x y) && negb (b y x).

Lemma ins_filter x l (p : A -> bool) :
  (forall y z, p y = true -> p z = true -> b y z = false) -> srt l ->
  filter p (ins b x l) = if p x then filter p l ++ [x] else filter p l.
Proof.
  intros Hp. induction l as [|y ys IH]; cbn; intros Hs; [destruct (p x); reflexivity|].
  inversion Hs as [|? ? Hs' Hf]; subst.
  destruct (b x y) eqn:E; cbn.
  - destruct (p x) eqn:Px; [|reflexivity].
    (* no element of y::ys satisfies p *)
    assert (Hnone : forall z, In z (y :: ys) -> p z = false).
    { intros z Hz. destruct (p z) eqn:Pz; [|reflexivity]. exfalso.
      destruct Hz as [<-|Hz].
      - rewrite (Hp x y) in E; auto; discriminate.
      - rewrite Forall_forall in Hf. specialize (Hf z Hz).
        (* b x y = true, b z y = false ; p x, p z -> b x z = false *)
        pose proof (Hp x z Px Pz) as K.
        rewrite (swo_neg_trans b W _ _ _ K Hf) in E. discriminate. }
    assert (Hy : p y = false) by (apply Hnone; left; reflexivity).
    assert (Hys : filter p ys = []).
    { clear - Hnone. induction ys as [|z zs IHz]; cbn; [reflexivity|].
      rewrite (Hnone z) by (right; left; reflexivity). apply IHz.
      intros w [Hw|Hw]; apply Hnone; [left; assumption|right; right; assumption]. }
    rewrite Hy, Hys. reflexivity.
  - rewrite IH by assumption. destruct (p y), (p x); reflexivity.
Qed.

Lemma stable_sort_filter l (p : A -> bool) :
  (forall y z, p y = true -> p z = true -> b y z = false) ->
  filter p (stable_sort b l) = filter p l.
Proof.
  intros Hp. unfold stable_sort.
  assert (H : forall l acc, srt acc ->
      filter p (fold_left (fun a x => ins b x a) l acc) = filter p acc ++ filter p l).
  { clear l; induction l as [|x xs IH]; cbn; intros acc Ha; [rewrite app_nil_r; reflexivity|].
    rewrite IH by (apply ins_sorted, Ha). rewrite ins_filter by assumption.
    destruct (p x); [rewrite <- app_assoc; reflexivity|reflexivity]. }
  rewrite H by constructor. reflexivity.
Qed.
End Sort.

Lemma slice_length {A} a b (l : list A) : a <= b -> b <= length l -> length (slice a b l) = b - a.
Proof. intros. unfold slice. rewrite firstn_length, skipn_length. lia. Qed.

Lemma nth_slice {A} a b (l : list A) i d : i < b - a -> nth i (slice a b l) d = nth (a + i) l d.
Proof.
  intros H. unfold slice.
  assert (F : forall n (l : list A) i, i < n -> nth i (firstn n l) d = nth i l d).
  { clear. induction n as [|n IH]; intros l i Hi; [lia|].
    destruct l; [rewrite firstn_nil; destruct i; reflexivity|]. destruct i; cbn; [reflexivity|]. apply IH; lia. }
  rewrite F by assumption. clear.
  revert l; induction a as [|a IH]; intros l; [reflexivity|].
  destruct l; cbn [skipn]; [destruct i; destruct a; reflexivity|]. cbn. apply IH.
Qed.

Lemma nth_map_seq {A} (f : nat -> A) n i d : i < n -> nth i (map f (seq 0 n)) d = f i.
Proof.
  intros H. rewrite nth_indep with (d' := f 0) by (rewrite map_length, seq_length; assumption).
  rewrite map_nth, seq_nth by assumption. reflexivity.
Qed.

Lemma set_nth_length {A} (l : list A) i x : length (set_nth l i x) = length l.
Proof. revert i; induction l as [|h t IH]; intros [|i]; cbn; auto. Qed.

Lemma nth_set_nth {A} (l : list A) i j x d :
  nth j (set_nth l i x) d = if (Nat.eqb i j) && (Nat.ltb i (length l)) then x else nth j l d.
Proof.
  revert i j; induction l as [|h t IH]; intros [|i] [|j]; cbn; auto.
  rewrite andb_false_r; reflexivity.
  rewrite IH. reflexivity.
Qed.
