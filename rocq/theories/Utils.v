(** Utils.v -- src/composes/utils/{gen_utils,crossvalidation_utils,scoring_utils}.py *)
From Verif Require Import Base PyList Num.
Local Open Scope nat_scope.
Local Open Scope string_scope.

(** ** gen_utils.py *)
(** gen_utils.py:25: [sorted_list[i] != sorted_list[i-1]] for 1 <= i < len *)
Definition differs {A} (eqb : A -> A -> bool) (l : list A) (i : nat) : bool :=
  match nth_error l i, nth_error l (i - 1) with
  | Some x, Some y => negb (eqb x y)
  | _, _ => false
  end.
(** gen_utils.py:24-29: one round of the loop, state (prev_idx, range_list) *)
Definition part_step {A} (eqb : A -> A -> bool) (l : list A) (k : Z) (st : nat * list (nat * nat)) (i : nat)
  : nat * list (nat * nat) :=
  let (prev, ranges) := st in
  if differs eqb l i
  then (i, if (k <=? Z.of_nat i - Z.of_nat prev)%Z then (ranges ++ [(prev, i)])%list else ranges)
  else st.
(** gen_utils.py:20-36 (get_partitions); on an empty list with min_samples <= 0 the range (0, 0) is recorded and line
    34 indexes the empty list *)
Definition get_partitions {A} (eqb : A -> A -> bool) (l : list A) (k : Z) : res (list A * list (nat * nat)) :=
  let n := length l in
  let (prev, ranges) := fold_left (part_step eqb l k) (seq 1 (n - 1)) (0, []) in
  let ranges := if (k <=? Z.of_nat n - Z.of_nat prev)%Z then (ranges ++ [(prev, n)])%list else ranges in
  let* keys := mapM (fun r : nat * nat => py_nth l (Z.of_nat (fst r))) ranges in
  Ok (keys, ranges).

(** ** crossvalidation_utils.py *)
(** crossvalidation_utils.py:22-29: one round, state (current_index, indices_list); [len] is len(range_) = range_len *)
Definition split_step (range_ : list nat) (fold : nat) (st : nat * list (list nat)) (i : nat) : nat * list (list nat) :=
  let (cur, acc) := st in
  let n := length range_ in
  let sl := if Nat.ltb i (n mod fold) then n / fold + 1 else n / fold in
  (cur + sl, (acc ++ [slice cur (cur + sl) range_])%list).
(** crossvalidation_utils.py:9-31 (get_split_indices); [shuffle] is the in-place random permutation of line 20.  The
    recursive call of line 17 (range_len, range_len) never recurses again, so it is written out. *)
Definition get_split_indices (shuffle : list nat -> list nat) (range_len fold : Z) : res (list (list nat)) :=
  let run (fold : Z) :=
    let range_ := shuffle (seq 0 (Z.to_nat range_len)) in
    let f := Z.to_nat fold in
    Ok (snd (fold_left (split_step range_ f) (seq 0 f) (0, []))) in
  if (fold <=? 0)%Z then Err ValueError
  else if (range_len <? fold)%Z
       then (if (range_len <=? 0)%Z then Err ValueError else run range_len)
       else run fold.

(** ** scoring_utils.py *)
Section Scoring.
Context {N : Num}.

(** scoring_utils.py:45: [point_set.sort(order='score')] on records (gold, score): numpy compares the named field and
    breaks ties by the remaining fields, so the key is (score, gold) *)
Definition point_before (p q : F * F) : bool :=
  fltb (snd p) (snd q) || (feqb (snd p) (snd q) && fltb (fst p) (fst q)).
Definition count1 (gold : list F) : nat := length (filter (fun g => feqb g f1) gold).
(** scoring_utils.py:54-63: state (yi, xi_old, true_positive, false_positive, auc); [positive] and [negative] are
    non-zero whenever they divide *)
Definition auc_step (positive negative : F) (st : F * F * F * F * F) (p : F * F) : F * F * F * F * F :=
  let '(yi, xi_old, tp, fp, auc) := st in
  if feqb (fst p) f1
  then let tp := fsub tp f1 in (fdiv tp positive, xi_old, tp, fp, auc)
  else let fp := fsub fp f1 in let xi := fdiv fp negative in
       (yi, xi, tp, fp, fadd auc (fmul (fsub xi_old xi) yi)).
Definition fnat (n : nat) : F := fofZ (Z.of_nat n).
(** scoring_utils.py:33-65 (auc), on arrays of equal length *)
Definition auc (gold prediction : list F) : res F :=
  let positive := fnat (count1 gold) in
  let negative := fsub (fnat (length gold)) positive in
  let* _ := check (forallb (fun g => feqb g f0 || feqb g f1) gold) ValueError in
  let points := stable_sort point_before (combine gold prediction) in
  let '(_, _, _, _, a) := fold_left (auc_step positive negative) points (f1, f1, positive, negative, f0) in
  Ok a.
(** scoring_utils.py:11-25 (score); the correlation coefficients come from scipy.stats and are parameters *)
Definition score (pearson spearman : list F -> list F -> res F) (gold prediction : list F) (method : string) : res F :=
  let* _ := check (Nat.eqb (length gold) (length prediction)) ValueError in
  if String.eqb method "pearson" then pearson gold prediction
  else if String.eqb method "spearman" then spearman gold prediction
  else if String.eqb method "auc" then auc gold prediction
  else Err NotImplementedError.
End Scoring.
