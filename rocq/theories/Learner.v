(** Learner.v -- src/composes/utils/regression_learner.py *)
From Verif Require Import Base PyList Num Dense Sparse Matrix Linalg.
Section Learner.
Context {N : Num} {E : Ext}.
Local Open Scope nat_scope.

(** regression_learner.py:24-47 (LstsqRegressionLearner), 50-90 (RidgeRegressionLearner): object fields
    _intercept, _crossvalidation, _param_range, _param *)
Inductive learner :=
| LLstsq (intercept : bool)
| LRidge (intercept cv : bool) (range : list F) (param : option F).

(** np.linspace(0.0, 5, 11) : 0, 1/2, ..., 5 (regression_learner.py:72) *)
Definition default_range : list F := map (fun k => fdiv (fofZ (Z.of_nat k)) (fofZ 2)) (seq 0 11).

(** regression_learner.py:37-43 *)
Definition mk_lstsq (intercept : option bool) : learner :=
  LLstsq (match intercept with Some b => b | None => true end).
(** regression_learner.py:64-90; an argument left out and an argument given as None coincide for param_range and
    param (lines 73-75, 78-81) *)
Definition mk_ridge (intercept : option bool) (range : option (list F)) (cv : option bool) (param : option F)
  : res learner :=
  let icpt := match intercept with Some b => b | None => true end in
  let rg := match range with Some r => r | None => default_range end in
  let cv0 := match param with Some _ => false | None => true end in
  let cv1 := match cv with Some b => b | None => cv0 end in
  let* _ := check (cv1 || match param with Some _ => true | None => false end) ValueError in
  Ok (LRidge icpt cv1 rg param).

(** regression_learner.py:20-21 (has_intercept) *)
Definition has_intercept (L : learner) : bool := match L with LLstsq i => i | LRidge i _ _ _ => i end.

(** float comparison with np.Inf represented by None: a < b *)
Definition lt_inf (a b : option F) : bool :=
  match a, b with
  | None, _ => false
  | Some _, None => true
  | Some x, Some y => fltb x y
  end.

(** regression_learner.py:109-122: state (min_err, min_err_param, gcv_err); gcv_err keeps its previous value when
    nom = 0 (line 115) *)
Definition gcv_step (a b : matrix) (icpt : bool) (st : option F * F * option F) (param : F)
  : res (option F * F * option F) :=
  let '(min_err, min_param, gcv) := st in
  let* (x, tr, err) := ridge_regression a b param icpt in
  let n := fofZ (Z.of_nat (m_nr a)) in
  let q := fsub f1 (fdiv tr n) in
  let nom := fmul (fmul q q) n in
  let gcv' := if feqb nom f0 then gcv else Some (fdiv (fmul err err) nom) in
  if lt_inf gcv' min_err then Ok (gcv', param, gcv') else Ok (min_err, min_param, gcv').

(** regression_learner.py:104-122: the selected parameter, 0 when none is selected *)
Definition gcv_param (a b : matrix) (icpt : bool) (range : list F) : res F :=
  let* st := foldM (gcv_step a b icpt) range (None, f0, None) in
  Ok (snd (fst st)).

(** regression_learner.py:46-47 and 93-125 (train).  When param_range is empty the loop body never runs and
    parameter 0 is used.  With cross-validation off, line 100 passes self._param; None stands for a value that is not a
    number (the constructor excludes None itself, line 88): linalg.py:118 then raises TypeError (matrix.py:55-59). *)
Definition learner_train (L : learner) (a b : matrix) : res matrix :=
  match L with
  | LLstsq i => lstsq_regression a b i
  | LRidge i false _ (Some p) => let* r := ridge_regression a b p i in Ok (fst (fst r))
  | LRidge i false _ None => let* _ := same_type a b in let* _ := assert_same_nr a b in Err TypeError
  | LRidge i true rg _ =>
      let* p := gcv_param a b i rg in
      let* r := ridge_regression a b p i in Ok (fst (fst r))
  end.
End Learner.
