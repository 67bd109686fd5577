(** LexFun.v -- src/composes/composition/lexical_function.py.  Printing and logging are not modelled. *)
From Verif Require Import Base PyList Dict Num Dense Sparse Matrix Scaling Linalg Operation Similarity Space Learner Composition Utils.
Section LexFun.
Context {N : Num} {E : Ext}.
Local Open Scope nat_scope.

(** the fields _function_space, _has_intercept, _regression_learner, composed_id2column, _MIN_SAMPLES *)
Record lexfun := LF {
  lf_fs : option space;
  lf_icpt : bool;
  lf_learner : learner;
  lf_cols : list string;
  lf_min : Z }.

(** lexical_function.py:42-84 (__init__); the types of the keyword arguments are enforced by typing *)
Definition mk_lexfun (fs : option space) (icpt : option bool) (L : option learner) : res lexfun :=
  let* _ := check (match L, fs with Some _, Some _ => false | _, _ => true end) ValueError in
  Ok (LF fs (match icpt with Some b => b | None => false end)
         (match L with Some l => l | None => mk_lstsq None end) [] 1).
(** lexical_function.py:251-253, 283-287 (set_regression_learner, set_min_samples) *)
Definition lf_set_learner (m : lexfun) (L : learner) : lexfun := LF (lf_fs m) (lf_icpt m) L (lf_cols m) (lf_min m).
Definition lf_set_min (m : lexfun) (k : Z) : lexfun := LF (lf_fs m) (lf_icpt m) (lf_learner m) (lf_cols m) k.

(** lexical_function.py:138-157: one function, from the samples of one key: (the learnt row, type of the argument matrix) *)
Definition lf_learn (L : learner) (arg phr : space) (size : nat) (args phrases : list string) : res (matrix * mtype) :=
  let* am := get_rows arg args in
  let* pm := get_rows phr phrases in
  let* (am, pm) := resolve2 am pm (get_type_of_largest [am; pm]) in
  let* x := learner_train L am pm in
  let* r := m_reshape (m_transpose x) 1 size in
  Ok (r, type_of am).

(** lexical_function.py:119-164 (train) from the sorted data on: the new function space.
    [assert] of line 131 is AssertionError; line 159 uses the class of the last arg_mat. *)
Definition lf_train_space (L : learner) (kmin : Z) (data : list tuple3) (arg phr : space) : res space :=
  let data := stable_sort (fun x y => String.ltb (t1 x) (t1 y)) data in
  let* (l1, l2, l3) := valid_data_to_lists data None (Some (s_row2id arg)) (Some (s_row2id phr)) in
  let* (keys, ranges) := get_partitions String.eqb l1 kmin in
  let* _ := check (negb (Nat.eqb (length keys) 0)) ValueError in
  let* _ := check (Nat.eqb (length (s_eshape arg)) 1) AssertionError in
  let dim := nth 0 (s_eshape arg) 0 in
  let shape := s_eshape phr ++ [if has_intercept L then dim + 1 else dim] in
  let* rs := mapM (fun ab : nat * nat => lf_learn L arg phr (list_prod_nat shape)
                     (slice (fst ab) (snd ab) l2) (slice (fst ab) (snd ab) l3)) ranges in
  let* mat := nary_vstack (last (map snd rs) TDense) (map fst rs) in
  mk_space mat keys [] None None [] (Some shape).
(** lexical_function.py:86-175 (train): _has_intercept is refreshed before anything can fail (line 113), and
    composed_id2column (line 161) only before the new Space is built, which cannot fail then *)
Definition lf_train (m : lexfun) (data : list tuple3) (arg phr : space) : lexfun * res unit :=
  let i := has_intercept (lf_learner m) in
  match lf_train_space (lf_learner m) (lf_min m) data arg phr with
  | Err e => (LF (lf_fs m) i (lf_learner m) (lf_cols m) (lf_min m), Err e)
  | Ok fs => (LF (Some fs) i (lf_learner m) (s_id2col phr) (lf_min m), Ok tt)
  end.

(** lexical_function.py:233-245 (_compose).  With a one-dimensional element shape np.prod(()) is the float 1.0, which
    SparseMatrix.reshape rejects (sparse_matrix.py:118-119) and the numpy of the time accepts; shape () has no last
    element. *)
Definition lf_apply (icpt : bool) (fv av : matrix) (shape : list nat) : res matrix :=
  let* _ := check (negb (Nat.eqb (length shape) 0)) IndexError in
  let pre := removelast shape in
  let* _ := check (negb (Nat.eqb (length pre) 0 && mtype_eqb (type_of fv) TSparse)) ValueError in
  let* u := m_reshape fv (list_prod_nat pre) (last shape 0) in
  let* v := (if icpt then padd_matrix (m_transpose av) 0 f1 else Ok (m_transpose av)) in
  let* c := m_mul u v in
  Ok (m_transpose c).

(** lexical_function.py:205-216: the composed vector of one tuple *)
Definition lf_compose1 (icpt : bool) (fs arg : space) (w1 w2 : string) : res matrix :=
  let* fv := get_row fs w1 in
  let* av := get_row arg w2 in
  let* (fv, av) := resolve2 fv av (get_type_of_largest [fv; av]) in
  lf_apply icpt fv av (s_eshape fs).

(** lexical_function.py:177-230 (compose); an untrained model has no function space (None.row2id).  Line 219 uses the
    class of the last composed vector. *)
Definition lf_compose (m : lexfun) (data : list tuple3) (arg : space) : res space :=
  match lf_fs m with
  | None => Err AttributeError
  | Some fs =>
      let* (l1, l2, l3) := valid_data_to_lists data (Some (s_row2id fs)) (Some (s_row2id arg)) None in
      let* vs := mapM (fun p => lf_compose1 (lf_icpt m) fs arg (fst p) (snd p)) (combine l1 l2) in
      let* mat := nary_vstack (last (map type_of vs) TDense) vs in
      mk_space mat l3 (lf_cols m) None None [] (Some (removelast (s_eshape fs)))
  end.
End LexFun.
