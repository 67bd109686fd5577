(** Peripheral.v -- src/composes/semantic_space/peripheral_space.py *)
From Verif Require Import Base PyList Dict Num Dense Sparse Matrix Scaling Linalg Operation Similarity Space.
Section Peripheral.
Context {N : Num} {E : Ext}.
Local Open Scope nat_scope.

(** Column indexing structures during the projection loop. *)
Record colst := CS { c_id2col : list string; c_col2id : dict Z }.

(** peripheral_space.py:76-84: column bookkeeping before one operation is projected.  Returns the state reached and
    whether list2dict / indexing raised. *)
Definition op_columns (o : operation) (c : colst) : colst * res unit :=
  match o with
  | OpScale _ _ => (c, Ok tt)
  | OpDim _ _ _ => (CS [] [], Ok tt)
  | OpFS _ _ sel orig =>
      match orig with
      | None | Some [] => (CS [] [], Ok tt)
      | Some cols =>
          match select_labels cols (match sel with Some l => l | None => [] end) with
          | Err e => (c, Err e)
          | Ok id2col =>
              match list2dict id2col with
              | Err e => (CS id2col (c_col2id c), Err e)
              | Ok d => (CS id2col d, Ok tt)
              end
          end
      end
  end.

(** peripheral_space.py:73-87 (_project_core_operations): final column state and outcome *)
Fixpoint project_ops (ops : list operation) (c : colst) (m : matrix) : colst * res matrix :=
  match ops with
  | [] => (c, Ok m)
  | o :: rest =>
      let (c', r) := op_columns o c in
      match r with
      | Err e => (c', Err e)
      | Ok _ => match op_project o m with
                | Err e => (c', Err e)
                | Ok m' => project_ops rest c' m'
                end
      end
  end.

(** peripheral_space.py:24-70 (PeripheralSpace.__init__) *)
Definition mk_peripheral (core : space) (m : matrix) (id2row : list string) (row2id : option (dict Z)) : res space :=
  let* r2i := match row2id with
              | None => list2dict id2row
              | Some d => let* _ := assert_dict_match_list d id2row in Ok d end in
  let ops := s_ops core in
  let (c, rm) := project_ops ops (CS (s_id2col core) (s_col2id core)) m in
  let* pm := rm in
  let* _ := assert_shape_consistent (m_nr pm) (m_nc pm) (length id2row) (length (c_id2col c))
                                    (length r2i) (length (c_col2id c)) in
  Ok (SP pm id2row (c_id2col c) r2i (c_col2id c) ops [m_nc pm]).

Definition set_row2id (s : space) (d : dict Z) : space :=
  SP (s_mat s) (s_id2row s) (s_id2col s) d (s_col2id s) (s_ops s) (s_eshape s).
Definition set_id2row (s : space) (l : list string) : space :=
  SP (s_mat s) l (s_id2col s) (s_row2id s) (s_col2id s) (s_ops s) (s_eshape s).
Definition set_cols (s : space) (c : colst) : space :=
  SP (s_mat s) (s_id2row s) (c_id2col c) (s_row2id s) (c_col2id c) (s_ops s) (s_eshape s).
Definition set_mat (s : space) (m : matrix) : space :=
  SP m (s_id2row s) (s_id2col s) (s_row2id s) (s_col2id s) (s_ops s) (s_eshape s).

(** peripheral_space.py:90-123 (add_rows), with every intermediate state: (object afterwards, outcome).
    The dictionary is extended in place, one word at a time, before anything is checked. *)
Definition add_rows (s : space) (m : matrix) (id2row : list string) : space * res unit :=
  let (d, r) := add_items_to_dict (s_row2id s) id2row in
  let s := set_row2id s d in
  match r with
  | Err _ => (s, Err ValueError)
  | Ok _ =>
      if negb (Nat.eqb (m_nr m) (length id2row)) then (s, Err ValueError) else
      let s := set_id2row s (s_id2row s ++ id2row) in
      let (c, rm) := project_ops (s_ops s) (CS (s_id2col s) (s_col2id s)) m in
      let s := set_cols s c in
      match rm with
      | Err e => (s, Err e)
      | Ok pm =>
          match m_vstack (s_mat s) pm with
          | Err e => (s, Err e)
          | Ok vm =>
              let s := set_mat s vm in
              (s, assert_shape_consistent (m_nr vm) (m_nc vm) (length (s_id2row s)) (length (s_id2col s))
                                          (length (s_row2id s)) (length (s_col2id s)))
          end
      end
  end.
End Peripheral.
