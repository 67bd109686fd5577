(** Space.v -- src/composes/semantic_space/space.py and utils/space_utils.py.
    Values are immutable here; sharing of dictionaries between objects is modelled separately in Heap.v. *)
From Verif Require Import Base PyList Dict Num Dense Sparse Matrix Scaling Linalg Operation Similarity.

(** ** space_utils.py (no numbers involved) *)
(** space_utils.py:8-16 (list2dict) *)
Fixpoint list2dict_aux (l : list string) (idx : Z) (d : dict Z) : res (dict Z) :=
  match l with
  | [] => Ok d
  | w :: ws => if dmem d w then Err ValueError else list2dict_aux ws (idx + 1)%Z (dset d w idx)
  end.
Definition list2dict (l : list string) : res (dict Z) := list2dict_aux l 0%Z [].

(** space_utils.py:18-26 (add_items_to_dict); the dictionary is mutated in place, so the state reached before the
    exception is part of the result: (dictionary afterwards, outcome) *)
Fixpoint add_items_aux (l : list string) (no_els idx : Z) (d : dict Z) : dict Z * res unit :=
  match l with
  | [] => (d, Ok tt)
  | w :: ws => if dmem d w then (d, Err ValueError)
               else add_items_aux ws no_els (idx + 1)%Z (dset d w (no_els + idx)%Z)
  end.
Definition add_items_to_dict (d : dict Z) (l : list string) : dict Z * res unit :=
  add_items_aux l (Z.of_nat (length d)) 0%Z d.

(** space_utils.py:28-36 (assert_dict_match_list): [list_[v]] is Python indexing, so negative ids are accepted and
    an id out of range raises IndexError *)
Definition match_entry (l : list string) (kv : string * Z) : res unit :=
  let* x := py_nth l (snd kv) in check (String.eqb x (fst kv)) ValueError.
Fixpoint match_entries (l : list string) (d : dict Z) : res unit :=
  match d with
  | [] => Ok tt
  | kv :: rest => let* _ := match_entry l kv in match_entries l rest
  end.
Definition assert_dict_match_list (d : dict Z) (l : list string) : res unit :=
  let* _ := check (Nat.eqb (length l) (length d)) ValueError in match_entries l d.

(** space_utils.py:39-53 (assert_shape_consistent); only lengths of the four structures are used, which is why the
    permuted call at space.py:396-397 type-checks in Python *)
Definition assert_shape_consistent (nr nc len_id2row len_id2col len_row2id len_col2id : nat) : res unit :=
  let has_column_maps := negb (Nat.eqb len_col2id 0) || negb (Nat.eqb len_id2col 0) in
  let* _ := check (Nat.eqb nr len_id2row && Nat.eqb nr len_row2id) ValueError in
  check (negb (has_column_maps && negb (Nat.eqb nc len_id2col && Nat.eqb nc len_col2id))) ValueError.

Section Space.
Context {N : Num} {E : Ext}.
Local Open Scope nat_scope.

Record space := SP {
  s_mat : matrix;
  s_id2row : list string;
  s_id2col : list string;
  s_row2id : dict Z;
  s_col2id : dict Z;
  s_ops : list operation;
  s_eshape : list nat }.

Definition list_prod_nat (l : list nat) : nat := fold_left Nat.mul l 1.

(** space.py:61-130 (Space.__init__); types are enforced by typing, the keyword arguments are [ops] and [eshape] *)
Definition mk_space (m : matrix) (id2row id2col : list string) (row2id col2id : option (dict Z))
           (ops : list operation) (eshape : option (list nat)) : res space :=
  let* r2i := match row2id with
              | None => list2dict id2row
              | Some d => let* _ := assert_dict_match_list d id2row in Ok d end in
  let* c2i := match col2id with
              | None => list2dict id2col
              | Some d => let* _ := assert_dict_match_list d id2col in Ok d end in
  let* _ := assert_shape_consistent (m_nr m) (m_nc m) (length id2row) (length id2col) (length r2i) (length c2i) in
  let* es := match eshape with
             | Some s => let* _ := check (Nat.eqb (list_prod_nat s) (m_nc m)) ValueError in Ok s
             | None => Ok [m_nc m] end in
  Ok (SP m id2row id2col r2i c2i ops es).

(** space.py:466-473 (assert_1dim_element): the message is built with ["...%s" % self.element_shape]; with a tuple of
    two or more elements the formatting itself raises TypeError before IllegalOperationError can be raised *)
Definition assert_1dim_element (s : space) : res unit :=
  if Nat.ltb 1 (length (s_eshape s)) then Err TypeError else Ok tt.

(** [list(array(cols)[sel])] : IndexError outside *)
Definition select_labels (cols : list string) (sel : list nat) : res (list string) :=
  mapM (fun i => match nth_error cols i with Some c => Ok c | None => Err IndexError end) sel.

(** space.py:133-186 (apply) *)
Definition space_apply (s : space) (t : transformation) : res space :=
  let* (new_matrix, op) := op_apply (create_operation t) (s_mat s) in
  let* (op', id2col, col2id) :=
    match op with
    | OpDim _ _ _ =>
        let* _ := assert_1dim_element s in Ok (op, [], [])
    | OpFS c k sel _ =>
        let* _ := assert_1dim_element s in
        let op' := op_set_original op (s_id2col s) in
        match s_id2col s with
        | [] => Ok (op', [], [])
        | _ => let* id2col := select_labels (s_id2col s) (match sel with Some l => l | None => [] end) in
               let* c2i := list2dict id2col in
               Ok (op', id2col, c2i)
        end
    | OpScale _ _ => Ok (op, s_id2col s, s_col2id s)
    end in
  mk_space new_matrix (s_id2row s) id2col (Some (s_row2id s)) (Some col2id) (s_ops s ++ [op']) None.

(** space.py:360-372 (get_row) *)
Definition get_row (s : space) (w : string) : res matrix :=
  let* i := dlookup (s_row2id s) w in m_get_row (s_mat s) i.

(** space.py:374-392 (get_rows) *)
Definition get_rows (s : space) (ws : list string) : res matrix :=
  let* ids := mapM (dlookup (s_row2id s)) ws in m_get_rows (s_mat s) ids.

(** `except KeyError: return 0.0` *)
Definition is_key_error {A} (r : res A) : bool := match r with Err KeyError => true | _ => false end.

(** space.py:188-224 (get_sim) *)
Definition get_sim (s : space) (w1 w2 : string) (sim : similarity) (space2 : option space) : res F :=
  let r1 := get_row s w1 in
  if is_key_error r1 then Ok f0 else
  let* v1 := r1 in
  let r2 := get_row (match space2 with None => s | Some s2 => s2 end) w2 in
  if is_key_error r2 then Ok f0 else
  let* v2 := r2 in
  let* (v1, v2) := resolve2 v1 v2 (Some TDense) in
  sim_get sim v1 v2.

(** space.py:226-248 (get_sims) *)
Definition get_sims (s : space) (pairs : list (string * string)) (sim : similarity) (space2 : option space)
  : res (list F) :=
  mapM (fun p => get_sim s (fst p) (snd p) sim space2) pairs.

(** space.py:250-299 (get_neighbours) *)
Definition get_neighbours (s : space) (w : string) (k : Z) (sim : similarity) (space2 : option space)
  : res (list (string * F)) :=
  let* vector := get_row s w in
  let s2 := match space2 with None => s | Some x => x end in
  let vector := match space2 with
                | None => vector
                | Some x => conv (type_of (s_mat x)) vector end in
  let* sims := sims_to_matrix sim vector (s_mat s2) in
  let perm := sorted_permutation (m_sum1 sims) in
  let n := Z.min k (Z.of_nat (length (s_id2row s2))) in
  mapM (fun count => match nth_error perm count with
                     | None => Err IndexError
                     | Some i => match nth_error (s_id2row s2) i with
                                 | None => Err IndexError
                                 | Some x => Ok (x, m_get sims i 0) end end)
       (seq 0 (Z.to_nat n)).

Fixpoint strings_eqb (a b : list string) : bool :=
  match a, b with
  | [], [] => true
  | x :: xs, y :: ys => String.eqb x y && strings_eqb xs ys
  | _, _ => false
  end.

(** space.py:301-346 (vstack); row2id is copied before being extended, and the operations list is dropped *)
Definition space_vstack (s1 s2 : space) : res space :=
  let* _ := check (Nat.eqb (m_nc (s_mat s1)) (m_nc (s_mat s2))) ValueError in
  let* _ := check (strings_eqb (s_id2col s1) (s_id2col s2)) ValueError in
  let (new_row2id, r) := add_items_to_dict (s_row2id s1) (s_id2row s2) in
  let* _ := r in
  let new_id2row := s_id2row s1 ++ s_id2row s2 in
  let* (m1, m2) := resolve2 (s_mat s1) (s_mat s2) (get_type_of_largest [s_mat s1; s_mat s2]) in
  let* m := m_vstack m1 m2 in
  mk_space m new_id2row (s_id2col s1) (Some new_row2id) (Some (s_col2id s1)) [] None.

(** space.py:348-358 (to_dense, to_sparse): mutate the matrix field only *)
Definition space_to_dense (s : space) : space :=
  SP (conv TDense (s_mat s)) (s_id2row s) (s_id2col s) (s_row2id s) (s_col2id s) (s_ops s) (s_eshape s).
Definition space_to_sparse (s : space) : space :=
  SP (conv TSparse (s_mat s)) (s_id2row s) (s_id2col s) (s_row2id s) (s_col2id s) (s_ops s) (s_eshape s).

(** space.py:394-398 (set_cooccurrence_matrix): passes (row2id, id2row, column2id, id2column) to the parameters
    (id2row, id2column, row2id, column2id) of assert_shape_consistent *)
Definition set_cooccurrence_matrix (s : space) (m : matrix) : res space :=
  let* _ := assert_shape_consistent (m_nr m) (m_nc m)
              (length (s_row2id s)) (length (s_id2row s)) (length (s_col2id s)) (length (s_id2col s)) in
  Ok (SP m (s_id2row s) (s_id2col s) (s_row2id s) (s_col2id s) (s_ops s) (s_eshape s)).
End Space.
