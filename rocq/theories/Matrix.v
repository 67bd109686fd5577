(** Matrix.v -- the toolkit's Matrix interface: DenseMatrix / SparseMatrix
    (src/composes/matrix/{matrix,dense_matrix,sparse_matrix}.py, src/composes/utils/matrix_utils.py,
    src/composes/utils/py_matrix_utils.py).
    In-place methods (plog, to_non_negative, to_ones, reshape) are functions returning the new value; the places in
    the toolkit where two names share one matrix object are discussed where they matter (Heap.v).
    Simplification: numpy distinguishes np.matrix from 2-d np.ndarray after [np.where]; here both are [dmat]. *)
From Verif Require Import Base PyList Num Dense Sparse.
Section Matrix.
Context {N : Num}.
Local Open Scope num_scope.
Local Open Scope nat_scope.

Inductive mtype := TDense | TSparse.
Inductive matrix := MD (d : dmat) | MS (c : csr).

Definition mtype_eqb (a b : mtype) : bool :=
  match a, b with TDense, TDense => true | TSparse, TSparse => true | _, _ => false end.
Definition type_of (m : matrix) : mtype := match m with MD _ => TDense | MS _ => TSparse end.
(** matrix.py:137-143 (shape) *)
Definition m_nr (m : matrix) : nat := match m with MD d => d_nr d | MS c => s_nr c end.
Definition m_nc (m : matrix) : nat := match m with MD d => d_nc d | MS c => s_nc c end.
(** entry (i,j) of a matrix *)
Definition ment (m : matrix) (i j : nat) : F := match m with MD d => dent d i j | MS c => sent c i j end.
Definition mwf (m : matrix) : Prop := match m with MD d => dwfm d | MS c => swf c end.

(** dense_matrix.py:337-354, sparse_matrix.py:394-408 (to_dense_matrix / to_sparse_matrix), and the constructors
    DenseMatrix(m), SparseMatrix(m) on a Matrix argument (dense_matrix.py:45-48, sparse_matrix.py:55-56) *)
Definition to_dense (m : matrix) : dmat := match m with MD d => d | MS c => dense_of c end.
Definition to_sparse (m : matrix) : csr := match m with MD d => csr_of_dense d | MS c => c end.
Definition conv (t : mtype) (m : matrix) : matrix :=
  match t with TDense => MD (to_dense m) | TSparse => MS (to_sparse m) end.
(** the value [d] wrapped in the class [t] (type(self)(numpy-or-scipy result)) *)
Definition of_dense (t : mtype) (d : dmat) : matrix :=
  match t with TDense => MD d | TSparse => MS (csr_of_dense d) end.

(** matrix.py:59-63 (_assert_same_type) *)
Definition same_type (a b : matrix) : res unit := check (mtype_eqb (type_of a) (type_of b)) TypeError.
(** matrix.py:65-80 (assert_same_shape) *)
Definition same_shapeb (a b : matrix) : bool := Nat.eqb (m_nr a) (m_nr b) && Nat.eqb (m_nc a) (m_nc b).
Definition assert_same_shape (a b : matrix) : res unit := check (same_shapeb a b) ValueError.

(** elementwise + / - : numpy broadcasting for dense, equal shapes required by scipy for sparse *)
Definition m_zip (f : F -> F -> F) (a b : matrix) : res matrix :=
  let* _ := same_type a b in
  match a with
  | MD d => rmap MD (d_bcast f d (to_dense b))
  | MS c => let* _ := check (same_shapeb a b) ValueError in
            Ok (MS (csr_of_dense (d_map2 f (dense_of c) (to_dense b))))
  end.
(** matrix.py:25-33 (__add__, __sub__) *)
Definition m_add := m_zip fadd.
Definition m_sub := m_zip fsub.
(** matrix.py:35-37 (__neg__) *)
Definition m_neg (a : matrix) : matrix := of_dense (type_of a) (d_map fopp (to_dense a)).
(** matrix.py:39-45 (__mul__ by a number), 56-60 (__rmul__) *)
Definition m_scal (x : F) (a : matrix) : matrix := of_dense (type_of a) (d_scal x (to_dense a)).
(** matrix.py:39-45 (__mul__ by a matrix): matrix product; numpy and scipy raise ValueError on a mismatch *)
Definition m_mul (a b : matrix) : res matrix :=
  let* _ := same_type a b in
  let* _ := check (Nat.eqb (m_nc a) (m_nr b)) ValueError in
  Ok (of_dense (type_of a) (d_mul (to_dense a) (to_dense b))).
(** matrix.py:47-54 (__div__ by a number) *)
Definition m_div (a : matrix) (x : F) : res matrix :=
  let* _ := check (negb (feqb x f0)) ZeroDivisionError in
  Ok (of_dense (type_of a) (d_map (fun y => fdiv y x) (to_dense a))).
(** dense_matrix.py:60-78, sparse_matrix.py:161-180 (multiply, component-wise) *)
Definition m_multiply (a b : matrix) : res matrix :=
  let* _ := same_type a b in
  let* _ := check (same_shapeb a b) ValueError in
  Ok (of_dense (type_of a) (d_map2 fmul (to_dense a) (to_dense b))).
(** dense_matrix.py:80-88, sparse_matrix.py:151-159 (transpose) *)
Definition m_transpose (a : matrix) : matrix := of_dense (type_of a) (d_transpose (to_dense a)).
(** dense_matrix.py:124-140, sparse_matrix.py:182-197 (vstack) *)
Definition m_vstack (a b : matrix) : res matrix :=
  let* _ := same_type a b in
  let* _ := check (Nat.eqb (m_nc a) (m_nc b)) ValueError in
  Ok (of_dense (type_of a) (d_vstack (to_dense a) (to_dense b))).
(** dense_matrix.py:142-157, sparse_matrix.py:200-215 (hstack) *)
Definition m_hstack (a b : matrix) : res matrix :=
  let* _ := same_type a b in
  let* _ := check (Nat.eqb (m_nr a) (m_nr b)) ValueError in
  Ok (of_dense (type_of a) (d_hstack (to_dense a) (to_dense b))).
(** dense_matrix.py:159-173, sparse_matrix.py:218-231 (nary_vstack): the caller's class [t]; the list elements' own
    classes are those of the calls in the toolkit (all of class [t]).  An empty list raises ValueError. *)
Fixpoint nary_vstack (t : mtype) (l : list matrix) : res matrix :=
  match l with
  | [] => Err ValueError
  | [m] => Ok (conv t m)
  | m :: ms => let* r := nary_vstack t ms in m_vstack (conv t m) r
  end.
(** dense_matrix.py:192-211, sparse_matrix.py:249-263 (scale_rows); a wrong length is a ValueError in both classes
    (explicit check for dense, dimension mismatch of the diagonal product for sparse) *)
Definition m_scale_rows (a : matrix) (v : list F) : res matrix :=
  let* _ := check (Nat.eqb (length v) (m_nr a)) ValueError in
  Ok (of_dense (type_of a) (d_scale_rows (to_dense a) v)).
(** dense_matrix.py:213-230, sparse_matrix.py:265-278 (scale_columns) *)
Definition m_scale_cols (a : matrix) (v : list F) : res matrix :=
  let* _ := check (Nat.eqb (length v) (m_nc a)) ValueError in
  Ok (of_dense (type_of a) (d_scale_cols (to_dense a) v)).

(** dense_matrix.py:244-245: entries < 1 become 1, then log *)
Definition dplog1 (x : F) : F := fln (if fltb x f1 then f1 else x).
(** sparse_matrix.py:290-291: stored values <= 1 become 1, then log *)
Definition splog1 (x : F) : F := fln (if fleb x f1 then f1 else x).
(** dense_matrix.py:232-245, sparse_matrix.py:280-292 (plog) *)
Definition m_plog (a : matrix) : matrix :=
  match a with
  | MD d => MD (d_map dplog1 d)
  | MS c => MS (s_elim (s_mapdata splog1 c))
  end.
(** np.where(x > 0, x, 0) *)
Definition pos_part (x : F) : F := if fltb f0 x then x else f0.
(** numpy clip(0): max(x, 0) *)
Definition clip0 (x : F) : F := if fltb x f0 then f0 else x.
(** dense_matrix.py:270-279, sparse_matrix.py:308-316 (to_non_negative) *)
Definition m_to_non_negative (a : matrix) : matrix :=
  match a with
  | MD d => MD (d_map pos_part d)
  | MS c => MS (s_elim (s_mapdata clip0 c))
  end.
(** dense_matrix.py:258-268, sparse_matrix.py:294-306 (get_non_negative) *)
Definition m_get_non_negative (a : matrix) : matrix :=
  match a with
  | MD d => MD (d_map pos_part d)
  | MS c => MS (s_elim (s_mapdata pos_part c))
  end.
Definition one_pos (x : F) : F := if fltb f0 x then f1 else f0.
(** dense_matrix.py:281-290, sparse_matrix.py:318-327 (to_ones) *)
Definition m_to_ones (a : matrix) : matrix :=
  match a with
  | MD d => MD (d_map one_pos d)
  | MS c => MS (s_elim (s_mapdata one_pos c))
  end.
(** dense_matrix.py:292-304, sparse_matrix.py:329-343 (remove_small_values) *)
Definition keep_gt (eps x : F) : F := if fltb eps x then x else f0.
Definition m_remove_small (a : matrix) (eps : F) : matrix :=
  match a with
  | MD d => MD (d_map (keep_gt eps) d)
  | MS c => MS (s_elim (s_mapdata (keep_gt eps) c))
  end.
(** dense_matrix.py:248-256, sparse_matrix.py:345-353 (assert_positive) *)
Definition m_assert_positive (a : matrix) : res unit :=
  match a with
  | MD d => check (forallb (fun x => fleb f0 x) (d_list d)) ValueError
  | MS c => check (forallb (fun x => fleb f0 x) (s_data c)) ValueError
  end.
Definition count {A} (p : A -> bool) (l : list A) : nat := length (filter p l).
(** dense_matrix.py:306-312, sparse_matrix.py:355-361 (is_mostly_positive); Python 2 integer division *)
Definition m_is_mostly_positive (a : matrix) : bool :=
  match a with
  | MD d => Nat.ltb ((d_nr d * d_nc d) / 2) (count (fltb f0) (d_list d))
  | MS c => Nat.ltb (length (s_data c) / 2) (count (fltb f0) (s_data c))
  end.
(** np.allclose constants rtol = 1e-05, atol = 1e-08 *)
Definition rtol : F := fdiv f1 (fofZ 100000).
Definition atol : F := fdiv f1 (fofZ 100000000).
Definition close1 (a b : F) : bool := fleb (fabs (fsub a b)) (fadd atol (fmul rtol (fabs b))).
(** dense_matrix.py:314-325, sparse_matrix.py:363-375 (all_close); no type check in the dense case when both dense *)
Definition m_all_close (a b : matrix) : res bool :=
  match a, b with
  | MD x, MD y =>
      let* z := d_bcast (fun u v => if close1 u v then f1 else f0) x y in
      Ok (forallb (fun u => feqb u f1) (d_list z))
  | MS x, MS y =>
      let* _ := check (same_shapeb a b) ValueError in
      Ok (forallb (fun u => close1 u f0) (s_data (csr_of_dense (d_map2 fsub (dense_of x) (dense_of y)))))
  | _, _ => Err TypeError
  end.
(** matrix.py:88-91 (sum) *)
Definition m_sum (a : matrix) : F := d_total (to_dense a).
Definition m_sum0 (a : matrix) : list F := d_sum0 (to_dense a).
Definition m_sum1 (a : matrix) : list F := d_sum1 (to_dense a).
(** dense_matrix.py:327-345, sparse_matrix.py:377-392 (norm) : no axis -- numpy norm of the matrix / of the data *)
Definition m_norm (a : matrix) : F :=
  match a with
  | MD d => fsqrt (d_sqtotal d)
  | MS c => fsqrt (suml (map fsq (s_data c)))
  end.
Definition m_norm0 (a : matrix) : list F :=
  map fsqrt (m_sum0 (of_dense (type_of a) (d_map2 fmul (to_dense a) (to_dense a)))).
Definition m_norm1 (a : matrix) : list F :=
  map fsqrt (m_sum1 (of_dense (type_of a) (d_map2 fmul (to_dense a) (to_dense a)))).
(** matrix.py:93-122 (sorted_permutation): sorted(range(n), key=norms.__getitem__, reverse=True), a stable sort *)
Definition sorted_permutation (norms : list F) : list nat :=
  stable_sort (fun x y => fltb (nth y norms f0) (nth x norms f0)) (seq 0 (length norms)).

(** dense_matrix.py:53-58 and sparse_matrix.py:64-93 ([m[i,:]], [m[i]]).  Dense: numpy row access.  Sparse: for
    i >= 0 the raw slice of indptr (indptr[i+1] raises IndexError when i >= nr), for i < 0 scipy's own indexing. *)
Definition m_get_row (a : matrix) (i : Z) : res matrix :=
  match a with
  | MD d => match py_index (d_nr d) i with
            | Some k => Ok (MD (d_rows d [k]))
            | None => Err IndexError end
  | MS c => if (0 <=? i)%Z
            then (if Nat.ltb (S (Z.to_nat i)) (length (s_ptr c)) then Ok (MS (s_get_row c (Z.to_nat i)))
                  else Err IndexError)
            else match py_index (s_nr c) i with
                 | Some k => Ok (MS (csr_of_dense (d_rows (dense_of c) [k])))
                 | None => Err IndexError end
  end.
(** all Python indices of a list, IndexError if one is out of range *)
Definition py_indices (n : nat) (ids : list Z) : res (list nat) :=
  mapM (fun i => match py_index n i with Some k => Ok k | None => Err IndexError end) ids.
(** [m[ids,:]] : numpy/scipy fancy indexing; an empty selection is refused by the Matrix constructors *)
Definition m_get_rows (a : matrix) (ids : list Z) : res matrix :=
  let* ks := py_indices (m_nr a) ids in
  let* _ := check (negb (Nat.eqb (length ks) 0)) ValueError in
  Ok (of_dense (type_of a) (d_rows (to_dense a) ks)).
(** [m[:,ids]] with non-negative ids *)
Definition m_get_cols (a : matrix) (ids : list nat) : res matrix :=
  let* _ := check (forallb (fun j => Nat.ltb j (m_nc a)) ids) IndexError in
  let* _ := check (negb (Nat.eqb (length ids) 0)) ValueError in
  Ok (of_dense (type_of a) (d_cols (to_dense a) ids)).
(** [m[i,j]] in range *)
Definition m_get (a : matrix) (i j : nat) : F := ment a i j.

(** numpy fixed-width integers *)
Definition wrap (bits : Z) (x : Z) : Z := ((x + 2 ^ (bits - 1)) mod 2 ^ bits - 2 ^ (bits - 1))%Z.
(** sparse_matrix.py:126-132: coordinates of one stored entry after reshape, in int32 or int64 arithmetic *)
Definition reshape_pos (nr nc nc' : Z) (i j : Z) : Z * Z :=
  (let w := if 2 ^ 31 - 1 <=? nr * nc then wrap 64 else wrap 32 in
   let lin := w (w (i * nc) + j) in
   let row := lin / nc' in
   (row, w (lin - w (row * nc'))))%Z.
(** sparse_matrix.py:95-135 (reshape).  Shapes are integer pairs by typing. *)
Definition s_reshape (c : csr) (r' c' : nat) : res csr :=
  (let* _ := check (Z.of_nat (s_nr c) * Z.of_nat (s_nc c) =? Z.of_nat r' * Z.of_nat c') ValueError in
   let es := map (fun e => (reshape_pos (Z.of_nat (s_nr c)) (Z.of_nat (s_nc c)) (Z.of_nat c')
                              (Z.of_nat (fst (fst e))) (Z.of_nat (snd (fst e))), snd e)) (coo_of_csr c) in
   let* _ := check (forallb (fun e => (0 <=? fst (fst e)) && (fst (fst e) <? Z.of_nat r')
                                   && (0 <=? snd (fst e)) && (snd (fst e) <? Z.of_nat c')) es) ValueError in
   Ok (csr_of_coo r' c' (map (fun e => (Z.to_nat (fst (fst e)), Z.to_nat (snd (fst e)), snd e)) es)))%Z.
(** dense_matrix.py:90-108 (reshape) *)
Definition m_reshape (a : matrix) (r' c' : nat) : res matrix :=
  match a with
  | MD d => let* _ := check (Nat.eqb (d_nr d * d_nc d) (r' * c')) ValueError in Ok (MD (d_reshape d r' c'))
  | MS c => rmap MS (s_reshape c r' c')
  end.
(** dense_matrix.py:110-122, sparse_matrix.py:137-149 (identity) *)
Definition m_identity (t : mtype) (n : nat) : matrix := of_dense t (d_eye n).

(** matrix_utils.py:28-37 (padd_matrix) *)
Definition padd_matrix (a : matrix) (axis : nat) (value : F) : res matrix :=
  match axis with
  | 0 => m_vstack a (of_dense (type_of a) (d_const 1 (m_nc a) value))
  | 1 => m_hstack a (of_dense (type_of a) (d_const (m_nr a) 1 value))
  | _ => Err ValueError
  end.
(** matrix_utils.py:40-49 (assert_same_shape along an axis) *)
Definition assert_same_nr (a b : matrix) : res unit := check (Nat.eqb (m_nr a) (m_nr b)) ValueError.
Definition assert_same_nc (a b : matrix) : res unit := check (Nat.eqb (m_nc a) (m_nc b)) ValueError.
(** matrix_utils.py:52-64 (to_compatible_matrix_types) on two Matrix arguments *)
Definition to_compatible (v1 v2 : matrix) : matrix * matrix := (v1, conv (type_of v1) v2).
(** matrix_utils.py:68-76 (get_type_of_largest); the first of the largest wins *)
Fixpoint largest_aux (l : list matrix) (best : nat) (t : option mtype) : option mtype :=
  match l with
  | [] => t
  | m :: ms => if Nat.ltb best (m_nr m * m_nc m) then largest_aux ms (m_nr m * m_nc m) (Some (type_of m))
               else largest_aux ms best t
  end.
Definition get_type_of_largest (l : list matrix) : option mtype := largest_aux l 0 None.
(** matrix_utils.py:90-100 (matrix_type_conflict) *)
Definition type_conflict (l : list matrix) : bool :=
  match l with
  | [] => false
  | m :: _ => existsb (fun x => negb (mtype_eqb (type_of x) (type_of m))) l
  end.
(** matrix_utils.py:78-87 (resolve_type_conflict); None stands for Python's None being called: TypeError *)
Definition resolve_type_conflict (l : list matrix) (t : option mtype) : res (list matrix) :=
  if type_conflict l then
    match t with Some t => Ok (map (conv t) l) | None => Err TypeError end
  else Ok l.
Definition resolve2 (a b : matrix) (t : option mtype) : res (matrix * matrix) :=
  let* l := resolve_type_conflict [a; b] t in
  match l with [x; y] => Ok (x, y) | _ => Err ValueError end.
End Matrix.
