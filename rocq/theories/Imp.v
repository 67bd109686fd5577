(** Imp.v -- the matrix classes as mutable objects (src/composes/matrix/{matrix,dense_matrix,sparse_matrix}.py), and the
    parts of the toolkit that use their in-place methods, written as imperative programs.
    A Matrix object holds a reference to a numpy / scipy object ([self.mat]); several Matrix objects (and the caller) can hold
    the same one.  The rest of the model treats matrices as values; Prop_Imp.v proves that it may.
    Simplifications: a reshaped dense matrix is a view of the same memory (numpy makes one whenever it can);
    arithmetic of numpy and scipy returns new memory. *)
From Verif Require Import Base PyList Dict Num Dense Sparse Matrix Scaling Linalg Operation Similarity Space.
Section Imp.
Context {N : Num} {E : Ext}.
Local Open Scope nat_scope.

(** a 1-d array, a np.matrix with its memory, a csr_matrix *)
Inductive arr := AV (l : list F) | AD (d : dmat) | AS (c : csr).
(** a Matrix object: the address of its [mat], and for a reshaped dense matrix the shape of the view *)
Record mobj := MO { mo_arr : nat; mo_view : option (nat * nat) }.
Record mem := MEM { m_arrs : list arr; m_objs : list mobj }.

(** computations: they may fail, and what they did to the memory until then remains done *)
Definition prog (A : Type) : Type := mem -> mem * res A.
Definition ret {A} (a : A) : prog A := fun st => (st, Ok a).
Definition raise {A} (e : exn) : prog A := fun st => (st, Err e).
Definition pbind {A B} (p : prog A) (k : A -> prog B) : prog B :=
  fun st => match p st with (st', Ok a) => k a st' | (st', Err e) => (st', Err e) end.
Local Notation "'let!' x ':=' e 'in' k" := (pbind e (fun x => k))
  (at level 200, x pattern, e at level 100, k at level 200, right associativity).
(** a computation without effect on the memory *)
Definition pure {A} (r : res A) : prog A := fun st => (st, r).

Fixpoint upd {A} (l : list A) (i : nat) (x : A) : list A :=
  match l, i with [], _ => [] | _ :: t, 0 => x :: t | h :: t, S i => h :: upd t i x end.

(** memory primitives *)
Definition new_arr (a : arr) : prog nat := fun st => (MEM (m_arrs st ++ [a]) (m_objs st), Ok (length (m_arrs st))).
Definition set_arr (i : nat) (a : arr) : prog unit := fun st => (MEM (upd (m_arrs st) i a) (m_objs st), Ok tt).
Definition get_arr (i : nat) : prog arr := fun st => (st, match nth_error (m_arrs st) i with Some a => Ok a | None => Err AttributeError end).
Definition new_obj (o : mobj) : prog nat := fun st => (MEM (m_arrs st) (m_objs st ++ [o]), Ok (length (m_objs st))).
(** assignment to [self.mat] *)
Definition set_obj (i : nat) (o : mobj) : prog unit := fun st => (MEM (m_arrs st) (upd (m_objs st) i o), Ok tt).
Definition get_obj (i : nat) : prog mobj := fun st => (st, match nth_error (m_objs st) i with Some o => Ok o | None => Err AttributeError end).

(** the value of the Matrix object number i *)
Definition view_of (v : option (nat * nat)) (d : dmat) : dmat := match v with None => d | Some (r, c) => d_reshape d r c end.
Definition value (st : mem) (i : nat) : option matrix :=
  match nth_error (m_objs st) i with
  | None => None
  | Some o => match nth_error (m_arrs st) (mo_arr o) with
              | Some (AD d) => Some (MD (view_of (mo_view o) d))
              | Some (AS c) => Some (MS c)
              | _ => None
              end
  end.
Definition vector (st : mem) (i : nat) : option (list F) :=
  match nth_error (m_arrs st) i with Some (AV l) => Some l | _ => None end.
Definition get (i : nat) : prog matrix := fun st => (st, match value st i with Some m => Ok m | None => Err AttributeError end).
Definition getv (i : nat) : prog (list F) := fun st => (st, match vector st i with Some l => Ok l | None => Err AttributeError end).

Definition arr_of (m : matrix) : arr := match m with MD d => AD d | MS c => AS c end.
(** a new Matrix object around new memory *)
Definition fresh (m : matrix) : prog nat := let! a := new_arr (arr_of m) in new_obj (MO a None).

(** ** constructors and conversions *)
(** dense_matrix.py:45-48 and 346-354, sparse_matrix.py:55-56 and 399-408: DenseMatrix(x) of a DenseMatrix keeps x.mat, and
    of a SparseMatrix builds new memory (todense / csr_matrix); likewise SparseMatrix(x) *)
Definition x_conv (t : mtype) (i : nat) : prog nat :=
  let! o := get_obj i in let! m := get i in
  if mtype_eqb (type_of m) t then new_obj o else fresh (conv t m).
(** matrix.py:146-147 (copy) *)
Definition x_copy (i : nat) : prog nat := let! m := get i in fresh m.
(** dense_matrix.py:337-354, sparse_matrix.py:394-408 (to_dense_matrix, to_sparse_matrix with copy = False): [self] if it has
    the right class already *)
Definition x_to (t : mtype) (i : nat) : prog nat :=
  let! m := get i in if mtype_eqb (type_of m) t then ret i else fresh (conv t m).
(** matrix_utils.py:78-87 (resolve_type_conflict) on two matrices *)
Definition x_resolve2 (i j : nat) (t : option mtype) : prog (nat * nat) :=
  let! a := get i in let! b := get j in
  if type_conflict [a; b]
  then match t with Some t => let! i' := x_conv t i in let! j' := x_conv t j in ret (i', j') | None => raise TypeError end
  else ret (i, j).
(** matrix_utils.py:52-64 (to_compatible_matrix_types): v2 = type(v1)(v2) *)
Definition x_compatible (i j : nat) : prog (nat * nat) :=
  let! a := get i in let! j' := x_conv (type_of a) j in ret (i, j').

(** ** methods that return a new matrix *)
Definition x_fun1 (f : matrix -> res matrix) (i : nat) : prog nat := let! m := get i in let! r := pure (f m) in fresh r.
Definition x_fun2 (f : matrix -> matrix -> res matrix) (i j : nat) : prog nat :=
  let! a := get i in let! b := get j in let! r := pure (f a b) in fresh r.

(** ** methods that change the matrix they are called on *)
(** entries < 1 become 1 (dense_matrix.py:244) *)
Definition at_least1 (x : F) : F := if fltb x f1 then f1 else x.
(** dense_matrix.py:232-245: the memory is overwritten, then self.mat is bound to a new np.log(self.mat).
    sparse_matrix.py:280-292: the csr_matrix itself is changed *)
Definition x_plog (i : nat) : prog unit :=
  let! o := get_obj i in let! a := get_arr (mo_arr o) in
  match a with
  | AD d => let! _ := set_arr (mo_arr o) (AD (d_map at_least1 d)) in
            let! m := get i in
            let! b := new_arr (AD (d_map fln (to_dense m))) in set_obj i (MO b None)
  | AS c => set_arr (mo_arr o) (AS (s_elim (s_mapdata splog1 c)))
  | AV _ => raise AttributeError
  end.
(** dense_matrix.py:270-279: self.mat = np.where(...); sparse_matrix.py:308-316: the csr_matrix itself is changed *)
Definition x_to_non_negative (i : nat) : prog unit :=
  let! o := get_obj i in let! a := get_arr (mo_arr o) in
  match a with
  | AD _ => let! m := get i in let! b := new_arr (AD (d_map pos_part (to_dense m))) in set_obj i (MO b None)
  | AS c => set_arr (mo_arr o) (AS (s_elim (s_mapdata clip0 c)))
  | AV _ => raise AttributeError
  end.
(** dense_matrix.py:281-290, sparse_matrix.py:318-327 *)
Definition x_to_ones (i : nat) : prog unit :=
  let! o := get_obj i in let! a := get_arr (mo_arr o) in
  match a with
  | AD _ => let! m := get i in let! b := new_arr (AD (d_map one_pos (to_dense m))) in set_obj i (MO b None)
  | AS c => set_arr (mo_arr o) (AS (s_elim (s_mapdata one_pos c)))
  | AV _ => raise AttributeError
  end.
(** dense_matrix.py:90-108: self.mat becomes a view of the same memory; sparse_matrix.py:95-135: a new csr_matrix *)
Definition x_reshape (i : nat) (r c : nat) : prog unit :=
  let! o := get_obj i in let! a := get_arr (mo_arr o) in
  match a with
  | AD d => let! m := get i in let! _ := pure (check (Nat.eqb (m_nr m * m_nc m) (r * c)) ValueError) in set_obj i (MO (mo_arr o) (Some (r, c)))
  | AS s => let! s' := pure (s_reshape s r c) in let! b := new_arr (AS s') in set_obj i (MO b None)
  | AV _ => raise AttributeError
  end.

(** ** the toolkit *)
(** py_matrix_utils.py:23-34 (nonzero_invert): astype copies, then the copy is overwritten *)
Definition x_nonzero_invert (i : nat) : prog nat :=
  let! l := getv i in
  let! j := new_arr (AV l) in
  let! l := getv j in
  let! _ := set_arr j (AV (map finv0 l)) in
  ret j.
(** epmi_weighting.py:16-48 *)
Definition x_epmi (i : nat) (marg : option nat) : prog nat :=
  let! m := get i in
  let! _ := pure (m_assert_positive m) in
  let! row_sum := new_arr (AV (m_sum1 m)) in
  let! col_sum := (match marg with Some c => ret c | None => new_arr (AV (m_sum0 m)) end) in
  let! c := getv col_sum in
  let total := suml c in
  let! row_sum := x_nonzero_invert row_sum in
  let! col_sum := x_nonzero_invert col_sum in
  let! c := getv col_sum in
  let! col_sum := new_arr (AV (map (fun x => fmul x total) c)) in
  let! r := getv row_sum in
  let! i1 := x_fun1 (fun m => m_scale_rows m r) i in
  let! c := getv col_sum in
  x_fun1 (fun m => m_scale_cols m c) i1.
(** ppmi_weighting.py:18-22 *)
Definition x_ppmi (i : nat) (marg : option nat) : prog nat :=
  let! e := x_epmi i marg in let! _ := x_plog e in ret e.
(** plmi_weighting.py:16-18 *)
Definition x_plmi (i : nat) (marg : option nat) : prog nat :=
  let! p := x_ppmi i marg in x_fun2 m_multiply i p.
(** plog_weighting.py:13-27 *)
Definition x_plog_apply (i : nat) : prog nat := let! j := x_copy i in let! _ := x_plog j in ret j.
(** row_normalization.py:42-51 *)
Definition x_rownorm (c : crit) (i : nat) : prog nat :=
  let! m := get i in
  let! v := new_arr (AV (match c with CLength => m_norm1 m | CSum => m_sum1 m end)) in
  let! w := x_nonzero_invert v in
  let! l := getv w in x_fun1 (fun m => m_scale_rows m l) i.
(** normalization.py:42-55: with total 0 the argument itself is returned *)
Definition x_norm (c : crit) (i : nat) (total : option F) : prog nat :=
  let! m := get i in
  let total := match total with Some t => t | None => match c with CLength => m_norm m | CSum => m_sum m end end in
  if feqb total f0 then ret i else x_fun1 (fun m => Ok (m_scal (fdiv f1 total) m)) i.
(** statistics kept by an operation: an array or a number *)
Inductive xstats := XCol (a : nat) | XScal (x : F).
Definition x_scaling (s : scaling) (i : nat) (st : option xstats) : prog nat :=
  match s, st with
  | Epmi, None => x_epmi i None | Epmi, Some (XCol a) => x_epmi i (Some a)
  | Ppmi, None => x_ppmi i None | Ppmi, Some (XCol a) => x_ppmi i (Some a)
  | Plmi, None => x_plmi i None | Plmi, Some (XCol a) => x_plmi i (Some a)
  | Plog, None => x_plog_apply i
  | RowNorm c, None => x_rownorm c i
  | Norm c, None => x_norm c i None | Norm c, Some (XScal t) => x_norm c i (Some t)
  | _, _ => raise TypeError
  end.
(** top_feature_selection.py:43-59, with the column indexing of the Matrix classes, which copies *)
Definition x_topfs (c : crit) (k : nat) (i : nat) : prog (nat * list nat) :=
  let! m := get i in let! r := pure (topfs_apply c k m) in
  let! j := fresh (fst r) in ret (j, snd r).
(** operation.py:135-167 (DimensionalityReductionOperation.project) *)
Definition x_dim_project (d : dimred) (tm i : nat) : prog nat :=
  let! m := get i in
  let! _ := (match d with DNmf => pure (m_assert_positive m) | DSvd => ret tt end) in
  let! (i', t') := x_resolve2 i tm (Some (type_of m)) in
  let! r := x_fun2 m_mul i' t' in
  let! _ := (match d with DNmf => x_to_non_negative r | DSvd => ret tt end) in
  x_conv TDense r.
(** an operation object: its statistics and its transformation matrix are references *)
Inductive xop :=
| XScale (s : scaling) (st : option xstats)
| XDim (d : dimred) (k : nat) (tm : option nat)
| XFS (c : crit) (k : nat) (sel : option (list nat)) (orig : option (list string)).
(** operation.py:49-74 / 112-133 / 184-203 (apply) *)
Definition x_op_apply (o : xop) (i : nat) : prog (nat * xop) :=
  match o with
  | XScale s (Some _) => raise IllegalStateError
  | XScale s None =>
      let! r := x_scaling s i None in
      if uses_column_stats s then
        let! m := get i in
        match get_column_stats s m with
        | SCol l => let! a := new_arr (AV l) in ret (r, XScale s (Some (XCol a)))
        | SScal x => ret (r, XScale s (Some (XScal x)))
        end
      else ret (r, XScale s None)
  | XDim d k (Some _) => raise IllegalStateError
  | XDim d k None =>
      let! m := get i in let! r := pure (dimred_apply d k m) in
      let! a := fresh (fst r) in let! tm := fresh (snd r) in
      let! a := x_conv TDense a in ret (a, XDim d k (Some tm))
  | XFS c k (Some _) _ => raise IllegalStateError
  | XFS c k None orig => let! (r, sel) := x_topfs c k i in ret (r, XFS c k (Some sel) orig)
  end.
(** operation.py:76-96 / 135-167 / 205-224 (project) *)
Definition x_op_project (o : xop) (i : nat) : prog nat :=
  match o with
  | XScale s st => if uses_column_stats s then match st with None => raise IllegalStateError | Some c => x_scaling s i (Some c) end
                   else x_scaling s i None
  | XDim d k None => raise IllegalStateError
  | XDim d k (Some tm) => x_dim_project d tm i
  | XFS c k None _ => raise AttributeError
  | XFS c k (Some sel) _ => x_fun1 (fun m => m_get_cols m sel) i
  end.
(** lin.py:22-31 *)
Definition x_lin_sim (v1 v2 : nat) : prog F :=
  let! common := x_fun2 m_multiply v1 v2 in
  let! _ := x_to_ones common in
  let! a := get v1 in let! b := get v2 in
  let denom := fadd (m_sum a) (m_sum b) in
  if feqb denom f0 then ret f0
  else let! s := x_fun2 m_add v1 v2 in
       let! p := x_fun2 m_multiply common s in
       let! r := get p in ret (fdiv (m_sum r) denom).
(** similarity.py:16-25 (get_sim); the other measures have no in-place steps *)
Definition x_sim (s : similarity) (v1 v2 : nat) : prog F :=
  let! (v1, v2) := x_compatible v1 v2 in
  let! a := get v1 in let! b := get v2 in
  let! _ := pure (assert_same_shape a b) in
  match s with Lin => x_lin_sim v1 v2 | _ => pure (sim_raw s a b) end.
(** lexical_function.py:233-245 (_compose): the function vector is reshaped in place *)
Definition x_lf_apply (icpt : bool) (fv av : nat) (shape : list nat) : prog nat :=
  let! _ := pure (check (negb (Nat.eqb (length shape) 0)) IndexError) in
  let pre := removelast shape in
  let! f := get fv in
  let! _ := pure (check (negb (Nat.eqb (length pre) 0 && mtype_eqb (type_of f) TSparse)) ValueError) in
  let! _ := x_reshape fv (list_prod_nat pre) (last shape 0) in
  let! t := x_fun1 (fun m => Ok (m_transpose m)) av in
  let! t := (if icpt then x_fun1 (fun m => padd_matrix m 0 f1) t else ret t) in
  let! c := x_fun2 m_mul fv t in
  x_fun1 (fun m => Ok (m_transpose m)) c.
(** lexical_function.py:205-216: the rows i and j of the matrices of the function space and of the argument space;
    Matrix.__getitem__ copies (dense_matrix.py:53-58, sparse_matrix.py:64-93) *)
Definition x_lf_compose1 (icpt : bool) (fmat amat : nat) (i j : Z) (shape : list nat) : prog nat :=
  let! fv := x_fun1 (fun m => m_get_row m i) fmat in
  let! av := x_fun1 (fun m => m_get_row m j) amat in
  let! f := get fv in let! a := get av in
  let! (fv, av) := x_resolve2 fv av (get_type_of_largest [f; a]) in
  x_lf_apply icpt fv av shape.
(** lexical_function.py:153-155: transpose copies, the copy is reshaped *)
Definition x_lf_row (x : nat) (size : nat) : prog nat :=
  let! t := x_fun1 (fun m => Ok (m_transpose m)) x in
  let! _ := x_reshape t 1 size in ret t.

(** ** histories of calls on matrices; the caller's names refer to objects *)
Inductive call :=
| KLit (m : matrix)                       (* the caller makes a matrix *)
| KConv (t : mtype) (n : nat)             (* DenseMatrix(x) / SparseMatrix(x) *)
| KTo (t : mtype) (n : nat)               (* x.to_dense_matrix() / x.to_sparse_matrix() *)
| KCopy (n : nat)
| KFun1 (f : matrix -> res matrix) (n : nat)            (* any method that returns a new matrix *)
| KFun2 (f : matrix -> matrix -> res matrix) (n k : nat)
| KPlog (n : nat) | KNonNeg (n : nat) | KOnes (n : nat) | KReshape (n : nat) (r c : nat)
| KApply (t : transformation) (n : nat)   (* t.create_operation().apply(x) *)
| KSim (s : similarity) (n k : nat).
Definition x_create (t : transformation) : xop :=
  match t with TScale s => XScale s None | TDim d k => XDim d k None | TFS c k => XFS c k None None end.
(** the call, and the object it returns if it returns a matrix; [env] maps names to objects *)
Definition named (env : list nat) (n : nat) : prog nat := fun st => (st, match nth_error env n with Some i => Ok i | None => Err KeyError end).
Definition perform (env : list nat) (k : call) : prog (option nat) :=
  let some (p : prog nat) := let! o := p in ret (Some o) in
  let none {A} (p : prog A) : prog (option nat) := let! _ := p in ret None in
  match k with
  | KLit m => some (fresh m)
  | KConv t n => let! i := named env n in some (x_conv t i)
  | KTo t n => let! i := named env n in some (x_to t i)
  | KCopy n => let! i := named env n in some (x_copy i)
  | KFun1 f n => let! i := named env n in some (x_fun1 f i)
  | KFun2 f n k => let! i := named env n in let! j := named env k in some (x_fun2 f i j)
  | KPlog n => let! i := named env n in none (x_plog i)
  | KNonNeg n => let! i := named env n in none (x_to_non_negative i)
  | KOnes n => let! i := named env n in none (x_to_ones i)
  | KReshape n r c => let! i := named env n in none (x_reshape i r c)
  | KApply t n => let! i := named env n in let! r := x_op_apply (x_create t) i in ret (Some (fst r))
  | KSim s n k => let! i := named env n in let! j := named env k in none (x_sim s i j)
  end.
(** what the caller has: the memory and the objects of the names given so far (one per call that returned a matrix) *)
Definition step_call (u : mem * list nat) (k : call) : mem * list nat :=
  let (st, env) := u in
  match perform env k st with (st', Ok (Some i)) => (st', env ++ [i]) | (st', _) => (st', env) end.
(** the value of a name *)
Definition look (u : mem * list nat) (n : nat) : option matrix :=
  match nth_error (snd u) n with Some i => value (fst u) i | None => None end.
End Imp.
