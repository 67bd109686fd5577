(** NmfInit.v -- the other two initialisations of src/composes/transformation/dim_reduction/nmf.py (random_init, nndsvd_init),
    public methods of Nmf beside v_col_init (Linalg.v). *)
From Verif Require Import Base PyList Num Dense Sparse Matrix Linalg.
Section NmfInit.
Context {N : Num} {E : Ext}.
Local Open Scope nat_scope.

(** nmf.py:41-55 (random_init): k random columns and k random rows *)
Definition random_init (k : nat) (m : matrix) : res (matrix * matrix) :=
  let* w := m_get_cols m (map (fun q => e_rndcol 0 q mod m_nc m) (seq 0 k)) in
  let* h := m_get_rows m (map Z.of_nat (map (fun q => e_rndrow 0 q mod m_nr m) (seq 0 k))) in
  Ok (w, h).

(** dense_matrix.py:176-190, sparse_matrix.py:233-247 (nary_hstack); here every element is already of the class [t].
    An empty list raises ValueError. *)
Fixpoint nary_hstack (l : list matrix) : res matrix :=
  match l with
  | [] => Err ValueError
  | [m] => Ok m
  | m :: ms => let* r := nary_hstack ms in m_hstack m r
  end.

(** math.sqrt: ValueError (math domain error) on a negative number *)
Definition math_sqrt (x : F) : res F := let* _ := check (fleb f0 x) ValueError in Ok (fsqrt x).

(** nmf.py:81-84 (matrix_abs): positive part plus (positive part minus the matrix) *)
Definition matrix_abs (a : matrix) : res matrix :=
  let p := m_get_non_negative a in
  let* n := m_sub p a in
  m_add p n.

(** nmf.py:86-93 (padd_zeros), thickness > 0 (line 133) *)
Definition padd_zeros (a : matrix) (axis thickness : nat) : res matrix :=
  match axis with
  | 0 => m_vstack a (of_dense (type_of a) (d_const thickness (m_nc a) f0))
  | _ => m_hstack a (of_dense (type_of a) (d_const (m_nr a) thickness f0))
  end.

(** nmf.py:103-104: the first pair *)
Definition nndsvd_first (s0 : F) (u0 v0 : matrix) : res (matrix * matrix) :=
  let* q := math_sqrt s0 in
  let* a := matrix_abs u0 in
  let* b := matrix_abs v0 in
  Ok (m_scal q a, m_scal q b).

(** nmf.py:106-125: the pair of a later dimension; [x * m / y] is [(x * m) / y], and / raises ZeroDivisionError on 0 *)
Definition nndsvd_step (si : F) (uu vv : matrix) : res (matrix * matrix) :=
  let uup := m_get_non_negative uu in
  let* uun := m_sub uup uu in
  let vvp := m_get_non_negative vv in
  let* vvn := m_sub vvp vv in
  let n_uup := m_norm uup in let n_uun := m_norm uun in
  let n_vvp := m_norm vvp in let n_vvn := m_norm vvn in
  let termp := fmul n_uup n_vvp in let termn := fmul n_uun n_vvn in
  if fleb termn termp then
    let* q := math_sqrt (fmul si termp) in
    let* a := m_div (m_scal q uup) n_uup in
    let* b := m_div (m_scal q vvp) n_vvp in
    Ok (a, b)
  else
    let* q := math_sqrt (fmul si termn) in
    let* a := m_div (m_scal q uun) n_uun in
    let* b := m_div (m_scal q vvn) n_vvn in
    Ok (a, b).

(** nmf.py:80-136 (nndsvd_init).  [remove_small_values] (lines 130-131) returns a new matrix that is thrown away, so it has no
    effect. *)
Definition nndsvd_init (k : nat) (m : matrix) : res (matrix * matrix) :=
  let* (u, s, v) := linalg_svd m k in
  let rank := m_nc u in
  let vt := m_transpose v in
  let* ps := mapM (fun i =>
      let* uu := m_get_cols u [i] in
      let* vv := m_get_row vt (Z.of_nat i) in
      let si := nth i s f0 in
      if Nat.eqb i 0 then nndsvd_first si uu vv else nndsvd_step si uu vv) (seq 0 rank) in
  let* w := nary_hstack (map fst ps) in
  let* h := nary_vstack (type_of m) (map snd ps) in
  if Nat.ltb rank k then
    let* w := padd_zeros w 1 (k - rank) in
    let* h := padd_zeros h 0 (k - rank) in
    Ok (w, h)
  else Ok (w, h).
End NmfInit.
