(** Similarity.v -- src/composes/similarity/*.py *)
From Verif Require Import Base PyList Num Dense Sparse Matrix Scaling.
Section Similarity.
Context {N : Num}.
Local Open Scope nat_scope.

Inductive similarity := Cos | Dot | Euclid | Lin.

(** dot_prod.py:16-17 *)
Definition dot_sim (v1 v2 : matrix) : res F := let* p := m_multiply v1 v2 in Ok (m_sum p).
(** cos.py:22-26 *)
Definition cos_sim (v1 v2 : matrix) : res F :=
  if feqb (m_norm v1) f0 || feqb (m_norm v2) f0 then Ok f0
  else let* d := dot_sim v1 v2 in Ok (fdiv d (fmul (m_norm v1) (m_norm v2))).
(** euclidean.py:17-18 *)
Definition euclid_sim (v1 v2 : matrix) : res F :=
  let* d := m_sub v1 v2 in Ok (fdiv f1 (fadd f1 (m_norm d))).
(** lin.py:22-31 *)
Definition lin_sim (v1 v2 : matrix) : res F :=
  let* c := m_multiply v1 v2 in
  let common := m_to_ones c in
  let denom := fadd (m_sum v1) (m_sum v2) in
  if feqb denom f0 then Ok f0
  else let* s := m_add v1 v2 in
       let* cs := m_multiply common s in
       Ok (fdiv (m_sum cs) denom).
Definition sim_raw (s : similarity) (v1 v2 : matrix) : res F :=
  match s with Cos => cos_sim v1 v2 | Dot => dot_sim v1 v2 | Euclid => euclid_sim v1 v2 | Lin => lin_sim v1 v2 end.

(** similarity.py:16-25 (get_sim) on Matrix arguments *)
Definition sim_get (s : similarity) (v1 v2 : matrix) : res F :=
  let (v1, v2) := to_compatible v1 v2 in
  let* _ := assert_same_shape v1 v2 in
  sim_raw s v1 v2.

(** dot_prod.py:19-20 *)
Definition dot_sims (v m : matrix) : res matrix := m_mul m (m_transpose v).
(** cos.py:28-35 *)
Definition cos_sims (v m : matrix) : res matrix :=
  let* sims := dot_sims v m in
  let vector_norm := m_norm v in
  let row_norms := map (fun x => fmul vector_norm x) (m_norm1 m) in
  m_scale_rows sims (nonzero_invert row_norms).
(** similarity.py:41-46 (default implementation: row by row) *)
Definition loop_sims (s : similarity) (v m : matrix) : res matrix :=
  let* l := mapM (fun i => let* r := m_get_row m (Z.of_nat i) in sim_raw s v r) (seq 0 (m_nr m)) in
  Ok (of_dense (type_of m) (tab (m_nr m) 1 (fun i _ => nth i l f0))).
(** similarity.py:27-39 (get_sims_to_matrix) on Matrix arguments *)
Definition sims_to_matrix (s : similarity) (v m : matrix) : res matrix :=
  let (v, m) := to_compatible v m in
  let* _ := check (Nat.eqb (m_nc v) (m_nc m) && Nat.eqb (m_nr v) 1) ValueError in
  match s with Cos => cos_sims v m | Dot => dot_sims v m | Euclid | Lin => loop_sims s v m end.
End Similarity.
