(** Scaling.v -- src/composes/transformation/scaling/*.py and feature_selection/*.py *)
From Verif Require Import Base PyList Num Dense Sparse Matrix.
Section Scaling.
Context {N : Num}.
Local Open Scope nat_scope.

(** "sum" / "length" criteria (row_normalization.py:24, normalization.py:23, top_feature_selection.py:24).
    Unknown criteria and unknown keyword arguments are rejected by the constructors (ValueError) and cannot be
    represented here. *)
Inductive crit := CSum | CLength.
Inductive scaling := Epmi | Ppmi | Plmi | Plog | RowNorm (c : crit) | Norm (c : crit).

(** what get_column_stats returns: column marginals (epmi/ppmi/plmi) or one scalar (normalization) *)
Inductive cstats := SCol (l : list F) | SScal (x : F).

(** scaling.py:14 and the _uses_column_stats attributes of the subclasses *)
Definition uses_column_stats (s : scaling) : bool :=
  match s with Epmi | Ppmi | Plmi | Norm _ => true | Plog | RowNorm _ => false end.

(** epmi_weighting.py:50-51, ppmi_weighting.py:24-25, plmi_weighting.py:21-22, normalization.py:57-62 *)
Definition get_column_stats (s : scaling) (m : matrix) : cstats :=
  match s with
  | Norm CLength => SScal (m_norm m)
  | Norm CSum => SScal (m_sum m)
  | _ => SCol (m_sum0 m)
  end.

(** py_matrix_utils.py:22-34 (nonzero_invert) *)
Definition nonzero_invert (l : list F) : list F := map finv0 l.

(** epmi_weighting.py:16-48 *)
Definition epmi_apply (m : matrix) (marg : option (list F)) : res matrix :=
  let* _ := m_assert_positive m in
  let row_sum := m_sum1 m in
  let col_sum := match marg with Some c => c | None => m_sum0 m end in
  let total := suml col_sum in
  let row_sum := nonzero_invert row_sum in
  let col_sum := map (fun x => fmul x total) (nonzero_invert col_sum) in
  let* m1 := m_scale_rows m row_sum in
  m_scale_cols m1 col_sum.

(** ppmi_weighting.py:18-22 *)
Definition ppmi_apply (m : matrix) (marg : option (list F)) : res matrix :=
  let* e := epmi_apply m marg in Ok (m_plog e).

(** plmi_weighting.py:16-18 *)
Definition plmi_apply (m : matrix) (marg : option (list F)) : res matrix :=
  let* p := ppmi_apply m marg in m_multiply m p.

(** plog_weighting.py:13-27 *)
Definition plog_apply (m : matrix) : res matrix := Ok (m_plog m).

(** row_normalization.py:42-51 *)
Definition rownorm_apply (c : crit) (m : matrix) : res matrix :=
  let row_norms := match c with CLength => m_norm1 m | CSum => m_sum1 m end in
  m_scale_rows m (nonzero_invert row_norms).

(** normalization.py:42-55 *)
Definition norm_apply (c : crit) (m : matrix) (total : option F) : res matrix :=
  let total := match total with Some t => t | None =>
                 match c with CLength => m_norm m | CSum => m_sum m end end in
  if feqb total f0 then Ok m else Ok (m_scal (fdiv f1 total) m).

(** dispatch of [scaling.apply(matrix_)] / [scaling.apply(matrix_, stats)] (operation.py:69, 93-96).  A statistics
    value of the wrong kind cannot be produced by the code (TypeError stands for whatever would happen). *)
Definition scaling_apply (s : scaling) (m : matrix) (st : option cstats) : res matrix :=
  match s, st with
  | Epmi, None => epmi_apply m None
  | Epmi, Some (SCol l) => epmi_apply m (Some l)
  | Ppmi, None => ppmi_apply m None
  | Ppmi, Some (SCol l) => ppmi_apply m (Some l)
  | Plmi, None => plmi_apply m None
  | Plmi, Some (SCol l) => plmi_apply m (Some l)
  | Plog, None => plog_apply m
  | RowNorm c, None => rownorm_apply c m
  | Norm c, None => norm_apply c m None
  | Norm c, Some (SScal t) => norm_apply c m (Some t)
  | _, _ => Err TypeError
  end.

(** feature_selection.py:14-19, dimensionality_reduction.py:15-22: constructor argument check *)
Definition mk_reduced_dim (k : Z) : res nat :=
  let* _ := check (0 <? k)%Z ValueError in Ok (Z.to_nat k).

(** top_feature_selection.py:43-59 *)
Definition topfs_apply (c : crit) (k : nat) (m : matrix) : res (matrix * list nat) :=
  let norms := match c with CSum => m_sum0 m | CLength => m_norm0 m end in
  let no_columns := Nat.min k (m_nc m) in
  let sorted_perm := firstn no_columns (sorted_permutation norms) in
  let* r := m_get_cols m sorted_perm in
  Ok (r, sorted_perm).
End Scaling.
