(** Operation.v -- src/composes/semantic_space/operation.py, transformation classes *)
From Verif Require Import Base PyList Dict Num Dense Sparse Matrix Scaling Linalg.
Section Operation.
Context {N : Num} {E : Ext}.
Local Open Scope nat_scope.

(** svd.py, nmf.py *)
Inductive dimred := DSvd | DNmf.

(** A transformation object; reduced dimensions are positive (mk_reduced_dim). *)
Inductive transformation :=
| TScale (s : scaling)
| TDim (d : dimred) (k : nat)
| TFS (c : crit) (k : nat).

(** The transformations the constructors accept (mk_reduced_dim): positive dimensions. *)
Definition tr_ok (t : transformation) : Prop :=
  match t with TScale _ => True | TDim _ k => 0 < k | TFS _ k => 0 < k end.

(** Operation objects with their mutable fields: column statistics (operation.py:47), transformation matrix (110),
    selected / original columns (181-182); None = Python None. *)
Inductive operation :=
| OpScale (s : scaling) (st : option cstats)
| OpDim (d : dimred) (k : nat) (tm : option matrix)
| OpFS (c : crit) (k : nat) (sel : option (list nat)) (orig : option (list string)).

(** scaling.py:22-23, dimensionality_reduction.py:24-25, feature_selection.py:21-22 (create_operation) *)
Definition create_operation (t : transformation) : operation :=
  match t with
  | TScale s => OpScale s None
  | TDim d k => OpDim d k None
  | TFS c k => OpFS c k None None
  end.

Definition dimred_apply (d : dimred) (k : nat) (m : matrix) : res (matrix * matrix) :=
  match d with DSvd => svd_apply k m | DNmf => nmf_apply k m end.

(** operation.py:49-74 / 112-133 / 184-203 (apply): result matrix and the updated operation object *)
Definition op_apply (o : operation) (m : matrix) : res (matrix * operation) :=
  match o with
  | OpScale s (Some _) => Err IllegalStateError
  | OpScale s None =>
      let* r := scaling_apply s m None in
      Ok (r, OpScale s (if uses_column_stats s then Some (get_column_stats s m) else None))
  | OpDim d k (Some _) => Err IllegalStateError
  | OpDim d k None =>
      let* (r, tm) := dimred_apply d k m in
      Ok (conv TDense r, OpDim d k (Some tm))
  | OpFS c k (Some _) _ => Err IllegalStateError
  | OpFS c k None orig =>
      let* (r, sel) := topfs_apply c k m in
      Ok (r, OpFS c k (Some sel) orig)
  end.

(** operation.py:135-167 (DimensionalityReductionOperation.project) after the None check *)
Definition dim_project (d : dimred) (tm m : matrix) : res matrix :=
  let* _ := match d with DNmf => m_assert_positive m | DSvd => Ok tt end in
  let* (m', tm') := resolve2 m tm (Some (type_of m)) in
  let* r := m_mul m' tm' in
  let r := match d with DNmf => m_to_non_negative r | DSvd => r end in
  Ok (conv TDense r).

(** operation.py:76-96 / 135-167 / 205-224 (project) *)
Definition op_project (o : operation) (m : matrix) : res matrix :=
  match o with
  | OpScale s st =>
      if uses_column_stats s then
        match st with
        | None => Err IllegalStateError
        | Some c => scaling_apply s m (Some c)
        end
      else scaling_apply s m None
  | OpDim d k None => Err IllegalStateError
  | OpDim d k (Some tm) => dim_project d tm m
  (* line 221 reads self.__dim_reduction, which a FeatureSelectionOperation does not have *)
  | OpFS c k None _ => Err AttributeError
  | OpFS c k (Some sel) _ => m_get_cols m sel
  end.

(** operation.py:237-238 (set_original_columns) *)
Definition op_set_original (o : operation) (cols : list string) : operation :=
  match o with OpFS c k sel _ => OpFS c k sel (Some cols) | _ => o end.

Definition is_dim (o : operation) : bool := match o with OpDim _ _ _ => true | _ => false end.
Definition is_fs (o : operation) : bool := match o with OpFS _ _ _ _ => true | _ => false end.
End Operation.
