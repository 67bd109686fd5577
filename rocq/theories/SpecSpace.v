(** SpecSpace.v -- vocabulary of the statements about spaces (no model helper is used to state them beyond the
    record fields and entries). *)
From Verif Require Import Base PyList Dict Num Dense Sparse Matrix Scaling Linalg Operation Similarity Space Peripheral.

(** position [p] of a list of length [n] is what Python index [k] denotes (k >= 0, or counted from the end) *)
Definition denotes (n : nat) (k : Z) (p : nat) : Prop :=
  p < n /\ (k = Z.of_nat p \/ k = Z.of_nat p - Z.of_nat n)%Z.

(** the dictionary and the list describe the same bijection between words and positions *)
Definition mutually_inverse (l : list string) (d : dict Z) : Prop :=
  NoDup l /\ length d = length l /\ (forall w, In w l <-> In w (dkeys d)) /\
  (forall w k, dget d w = Some k -> exists p, denotes (length l) k p /\ nth_error l p = Some w).

(** every word is mapped to its (non-negative) list position *)
Definition positional (l : list string) (d : dict Z) : Prop :=
  forall w k, dget d w = Some k <-> exists p, k = Z.of_nat p /\ nth_error l p = Some w.

(** user-supplied dictionaries are Python dictionaries: no repeated key *)
Definition opt_dict (d : option (dict Z)) : Prop := match d with None => True | Some d => dwf d end.
Definition nonneg_ids (d : option (dict Z)) : Prop :=
  match d with None => True | Some d => forall w k, In (w, k) d -> (0 <= k)%Z end.

Section SpecSpace.
Context {N : Num} {E : Ext}.
Local Open Scope nat_scope.

Definition op_wf (o : operation) : Prop :=
  match o with OpDim _ _ (Some m) => mwf m | _ => True end.

(** matrix, indexing structures and element shape of a space agree *)
Definition consistent (s : space) : Prop :=
  mwf (s_mat s) /\
  length (s_id2row s) = m_nr (s_mat s) /\
  (s_id2col s = [] \/ length (s_id2col s) = m_nc (s_mat s)) /\
  mutually_inverse (s_id2row s) (s_row2id s) /\ dwf (s_row2id s) /\
  mutually_inverse (s_id2col s) (s_col2id s) /\ dwf (s_col2id s) /\
  list_prod_nat (s_eshape s) = m_nc (s_mat s) /\
  Forall op_wf (s_ops s).

Definition positional_rows (s : space) : Prop := positional (s_id2row s) (s_row2id s).

(** Everything a user can do to obtain or change a space.  [ids_ok] restricts the row dictionaries that may be
    supplied by the caller: with [fun _ => True] this is the full API. *)
Inductive reachable (ids_ok : option (dict Z) -> Prop) : space -> Prop :=
| R_new m r c r2i c2i ops es s :
    mwf m -> Forall op_wf ops -> opt_dict r2i -> opt_dict c2i -> ids_ok r2i ->
    mk_space m r c r2i c2i ops es = Ok s -> reachable ids_ok s
| R_apply s t s' : reachable ids_ok s -> tr_ok t -> space_apply s t = Ok s' -> reachable ids_ok s'
| R_vstack s1 s2 s' :
    reachable ids_ok s1 -> reachable ids_ok s2 -> space_vstack s1 s2 = Ok s' -> reachable ids_ok s'
| R_dense s : reachable ids_ok s -> reachable ids_ok (space_to_dense s)
| R_sparse s : reachable ids_ok s -> reachable ids_ok (space_to_sparse s)
| R_set s m s' : reachable ids_ok s -> mwf m -> set_cooccurrence_matrix s m = Ok s' -> reachable ids_ok s'
| R_periph core m r r2i s :
    reachable ids_ok core -> mwf m -> opt_dict r2i -> ids_ok r2i ->
    mk_peripheral core m r r2i = Ok s -> reachable ids_ok s
| R_add s m r s' : reachable ids_ok s -> mwf m -> add_rows s m r = (s', Ok tt) -> reachable ids_ok s'.
End SpecSpace.
