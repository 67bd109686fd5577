(** Heap.v -- sharing of row dictionaries between spaces (space.py, peripheral_space.py).
    A Python space holds references.  The only object that the library mutates in place after construction is the row
    dictionary (add_items_to_dict called from add_rows, peripheral_space.py:108); lists, column dictionaries, matrices and
    operation objects reachable from a finished space are replaced, never mutated, so they are kept as values.  Row
    dictionaries live in a store and are referred to by address. *)
From Verif Require Import Base PyList Dict Num Dense Sparse Matrix Scaling Linalg Operation Similarity Space Peripheral.
Section Heap.
Context {N : Num} {E : Ext}.
Local Open Scope nat_scope.

(** a space object: everything but the row dictionary by value, the row dictionary by address *)
Record hobj := HO { h_rest : space (* its s_row2id field is ignored *); h_addr : nat }.
Record store := ST { st_dicts : list (dict Z); st_objs : list hobj }.
Definition deref (st : store) (a : nat) : dict Z := nth a (st_dicts st) [].
(** the space a user sees through object [o] *)
Definition view (st : store) (o : hobj) : space := set_row2id (h_rest o) (deref st (h_addr o)).
Definition obj (st : store) (i : nat) : option space := option_map (view st) (nth_error (st_objs st) i).

Fixpoint list_set {A} (l : list A) (i : nat) (x : A) : list A :=
  match l, i with [], _ => [] | _ :: t, 0 => x :: t | h :: t, S i => h :: list_set t i x end.

(** API calls.  Objects are named by their position in the list of objects created so far.  [Some a] as row2id argument
    passes the dictionary at address [a] (for instance [other_space.row2id]). *)
Inductive event :=
| ELit (d : dict Z)                                   (* the caller creates a dictionary *)
| ENew (m : matrix) (r c : list string) (row2id : option nat) (c2i : option (dict Z)) (ops : list operation) (es : option (list nat))
| EApply (i : nat) (t : transformation)
| EVstack (i j : nat)
| EDense (i : nat) | ESparse (i : nat)
| ESet (i : nat) (m : matrix)
| EPeriph (core : nat) (m : matrix) (r : list string) (row2id : option nat)
| EAdd (i : nat) (m : matrix) (r : list string).

(** a new object with a dictionary of its own *)
Definition alloc (st : store) (s : space) : store :=
  ST (st_dicts st ++ [s_row2id s]) (st_objs st ++ [HO s (length (st_dicts st))]).
(** a new object referring to the dictionary passed by the caller *)
Definition share (st : store) (s : space) (a : nat) : store := ST (st_dicts st) (st_objs st ++ [HO s a]).
Definition arg (st : store) (a : option nat) : option (dict Z) := option_map (deref st) a.
Definition install (st : store) (r : res space) (a : option nat) : store * res unit :=
  match r with
  | Err e => (st, Err e)
  | Ok s => (match a with None => alloc st s | Some a => share st s a end, Ok tt)
  end.
(** an attribute access on something that is not there *)
Definition no_object (st : store) : store * res unit := (st, Err KeyError).
(** assignment to fields other than the dictionary *)
Definition put (st : store) (i : nat) (s : space) (a : nat) : store := ST (st_dicts st) (list_set (st_objs st) i (HO s a)).

Definition step (st : store) (e : event) : store * res unit :=
  match e with
  | ELit d => (ST (st_dicts st ++ [d]) (st_objs st), Ok tt)
  (* space.py:95-98: a supplied dictionary is stored as it is, otherwise a new one is built *)
  | ENew m r c a c2i ops es => install st (mk_space m r c (arg st a) c2i ops es) a
  (* space.py:163: self.row2id.copy() *)
  | EApply i t => match obj st i with None => no_object st | Some s => install st (space_apply s t) None end
  (* space.py:327: space1.row2id.copy() *)
  | EVstack i j => match obj st i, obj st j with Some s1, Some s2 => install st (space_vstack s1 s2) None | _, _ => no_object st end
  (* space.py:348-358, 394-398: only the matrix attribute is replaced *)
  | EDense i => match nth_error (st_objs st) i with None => no_object st | Some o => (put st i (space_to_dense (h_rest o)) (h_addr o), Ok tt) end
  | ESparse i => match nth_error (st_objs st) i with None => no_object st | Some o => (put st i (space_to_sparse (h_rest o)) (h_addr o), Ok tt) end
  | ESet i m => match nth_error (st_objs st) i with
                | None => no_object st
                | Some o => match set_cooccurrence_matrix (view st o) m with
                            | Err e => (st, Err e) | Ok s => (put st i s (h_addr o), Ok tt) end
                end
  (* peripheral_space.py:51-63: a supplied dictionary is stored as it is *)
  | EPeriph i m r a => match obj st i with None => no_object st | Some core => install st (mk_peripheral core m r (arg st a)) a end
  (* peripheral_space.py:107-123: the dictionary object itself is extended *)
  | EAdd i m r => match nth_error (st_objs st) i with
                  | None => no_object st
                  | Some o => let (s, out) := add_rows (view st o) m r in
                              (ST (list_set (st_dicts st) (h_addr o) (s_row2id s)) (list_set (st_objs st) i (HO s (h_addr o))), out)
                  end
  end.
Fixpoint run (st : store) (es : list event) : store :=
  match es with [] => st | e :: es => run (fst (step st e)) es end.
Definition empty : store := ST [] [].
End Heap.
