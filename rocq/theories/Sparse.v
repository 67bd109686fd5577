(** Sparse.v -- scipy.sparse.csr_matrix as its raw triple (data, indices, indptr).
    Raw manipulations made by the toolkit itself (row slicing, operations on [.data], the printing walk, reshape)
    are modelled on the raw arrays.  Library operations (products, stacking, fancy indexing, sums) are modelled by
    their documented dense meaning followed by a conversion back ([csr_of_dense]), so the storage order and the
    explicit zeros of *library* results are not modelled (DESIGN.md). *)
From Verif Require Import Base PyList Num Dense.
Section Sparse.
Context {N : Num}.
Local Open Scope num_scope.

Record csr := CSR { s_nr : nat; s_nc : nat; s_data : list F; s_ind : list nat; s_ptr : list nat }.

Definition ptr (c : csr) (i : nat) : nat := nth i (s_ptr c) O.
(** stored (column, value) pairs of row i *)
Definition srow (c : csr) (i : nat) : list (nat * F) :=
  combine (slice (ptr c i) (ptr c (S i)) (s_ind c)) (slice (ptr c i) (ptr c (S i)) (s_data c)).
Definition srows (c : csr) : list (list (nat * F)) := map (srow c) (seq 0 (s_nr c)).

Fixpoint rlookup (r : list (nat * F)) (j : nat) : option F :=
  match r with [] => None | (k, v) :: t => if Nat.eqb j k then Some v else rlookup t j end.
Definition rval (r : list (nat * F)) (j : nat) : F := match rlookup r j with Some v => v | None => 0 end.

(** value at (i,j): stored value or 0 *)
Definition sent (c : csr) (i j : nat) : F := rval (srow c i) j.

Definition swf (c : csr) : Prop :=
  0 < s_nr c /\ 0 < s_nc c /\
  length (s_ptr c) = S (s_nr c) /\ ptr c O = O /\ (forall i, i < s_nr c -> ptr c i <= ptr c (S i)) /\
  ptr c (s_nr c) = length (s_data c) /\ length (s_ind c) = length (s_data c) /\
  Forall (fun j => j < s_nc c) (s_ind c) /\
  (forall i, i < s_nr c -> NoDup (map fst (srow c i))).

(** prefix sums starting at [a] *)
Fixpoint psums (a : nat) (l : list nat) : list nat :=
  match l with [] => [a] | x :: t => a :: psums (a + x) t end.

Definition csr_of_rows (nc : nat) (rows : list (list (nat * F))) : csr :=
  CSR (length rows) nc (map snd (concat rows)) (map fst (concat rows)) (psums O (map (@length _) rows)).

Definition nz (p : nat * F) : bool := negb (snd p =? 0).

(** [csr_matrix(dense)] : stores exactly the non-zero entries *)
Definition csr_of_dense (m : dmat) : csr :=
  csr_of_rows (d_nc m)
    (map (fun i => filter nz (map (fun j => (j, dent m i j)) (seq 0 (d_nc m)))) (seq 0 (d_nr m))).

(** [csr.todense()] *)
Definition dense_of (c : csr) : dmat := tab (s_nr c) (s_nc c) (sent c).

(** [csr_matrix((data, (row, col)), shape)]: duplicates are summed (in input order), explicit zeros are kept *)
Definition coo_val (es : list (nat * nat * F)) (i j : nat) : F :=
  suml (map snd (filter (fun e => Nat.eqb (fst (fst e)) i && Nat.eqb (snd (fst e)) j) es)).
Definition coo_mem (es : list (nat * nat * F)) (i j : nat) : bool :=
  existsb (fun e => Nat.eqb (fst (fst e)) i && Nat.eqb (snd (fst e)) j) es.
Definition csr_of_coo (nr nc : nat) (es : list (nat * nat * F)) : csr :=
  csr_of_rows nc (map (fun i => map (fun j => (j, coo_val es i j)) (filter (coo_mem es i) (seq 0 nc))) (seq 0 nr)).

(** [csr.tocoo()] *)
Definition coo_of_csr (c : csr) : list (nat * nat * F) :=
  concat (map (fun i => map (fun p => (i, fst p, snd p)) (srow c i)) (seq 0 (s_nr c))).

(** sparse_matrix.py:70-77 (__get_row) *)
Definition s_get_row (c : csr) (i : nat) : csr :=
  let start := ptr c i in let end_ := ptr c (S i) in
  CSR 1 (s_nc c) (slice start end_ (s_data c)) (slice start end_ (s_ind c)) [O; (end_ - start)%nat].

(** assignment to [.data] *)
Definition s_mapdata (g : F -> F) (c : csr) : csr := CSR (s_nr c) (s_nc c) (map g (s_data c)) (s_ind c) (s_ptr c).
(** [csr.eliminate_zeros()] *)
Definition s_elim (c : csr) : csr := csr_of_rows (s_nc c) (map (filter nz) (srows c)).

End Sparse.
