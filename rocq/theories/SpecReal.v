(** SpecReal.v -- the mathematics used in the numerical statements: finite sums, inner product, norm on vectors
    [nat -> R], and the textbook similarity measures.  Independent of the model. *)
From Coq Require Import Reals.
Open Scope R_scope.

(** f 0 + ... + f (n-1) *)
Fixpoint rsum (n : nat) (f : nat -> R) : R := match n with O => 0 | S k => rsum k f + f k end.
Definition dot (n : nat) (u v : nat -> R) : R := rsum n (fun i => u i * v i).
Definition norm (n : nat) (u : nat -> R) : R := sqrt (dot n u u).

(** cosine, 0 when a vector is null *)
Definition cosine (n : nat) (u v : nat -> R) : R :=
  if Req_EM_T (norm n u) 0 then 0 else if Req_EM_T (norm n v) 0 then 0 else dot n u v / (norm n u * norm n v).
Definition euclid_score (n : nat) (u v : nat -> R) : R := 1 / (1 + norm n (fun i => u i - v i)).
(** Lin's measure: mass of the features that are strictly positive in both, over the total mass *)
Definition lin_score (n : nat) (u v : nat -> R) : R :=
  let total := rsum n u + rsum n v in
  if Req_EM_T total 0 then 0
  else rsum n (fun i => if Rlt_dec 0 (u i) then if Rlt_dec 0 (v i) then u i + v i else 0 else 0) / total.
(** what lin.py computes: "common" are the features whose *product* is strictly positive *)
Definition lin_code (n : nat) (u v : nat -> R) : R :=
  let total := rsum n u + rsum n v in
  if Req_EM_T total 0 then 0
  else rsum n (fun i => if Rlt_dec 0 (u i * v i) then u i + v i else 0) / total.
