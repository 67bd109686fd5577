(** SpecIO.v -- vocabulary of the statements about files. *)
From Coq Require Import Ascii.
From Verif Require Import Base PyList Dict Num Dense Sparse Matrix Scaling Linalg Operation Similarity Space Learner Composition Utils LexFun Str IO.
Local Open Scope string_scope.
Local Open Scope list_scope.
Local Open Scope nat_scope.

Definition nonblank {A} (r : list A) : bool := match r with [] => false | _ => true end.
(** the non-blank lines of a file in order, each as the list of its white-space separated fields *)
Definition records (text : string) : list (list string) := filter nonblank (map split (flines text)).
(** the distinct elements of a list, in order of first occurrence *)
Fixpoint distinct (l : list string) : list string :=
  match l with [] => [] | x :: r => x :: filter (fun y => negb (String.eqb x y)) (distinct r) end.
(** field number f (from 0) of a record *)
Definition field (f : nat) (r : list string) : string := nth f r "".
(** the words of an indexing file: the distinct first fields *)
Definition vocabulary (text : string) : list string := distinct (map (field 0) (records text)).
Definition fieldz (f : Z) (r : list string) : string := field (Z.to_nat f) r.
(** the record has all the fields *)
Definition long (fields : list Z) (r : list string) : bool := forallb (fun f => (f <? Z.of_nat (length r))%Z) fields.

Section SpecIO.
Context {N : Num} {E : Ext} {FI : FloatIO}.
(** [t] is the text of the file at path [p] *)
Definition text_at (fs : fsys) (p t : string) : Prop := fs_file fs p = Some (Text t).
(** the string is accepted by float() *)
Definition is_num (s : string) : Prop := exists x, fparse s = Some x.
(** what float() makes of an accepted string *)
Definition num (s : string) : F := match fparse s with Some x => x | None => f0 end.
(** a record of a sparse file that is accepted, given the known row and column words *)
Definition sm_ok (R C : list string) (r : list string) : Prop :=
  3 <= length r /\ (In (field 0 r) R -> In (field 1 r) C -> is_num (field 2 r)).
(** the counts given in a sparse file for a pair of words, in order *)
Definition counts (dt w1 w2 : string) : list string :=
  map (field 2) (filter (fun r => String.eqb (field 0 r) w1 && String.eqb (field 1 r) w2) (records dt)).
(** the first record of a word *)
Definition first_record (rs : list (list string)) (w : string) : option (list string) := find (fun r => String.eqb (field 0 r) w) rs.
(** the records of a dense file are accepted: all have n+1 fields, and the first record of each known word is numeric *)
Definition dm_ok (R : list string) (n : nat) (rs : list (list string)) : Prop :=
  Forall (fun r => length r = n + 1) rs /\ forall w r, In w R -> first_record rs w = Some r -> Forall is_num (tl r).
(** number of columns announced by the first line; None if the file is empty *)
Definition first_line_fields (dt : string) : option nat := match flines dt with [] => None | l :: _ => Some (length (split l)) end.
(** entry (i,j) of the matrix read from a dense file with row words R *)
Definition dm_entry (rs : list (list string)) (R : list string) (i j : nat) : F :=
  match first_record rs (nth i R "") with Some r => num (field (S j) r) | None => f0 end.
End SpecIO.
