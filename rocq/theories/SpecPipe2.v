(** SpecPipe2.v -- vocabulary of the statements about the files read and written by the command line tools. *)
From Coq Require Import Ascii.
From Verif Require Import Base PyList Dict Num Dense Sparse Matrix Scaling Linalg Operation Similarity Space Learner Composition Utils LexFun Str PStr IO SpecIO.
Local Open Scope string_scope.
Local Open Scope list_scope.
Local Open Scope nat_scope.
Section SpecPipe.
Context {N : Num} {E : Ext} {FI : FloatIO}.
(** the file at [p] holds the pickled object / space *)
Definition object_at (fs : fsys) (p : string) (o : pobj) : Prop := fs_file fs p = Some (Pickle o).
Definition space_at (fs : fsys) (p : string) (s : space) : Prop := object_at fs p (OSpace s).
(** the spaces named by a comma-separated list: the first one, and the second if there are exactly two *)
Inductive spaces_at (fs : fsys) : list string -> space -> option space -> Prop :=
| sp_two : forall f g s s2, space_at fs f s -> space_at fs g s2 -> spaces_at fs [f; g] s (Some s2)
| sp_one : forall f r s, length r <> 1 -> space_at fs f s -> spaces_at fs (f :: r) s None.
(** the tuples of a data file: the first three fields of every non-blank line *)
Definition triples (text : string) : list tuple3 := map (fun r => (field 0 r, field 1 r, field 2 r)) (records text).
Definition three_fields (text : string) : Prop := Forall (fun r => 3 <= length r) (records text).
(** every file outside P is as before *)
Definition only_changes (P : string -> Prop) (fs fs' : fsys) : Prop := forall q, ~ P q -> fs_file fs' q = fs_file fs q.
(** the part of a path after the last slash *)
Definition file_name (p nm : string) : Prop := ~ In "/"%char (chars nm) /\ (p = nm \/ exists d, p = (d ++ "/" ++ nm)%string).
End SpecPipe.
