(** SpecDir.v -- vocabulary of C97, C98 and C107: what os.listdir does. *)
From Coq Require Import Ascii.
From Verif Require Import Base PyList Dict Num Dense Sparse Matrix Scaling Linalg Operation Similarity Space Peripheral Learner Composition Utils LexFun Str PStr IO Pipe.
Local Open Scope string_scope.
Local Open Scope list_scope.
Local Open Scope nat_scope.
(** the name of an entry of a directory *)
Definition plain (f : string) : Prop := f <> "" /\ ~ In "/"%char (chars f).
Section Spec.
Context {N : Num} {E : Ext} {FI : FloatIO} {PI : PipeIO}.
(** on the two disks the same names exist in the directory (written with a slash at its end) *)
Definition same_entries (dir : string) (a b : fsys) : Prop := forall f, plain f -> exists_ a (dir ++ f) = exists_ b (dir ++ f).
(** os.listdir gives names of entries, and gives the same list as long as the entries of the directory are the same *)
Definition lists_entries (dir : string) : Prop :=
  (forall a f, In f (listdir a dir) -> plain f) /\ (forall a b, same_entries dir a b -> listdir a dir = listdir b dir).
End Spec.
