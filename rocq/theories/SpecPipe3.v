(** SpecPipe3.v -- vocabulary of C57, C61, C63-C65: names of outputs, similarity measures, columns. *)
From Coq Require Import Ascii.
From Verif Require Import Base PyList Dict Num Dense Sparse Matrix Scaling Linalg Operation Similarity Space Learner Composition Utils LexFun Str PStr IO SpecIO SpecPipe2.
Local Open Scope string_scope.
Local Open Scope list_scope.
Local Open Scope nat_scope.
(** the file name without its last extension (the empty string if there is none) *)
Inductive stem_of : string -> string -> Prop :=
| stem_ext : forall p d e, file_name p (d ++ "." ++ e) -> ~ In "."%char (chars e) -> stem_of p d
| stem_none : forall p nm, file_name p nm -> ~ In "."%char (chars nm) -> stem_of p "".
(** the description of one or two space files *)
Inductive described : list string -> string -> Prop :=
| ds_one : forall f r d, length r <> 1 -> stem_of f d -> described (f :: r) d
| ds_two : forall f g d d2 e, stem_of f d -> file_name g (d2 ++ "." ++ e) -> ~ In "."%char (chars e) -> described [f; g] (d ++ "." ++ d2)
| ds_bare : forall f g d nm, stem_of f d -> file_name g nm -> ~ In "."%char (chars nm) -> described [f; g] d.
(** the measures that have a name *)
Inductive measure_named : string -> similarity -> Prop :=
| mn_cos : measure_named "cos" Cos
| mn_lin : measure_named "lin" Lin
| mn_dot : measure_named "dot_prod" Dot
| mn_euclid : measure_named "euclidean" Euclid.
(** the output of a tool for an input file, some space files and a measure *)
Definition result_file (out_dir kind in_name descr m : string) : string := (out_dir ++ "/" ++ kind ++ "." ++ in_name ++ "." ++ descr ++ "." ++ m)%string.
(** column number c (from 1) of a line; 0 and negative numbers count from the end, as Python indices do *)
Definition column (line : string) (c : Z) (w : string) : Prop :=
  exists p, nth_error (split line) p = Some w /\ (Z.of_nat p = c - 1 \/ (c <= 0 /\ Z.of_nat p = Z.of_nat (length (split line)) + c - 1))%Z.
(** the stripped non-blank lines of a file *)
Definition text_lines (text : string) : list string := filter (fun l => negb (String.eqb l "")) (map strip (flines text)).
