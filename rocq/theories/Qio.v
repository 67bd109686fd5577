(** Qio.v -- a concrete number format over the rationals, used by the examples: integral values are written "3.0" (repr,
    str) and "3.000000" ("%f"), and "3", "3.0", "3.000000" are read; nothing else is. *)
From Coq Require Import Ascii DecimalString Decimal.
From Verif Require Import Base PyList Dict Num Dense Sparse Matrix Scaling Linalg Operation Similarity Space Learner Composition Utils LexFun Str IO.
From Coq Require Import QArith Qcanon.
Local Open Scope string_scope.
Local Open Scope list_scope.
Definition zparse (s : string) : option Z := match NilZero.int_of_string s with Some i => Some (Z.of_int i) | None => None end.
Definition zprint (z : Z) : string := NilZero.string_of_int (Z.to_int z).
Definition qparse (s : string) : option Qc :=
  match split_on dot s with
  | [a] | [a; "0"] | [a; "000000"] => match zparse a with Some z => Some (Q2Qc (inject_Z z)) | None => None end
  | _ => None
  end.
Definition qprint (suffix : string) (x : Qc) : string := (zprint (Qnum (this x)) ++ suffix)%string.
#[export] Instance Qio : @FloatIO QNum := {|
  fparse := qparse; frepr := qprint ".0"; ffmt := qprint ".000000"; fstr := qprint ".0"; iparse := zparse |}.
