(** Pio.v -- a concrete PipeIO for the examples: configuration files with lines "key value", True and False, an os.listdir that
    lists two fixed names, and no correlation. *)
From Coq Require Import Ascii.
From Verif Require Import Base PyList Dict Num Dense Sparse Matrix Scaling Linalg Operation Similarity Space Learner Composition Utils LexFun Str IO SpecIO Pipe.
Local Open Scope string_scope.
Local Open Scope list_scope.
Definition cfg_lines (text section key : string) : option string :=
  match find (fun r => String.eqb (field 0 r) key) (records text) with Some r => Some (field 1 r) | None => None end.
Definition eval_name (s : string) : res (option bool) :=
  if String.eqb s "True" then Ok (Some true) else if String.eqb s "False" then Ok (Some false) else Err ValueError.
#[export] Instance Pio {N : Num} {E : Ext} {FI : FloatIO} : PipeIO := {|
  cfg_opt := cfg_lines; py_eval := eval_name; listdir := fun _ _ => ["a.pkl"; "b.txt"];
  mat_str := fun _ => "[]"; pearsonr := fun _ _ => Ok f1; spearmanr := fun _ _ => Ok f1 |}.
