(** SpecPipe.v -- vocabulary for the statements about the command line tools (C54-C57, C61-C65). *)
From Coq Require Import Ascii.
From Verif Require Import Base PyList Str.
Local Open Scope string_scope.
Local Open Scope list_scope.
Local Open Scope nat_scope.

(** the ways to write option [o] with value [v] on the command line: "-x v", "-xv" (v not empty), "--name v", "--name=v" *)
Definition short_option (o : string) : Prop := exists c, o = String "-" (String c "") /\ c <> "-"%char.
Definition long_option (o : string) : Prop := exists n, o = ("--" ++ n)%string /\ n <> "".
Definition written (o v : string) (args : list string) : Prop :=
  args = [o; v] \/ (short_option o /\ v <> "" /\ args = [(o ++ v)%string]) \/ (long_option o /\ args = [(o ++ "=" ++ v)%string]).
(** a command line: options with their values, followed by at most one argument, the configuration file *)
Inductive command_line (options : list string) : list (string * string) -> option string -> list string -> Prop :=
| cl_end : command_line options [] None []
| cl_config : forall p, String.prefix "-" p = false -> command_line options [] (Some p) [p]
| cl_option : forall o v args given config rest, In o options -> written o v args -> command_line options given config rest ->
    command_line options ((o, v) :: given) config (args ++ rest).
(** the value given last under one of the names *)
Definition last_given (names : list string) (given : list (string * string)) : option string :=
  last (map (fun ov => Some (snd ov)) (filter (fun ov => existsb (String.eqb (fst ov)) names) given)) None.
(** command line first, then configuration file *)
Definition first_of {A} (a b : option A) : option A := match a with Some _ => a | None => b end.
Definition with_default (o : option string) (d : string) : string := match o with Some s => s | None => d end.
(** comma-separated values *)
Definition commas (s : string) : list string := split_on ","%char s.
