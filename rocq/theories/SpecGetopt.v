(** SpecGetopt.v -- C110: the command lines of the tools, as a grammar. *)
From Coq Require Import Ascii.
From Verif Require Import Base.
Local Open Scope string_scope.
Local Open Scope list_scope.
Local Open Scope nat_scope.

(** the options of a tool: letters and names, each with whether it takes a value *)
Record cli := CLI { letters : list (ascii * bool); names : list (string * bool) }.
Definition no_equals (n : string) : Prop := ~ In "="%char (list_ascii_of_string n).
(** "--n" means the option called [name]: it is its name, or the beginning of its name and of no other *)
Definition means (c : cli) (n name : string) (b : bool) : Prop :=
  In (name, b) (names c) /\ no_equals n /\
  (n = name \/ (~ In n (map fst (names c)) /\ String.prefix n name = true /\ forall other, In other (map fst (names c)) -> String.prefix n other = true -> other = name)).
(** the letters after a single dash: the options, and the one that still waits for its value *)
Inductive cluster (c : cli) : string -> list (string * string) -> option string -> Prop :=
| k_end : cluster c "" [] None
| k_flag : forall l s os w, In (l, false) (letters c) -> cluster c s os w -> cluster c (String l s) ((String "-" (String l ""), "") :: os) w
| k_value : forall l v, In (l, true) (letters c) -> v <> "" -> cluster c (String l v) [(String "-" (String l ""), v)] None
| k_waits : forall l, In (l, true) (letters c) -> cluster c (String l "") [] (Some (String "-" (String l ""))).
(** a command line, the options it gives with their values ("" for options without one), and the arguments that are left *)
Inductive line (c : cli) : list string -> list (string * string) -> list string -> Prop :=
| l_end : line c [] [] []
| l_stop : forall a rest, a = "-" \/ String.prefix "-" a = false -> line c (a :: rest) [] (a :: rest)
| l_dashes : forall rest, line c ("--" :: rest) [] rest
| l_letters : forall s os args given rest, s <> "" -> String.prefix "-" s = false -> cluster c s os None -> line c args given rest ->
    line c (("-" ++ s)%string :: args) (os ++ given) rest
| l_letters_value : forall s os o v args given rest, String.prefix "-" s = false -> cluster c s os (Some o) -> line c args given rest ->
    line c (("-" ++ s)%string :: v :: args) (os ++ (o, v) :: given) rest
| l_flag : forall n name args given rest, n <> "" -> means c n name false -> line c args given rest ->
    line c (("--" ++ n)%string :: args) (("--" ++ name, "")%string :: given) rest
| l_value : forall n name v args given rest, n <> "" -> means c n name true -> line c args given rest ->
    line c (("--" ++ n)%string :: v :: args) (("--" ++ name, v)%string :: given) rest
| l_equals : forall n name v args given rest, means c n name true -> line c args given rest ->
    line c (("--" ++ n ++ "=" ++ v)%string :: args) (("--" ++ name, v)%string :: given) rest.
(** the configuration file: the argument that is left, if there is exactly one *)
Definition config_of (rest : list string) : option string := match rest with [p] => Some p | _ => None end.
