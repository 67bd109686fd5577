(** Str.v -- Python 2.7 byte strings: lines of a file, str.strip, str.split, str.join, os.path functions.
    (library behaviour used by src/composes/utils/io_utils.py and src/pipelines/) *)
From Coq Require Import Ascii.
From Verif Require Import Base PyList.
Local Open Scope string_scope.
Local Open Scope list_scope.
Local Open Scope nat_scope.

(** the characters that str.isspace accepts in the C locale: \t \n \v \f \r and the blank *)
Definition is_space (c : ascii) : bool :=
  let n := nat_of_ascii c in (Nat.leb 9 n && Nat.leb n 13) || Nat.eqb n 32.
Definition newline : ascii := ascii_of_nat 10.
Definition tab_ : ascii := ascii_of_nat 9.
Definition slash : ascii := "/"%char.
Definition dot : ascii := "."%char.
Definition str1 (c : ascii) : string := String c "".
Definition nl : string := str1 newline.
Definition tabs : string := str1 tab_.

(** [for line in f]: lines end with (and keep) their newline, except possibly the last one *)
Fixpoint flines (s : string) : list string :=
  match s with
  | "" => []
  | String c r =>
      if Ascii.eqb c newline then str1 c :: flines r
      else match flines r with
           | [] => [str1 c]
           | l :: ls => String c l :: ls
           end
  end.

(** str.lstrip(), str.rstrip(), str.strip() *)
Fixpoint lstrip (s : string) : string :=
  match s with "" => "" | String c r => if is_space c then lstrip r else s end.
Fixpoint rstrip (s : string) : string :=
  match s with
  | "" => ""
  | String c r => let r' := rstrip r in if is_space c && String.eqb r' "" then "" else String c r'
  end.
Definition strip (s : string) : string := rstrip (lstrip s).

(** str.split(): maximal runs of non-space characters *)
Fixpoint split (s : string) : list string :=
  match s with
  | "" => []
  | String c r =>
      if is_space c then split r
      else match r with
           | "" => [str1 c]
           | String d _ => if is_space d then str1 c :: split r
                           else match split r with [] => [str1 c] | w :: ws => String c w :: ws end
           end
  end.

(** str.split(sep) for a one-character separator *)
Fixpoint split_on (sep : ascii) (s : string) : list string :=
  match s with
  | "" => [""]
  | String c r =>
      if Ascii.eqb c sep then "" :: split_on sep r
      else match split_on sep r with [] => [str1 c] | w :: ws => String c w :: ws end
  end.

(** sep.join(l) *)
Definition join (sep : string) (l : list string) : string := String.concat sep l.
(** l[-1] of the non-empty result of str.split(sep) *)
Definition last_part (l : list string) : string := last l "".

(** str.endswith *)
Fixpoint ends_with (s suf : string) : bool :=
  String.eqb s suf || match s with "" => false | String _ r => ends_with r suf end.

(** posixpath.split before the slashes are stripped: head up to and including the last slash, and the rest *)
Fixpoint path_cut (s : string) : string * string :=
  match s with
  | "" => ("", "")
  | String c r =>
      let (h, t) := path_cut r in
      if negb (String.eqb h "") then (String c h, t)
      else if Ascii.eqb c slash then (str1 c, t)
      else ("", String c t)
  end.
Fixpoint all_slashes (s : string) : bool :=
  match s with "" => true | String c r => Ascii.eqb c slash && all_slashes r end.
Fixpoint rstrip_slash (s : string) : string :=
  match s with
  | "" => ""
  | String c r => let r' := rstrip_slash r in if Ascii.eqb c slash && String.eqb r' "" then "" else String c r'
  end.
(** os.path.split / os.path.dirname *)
Definition path_split (p : string) : string * string :=
  let (h, t) := path_cut p in (if all_slashes h then h else rstrip_slash h, t).
Definition dirname (p : string) : string := fst (path_split p).
