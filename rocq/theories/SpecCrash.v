(** SpecCrash.v -- vocabulary of C70 and C71: what a run that is killed or raises may leave on disk. *)
From Coq Require Import Ascii.
From Verif Require Import Base PyList Dict Num Dense Sparse Matrix Scaling Linalg Operation Similarity Space Peripheral Learner Composition Utils LexFun Str IO Pipe SpecPipe3 Crash.
Local Open Scope string_scope.
Local Open Scope list_scope.
Local Open Scope nat_scope.
Section SpecCrash.
Context {N : Num} {E : Ext} {FI : FloatIO} {PI : PipeIO} {KI : PickleIO}.
(** [st] is the disk at some moment of the run [t] that started with [fs]: after some of its effects, or after all of them *)
Definition stopped (fs : fsys) (t : tr fsys) (st : fsys) : Prop := exists n, st = disk_at fs t n.
(** the same for a program that is started again after every interruption *)
Inductive interrupted (run : fsys -> tr fsys) (fs : fsys) : fsys -> Prop :=
| in_never : interrupted run fs fs
| in_again : forall st st', interrupted run fs st -> stopped st (run st) st' -> interrupted run fs st'.
(** [s] is a beginning of what is written for [c] *)
Definition begins (s : string) (c : content) : Prop :=
  exists r, (match c with Text t => t | Pickle o => dump_bytes o end) = (s ++ r)%string.
(** [d] is a beginning of the path [p] *)
Definition leads (d p : string) : Prop := exists r, p = (d ++ r)%string.
(** the file at [q] is [c], or a beginning of it *)
Definition left_at (st : fsys) (q : string) (c : content) : Prop :=
  fs_file st q = Some c \/ exists s, begins s c /\ fs_file st q = Some (Text s).
(** from [fs] to [st] only files in [R] were written, each perhaps in part; no directory is gone, and the new ones are in [D] *)
Definition leaves (R : string * content -> Prop) (D : string -> Prop) (fs st : fsys) : Prop :=
  (forall q, fs_file st q = fs_file fs q \/ exists c, R (q, c) /\ left_at st q c) /\
  (forall d, fs_dir fs d = true -> fs_dir st d = true) /\
  (forall d, fs_dir st d = true -> fs_dir fs d = true \/ D d).
(** the files of an export in format [f]: the text of the matrix, if it has one (a space whose names do not fit its matrix may
    have none), the column names, if there are any, and the row names *)
Definition exported_piece (f : string) (s : space) (prefix : string) (w : string * content) : Prop :=
  exists t, snd w = Text t /\
    ((f = "dm" /\ fst w = (prefix ++ ".dm")%string /\ forall full, dense_text (s_mat s) (s_id2row s) = Ok full -> t = full) \/
     (f = "sm" /\ fst w = (prefix ++ ".sm")%string /\ forall full, sparse_text (s_mat s) (s_id2row s) (s_id2col s) = Ok full -> t = full) \/
     (fst w = (prefix ++ ".cols")%string /\ s_col2id s <> [] /\ t = list_text (s_id2col s)) \/
     (fst w = (prefix ++ ".rows")%string /\ t = list_text (s_id2row s))).
(** the pickle of a space and, with an output format, its export *)
Definition saved_piece (s : space) (out : string) (fmt : option string) (w : string * content) : Prop :=
  w = ((out ++ ".pkl")%string, Pickle (OSpace s)) \/ exists f, fmt = Some f /\ exported_piece f s out w.
(** the output of compute_similarities as far as it gets: the first lines with their similarities, all of them if every
    similarity exists, else up to the first that does not *)
Definition sim_of (s : space) (s2 : option space) (sim : similarity) (c0 c1 : Z) (l : string) (v : F) : Prop :=
  exists w1 w2, column l c0 w1 /\ column l c1 w2 /\ get_sim s w1 w2 sim s2 = Ok v.
Definition first_sim_lines (s : space) (s2 : option space) (sim : similarity) (c0 c1 : Z) (t out : string) : Prop :=
  exists ls rest vals, text_lines t = ls ++ rest /\ Forall2 (sim_of s s2 sim c0 c1) ls vals /\
    out = String.concat "" (map (fun lv : string * F => (fst lv ++ " " ++ fstr (snd lv) ++ nl)%string) (combine ls vals)) /\
    (forall l r v, rest = l :: r -> ~ sim_of s s2 sim c0 c1 l v).
(** the output of compute_neighbours as far as it gets: the first words with their neighbours, all of them or up to the first
    word that has no neighbours, which is written too *)
Definition first_neighbour_lines (s : space) (s2 : option space) (sim : similarity) (k : Z) (t out : string) : Prop :=
  exists ws rest ns, text_lines t = ws ++ rest /\ Forall2 (fun w l => get_neighbours s w k sim s2 = Ok l) ws ns /\
    out = (String.concat "" (map (fun wl : string * list (string * F) =>
             (fst wl ++ nl ++ String.concat "" (map (fun nx : string * F => (tabs ++ fst nx ++ " " ++ fstr (snd nx) ++ nl)%string) (snd wl)))%string) (combine ws ns)) ++
           match rest with [] => "" | w :: _ => w ++ nl end)%string /\
    (forall w r l, rest = w :: r -> get_neighbours s w k sim s2 <> Ok l).
(** the exported parameters of a model: what any export of it to this file that ends normally would write *)
Definition params_piece (o : pobj) (file : string) (w : string * content) : Prop :=
  (exists m s, o = OLex m /\ lf_fs m = Some s /\ exported_piece "dm" s file w) \/
  (exists m t, o = OComp m /\ w = (file, Text t) /\ forall a b, export_model a o file = Ok b -> fs_file b file = Some (Text t)).
(** a file system: what exists lies in a directory, and nothing is both a file and a directory *)
Definition sane (fs : fsys) : Prop :=
  (forall q, exists_ fs q = true -> dirname q = "" \/ fs_dir fs (dirname q) = true) /\
  (forall q, fs_dir fs q = true -> fs_file fs q = None).
End SpecCrash.
