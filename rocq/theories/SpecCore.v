(** SpecCore.v -- vocabulary of C54: the operations named on the command line of build_core_space, and its output files. *)
From Coq Require Import Ascii.
From Verif Require Import Base PyList Dict Num Dense Sparse Matrix Scaling Linalg Operation Similarity Space Learner Composition Utils LexFun Str PStr IO SpecIO SpecPipe2.
Local Open Scope string_scope.
Local Open Scope list_scope.
Local Open Scope nat_scope.
Section SpecCore.
Context {N : Num} {E : Ext} {FI : FloatIO}.
(** no operation: left out, "none" or "" *)
Definition no_op (o : option string) : Prop := o = None \/ o = Some "none" \/ o = Some "".
(** [d] is written as a positive number *)
Definition positive (d : string) (k : nat) : Prop := 0 < k /\ iparse d = Some (Z.of_nat k).
(** the defined operations *)
Inductive weighting_op : option string -> option transformation -> Prop :=
| wo_none : forall o, no_op o -> weighting_op o None
| wo_plog : weighting_op (Some "plog") (Some (TScale Plog))
| wo_ppmi : weighting_op (Some "ppmi") (Some (TScale Ppmi))
| wo_epmi : weighting_op (Some "epmi") (Some (TScale Epmi))
| wo_plmi : weighting_op (Some "plmi") (Some (TScale Plmi)).
Inductive selection_op : option string -> option transformation -> Prop :=
| so_none : forall o, no_op o -> selection_op o None
| so_sum : forall d k, positive d k -> selection_op (Some ("top_sum_" ++ d)%string) (Some (TFS CSum k))
| so_length : forall d k, positive d k -> selection_op (Some ("top_length_" ++ d)%string) (Some (TFS CLength k)).
Inductive reduction_op : option string -> option transformation -> Prop :=
| ro_none : forall o, no_op o -> reduction_op o None
| ro_svd : forall d k, positive d k -> reduction_op (Some ("svd_" ++ d)%string) (Some (TDim DSvd k))
| ro_nmf : forall d k, positive d k -> reduction_op (Some ("nmf_" ++ d)%string) (Some (TDim DNmf k)).
Inductive normalization_op : option string -> option transformation -> Prop :=
| no_none : forall o, no_op o -> normalization_op o None
| no_all : normalization_op (Some "all") (Some (TScale (Norm CSum)))
| no_row : normalization_op (Some "row") (Some (TScale (RowNorm CLength))).
(** the operations one after the other *)
Inductive applied : space -> list (option transformation) -> space -> Prop :=
| ap_nil : forall s, applied s [] s
| ap_skip : forall s r s', applied s r s' -> applied s (None :: r) s'
| ap_cons : forall s t r s1 s', space_apply s t = Ok s1 -> applied s1 r s' -> applied s (Some t :: r) s'.
(** a combination, and its meaning *)
Definition combination := (option string * option string * option string * option string)%type.
Definition defined (c : combination) (ts : list (option transformation)) : Prop :=
  let '(w, x, r, n) := c in exists t1 t2 t3 t4, ts = [t1; t2; t3; t4] /\ weighting_op w t1 /\ selection_op x t2 /\ reduction_op r t3 /\ normalization_op n t4.
(** the output file (without extension): out_dir/CORE_SS.<input name>, then a dot and the name of each operation that is done *)
Definition shown (o : option string) : string :=
  match o with None => "" | Some n => if String.eqb n "none" || String.eqb n "" then "" else ("." ++ n)%string end.
Definition core_file (out_dir in_name : string) (c : combination) : string :=
  let '(w, x, r, n) := c in (out_dir ++ "/CORE_SS." ++ in_name ++ shown w ++ shown x ++ shown r ++ shown n)%string.
(** a name that is no operation: the tool warns and leaves the space as it is *)
Definition unknown_weighting (k : string) : Prop := ~ In k ["none"; ""; "plog"; "ppmi"; "epmi"; "plmi"].
Definition unknown_normalization (k : string) : Prop := ~ In k ["none"; ""; "all"; "row"].
Definition unknown_selection (k : string) : Prop :=
  k <> "none" /\ k <> "" /\ forall d, ~ In "_"%char (chars d) -> k <> ("top_sum_" ++ d)%string /\ k <> ("top_length_" ++ d)%string.
Definition unknown_reduction (k : string) : Prop :=
  k <> "none" /\ k <> "" /\ forall d, ~ In "_"%char (chars d) -> k <> ("svd_" ++ d)%string /\ k <> ("nmf_" ++ d)%string.
Definition or_unknown (op : option string -> option transformation -> Prop) (unknown : string -> Prop) (o : option string) (t : option transformation) : Prop :=
  op o t \/ exists k, o = Some k /\ unknown k /\ t = None.
Definition means (c : combination) (ts : list (option transformation)) : Prop :=
  let '(w, x, r, n) := c in exists t1 t2 t3 t4, ts = [t1; t2; t3; t4] /\ or_unknown weighting_op unknown_weighting w t1 /\
    or_unknown selection_op unknown_selection x t2 /\ or_unknown reduction_op unknown_reduction r t3 /\ or_unknown normalization_op unknown_normalization n t4.
(** the combinations of four lists *)
Definition combos (ws xs rs ns : list (option string)) (c : combination) : Prop := let '(w, x, r, n) := c in In w ws /\ In x xs /\ In r rs /\ In n ns.
(** no two combinations that do different things have the same output file *)
Definition unambiguous (in_name : string) (ws xs rs ns : list (option string)) : Prop :=
  forall c c' ts ts', combos ws xs rs ns c -> combos ws xs rs ns c' -> core_file "" in_name c = core_file "" in_name c' -> means c ts -> means c' ts' -> ts = ts'.
(** the input: a pickled space, or the data file read by Space.build with the rows and columns files that are there; a sparse
    data file needs a columns file *)
Inductive input_space (fs : fsys) (prefix : string) (gz : bool) : string -> space -> Prop :=
| in_pkl : forall s, space_at fs (prefix ++ ".pkl") s -> input_space fs prefix gz "pkl" s
| in_text : forall fmt s rows cols, fmt = "dm" \/ (fmt = "sm" /\ cols <> None) ->
    (if exists_ fs (prefix ++ ".rows") then rows = Some (prefix ++ ".rows")%string else rows = None) ->
    (if exists_ fs (prefix ++ ".cols") then cols = Some (prefix ++ ".cols")%string else cols = None) ->
    build fs (Some (prefix ++ "." ++ fmt ++ (if gz then ".gz" else ""))%string) (Some fmt) rows cols = Ok s ->
    input_space fs prefix gz fmt s.
(** the text files of an export in format f (the texts are those of C47 and C48) *)
Definition exported (fs : fsys) (p f : string) (s : space) : Prop :=
  (exists t, ((f = "dm" /\ dense_text (s_mat s) (s_id2row s) = Ok t) \/ (f = "sm" /\ sparse_text (s_mat s) (s_id2row s) (s_id2col s) = Ok t)) /\ text_at fs (p ++ "." ++ f) t) /\
  text_at fs (p ++ ".rows") (list_text (s_id2row s)) /\ (s_col2id s <> [] -> text_at fs (p ++ ".cols") (list_text (s_id2col s))).
(** int() does not accept a point or a slash *)
Definition int_syntax : Prop := forall d z, iparse d = Some z -> ~ In "."%char (chars d) /\ ~ In "/"%char (chars d) /\ ~ In "_"%char (chars d).
End SpecCore.
