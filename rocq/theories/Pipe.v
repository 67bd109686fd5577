(** Pipe.v -- src/pipelines/*.py: the command line tools.
    A tool maps the file system and the command line (sys.argv[1:]) to the new file system.  getopt (Python 2.7's
    getopt.getopt) is modelled in full; ConfigParser, eval, os.listdir, str(numpy.matrix) and scipy.stats are the fields of
    [PipeIO].  Leaving the program by usage() / sys.exit is the exception SystemExit (exit codes are not modelled).
    Progress messages, warnings and the contents of log files are not modelled. *)
From Coq Require Import Ascii.
From Verif Require Import Base PyList Dict Num Dense Sparse Matrix Scaling Linalg Operation Similarity Space Peripheral Learner Composition Utils LexFun Str IO.
Local Open Scope string_scope.
Local Open Scope list_scope.
Local Open Scope nat_scope.

(** ** getopt.getopt(args, shortopts, longopts), Python 2.7; GetoptError always leads to usage(), i.e. SystemExit *)
Definition colon : ascii := ":"%char.
Definition dash : ascii := "-"%char.
Definition equals : ascii := "="%char.
Definition comma : ascii := ","%char.
(** getopt.short_has_arg *)
Fixpoint short_has_arg (c : ascii) (shortopts : string) : res bool :=
  match shortopts with
  | "" => Err SystemExit
  | String d r =>
      if Ascii.eqb c d && negb (Ascii.eqb d colon)
      then Ok (match r with String e _ => Ascii.eqb e colon | "" => false end)
      else short_has_arg c r
  end.
(** getopt.do_shorts: the options of one argument, and the option still waiting for its value *)
Fixpoint do_shorts (s shortopts : string) : res (list (string * string) * option string) :=
  match s with
  | "" => Ok ([], None)
  | String c r =>
      let* h := short_has_arg c shortopts in
      let o := String dash (str1 c) in
      if h then (if String.eqb r "" then Ok ([], Some o) else Ok ([(o, r)], None))
      else let* (os, w) := do_shorts r shortopts in Ok ((o, "") :: os, w)
  end.
(** str.index('=') : the part before and the part after *)
Fixpoint cut_equals (s : string) : string * option string :=
  match s with
  | "" => ("", None)
  | String c r => if Ascii.eqb c equals then ("", Some r) else let (a, b) := cut_equals r in (String c a, b)
  end.
(** getopt.long_has_args; a long option with a value is declared "name=" *)
Definition long_has_args (o : string) (longopts : list string) : res (bool * string) :=
  let possibilities := filter (String.prefix o) longopts in
  if existsb (String.eqb o) possibilities then Ok (false, o)
  else if existsb (String.eqb (o ++ "=")) possibilities then Ok (true, o)
  else match possibilities with
       | [u] => match cut_equals u with (n, Some "") => Ok (true, n) | _ => Ok (false, u) end
       | _ => Err SystemExit
       end.
(** getopt.getopt: the options with their values, and the remaining arguments *)
Fixpoint getopt (args : list string) (shortopts : string) (longopts : list string)
  : res (list (string * string) * list string) :=
  match args with
  | [] => Ok ([], [])
  | a :: rest =>
      match a with
      | String d (String c r) =>
          if negb (Ascii.eqb d dash) then Ok ([], args)
          else if Ascii.eqb c dash then
            if String.eqb r "" then Ok ([], rest)
            else
              let (n, v) := cut_equals r in
              let* (takes, o) := long_has_args n longopts in
              if takes then
                match v with
                | Some v => let* (os, more) := getopt rest shortopts longopts in Ok ((("--" ++ o)%string, v) :: os, more)
                | None => match rest with
                          | [] => Err SystemExit
                          | v :: rest => let* (os, more) := getopt rest shortopts longopts in Ok ((("--" ++ o)%string, v) :: os, more)
                          end
                end
              else match v with
                   | Some _ => Err SystemExit
                   | None => let* (os, more) := getopt rest shortopts longopts in Ok ((("--" ++ o)%string, "") :: os, more)
                   end
          else
            let* (os, w) := do_shorts (String c r) shortopts in
            match w with
            | None => let* (os', more) := getopt rest shortopts longopts in Ok (os ++ os', more)
            | Some o => match rest with
                        | [] => Err SystemExit
                        | v :: rest => let* (os', more) := getopt rest shortopts longopts in Ok (os ++ (o, v) :: os', more)
                        end
            end
      | _ => Ok ([], args)
      end
  end.

(** ** option tables: each main assigns its variables from the configuration file and then, in the order given, from the
    command line.  One row per variable: its configuration key, the options that set it, whether the value is split at
    commas, and its default (None for Python's None) *)
Inductive pval := PNone | PStr (s : string) | PList (l : list string).
Record optrow := OR { o_var : string; o_key : string; o_names : list string; o_split : bool; o_default : pval }.
Definition pconv (split : bool) (s : string) : pval := if split then PList (split_on comma s) else PStr s.
Definition env := string -> pval.
(** the values before the command line is looked at *)
Definition env0 (T : list optrow) (cfg : string -> option string) : env := fun v =>
  match find (fun r => String.eqb (o_var r) v) T with
  | Some r => match cfg (o_key r) with Some s => pconv (o_split r) s | None => o_default r end
  | None => PNone
  end.
(** one (opt, val) of the loop [for opt, val in opts]: the first branch that accepts opt; "-h", "--help" and anything
    else call usage *)
Definition env_step (T : list optrow) (e : env) (ov : string * string) : res env :=
  match find (fun r => existsb (String.eqb (fst ov)) (o_names r)) T with
  | Some r => Ok (fun v => if String.eqb v (o_var r) then pconv (o_split r) (snd ov) else e v)
  | None => Err SystemExit
  end.
Definition settings (T : list optrow) (cfg : string -> option string) (opts : list (string * string)) : res env :=
  foldM (env_step T) opts (env0 T cfg).
Definition get_str (e : env) (v : string) : option string := match e v with PStr s => Some s | _ => None end.
Definition get_list (e : env) (v : string) : option (list string) := match e v with PList l => Some l | _ => None end.
(** pipeline_utils.py:12-15 (assert_option_not_none) *)
Definition require {A} (o : option A) : res A := match o with Some a => Ok a | None => Err SystemExit end.

(** name.split("/")[-1]; ".".join(name.split("/")[-1].split(".")[0:-1]) *)
Definition base_name (p : string) : string := last_part (split_on slash p).
Definition stem_parts (p : string) : list string := removelast (split_on dot (base_name p)).
Definition stem (p : string) : string := join "." (stem_parts p).

Section Pipe.
Context {N : Num} {E : Ext} {FI : FloatIO}.
Class PipeIO := {
  (** ConfigParser: text of the file, section, option (the parser is total: malformed files are not modelled) *)
  cfg_opt : string -> string -> string -> option string;
  (** eval(s): [Some b] if the value equals True or False (so 1 and 0 too), [None] if it is another value *)
  py_eval : string -> res (option bool);
  (** os.listdir *)
  listdir : fsys -> string -> list string;
  (** str(numpy.matrix) *)
  mat_str : matrix -> string;
  (** scipy.stats.pearsonr(x, y)[0], spearmanr(x, y)[0] *)
  pearsonr : list F -> list F -> res F;
  spearmanr : list F -> list F -> res F }.
Context {PI : PipeIO}.

(** the configuration: only when exactly one argument is left; ConfigParser.read skips a file it cannot open, two of the
    mains open it first ([strict]); pipeline_utils.py:22-23 (config_get) *)
Definition read_config (strict : bool) (fs : fsys) (argv : list string) (section : string) : res (string -> option string) :=
  match argv with
  | [p] => match fs_file fs p with
           | Some (Text t) => Ok (cfg_opt t section)
           | Some (Pickle _) => Err ValueError
           | None => if strict then Err IOError else Ok (fun _ => None)
           end
  | _ => Ok (fun _ => None)
  end.
(** log_utils.py:11-15 (config_logging): the log file is opened for appending; what is logged is not modelled *)
Definition config_logging (fs : fsys) (file : option string) : res fsys :=
  match file with
  | None => Ok fs
  | Some p =>
      let* fs := create_parent_directories fs p in
      match fs_file fs p with Some _ => Ok fs | None => write_file fs p (Text "") end
  end.
(** eval(option) followed by pipeline_utils.py:7-10 (assert_bool) *)
Definition eval_bool (s : string) : res bool :=
  let* v := py_eval s in match v with Some b => Ok b | None => Err SystemExit end.
(** float(option) when it is not None *)
Definition opt_float (o : option string) : res (option F) :=
  match o with None => Ok None | Some s => let* x := parse_num s in Ok (Some x) end.
Definition parse_int (s : string) : res Z := match iparse s with Some z => Ok z | None => Err ValueError end.

(** ** build_core_space.py *)
(** build_core_space.py:76-93 (apply_weighting); the name None stands for Python's None *)
Definition apply_weighting (s : space) (w : option string) : res space :=
  match w with
  | None => Ok s
  | Some w =>
      if String.eqb w "none" then Ok s
      else if String.eqb w "plog" then space_apply s (TScale Plog)
      else if String.eqb w "ppmi" then space_apply s (TScale Ppmi)
      else if String.eqb w "epmi" then space_apply s (TScale Epmi)
      else if String.eqb w "plmi" then space_apply s (TScale Plmi)
      else Ok s
  end.
(** feature_selection.py:14-19, dimensionality_reduction.py:15-22: the constructors reject dimensions <= 0 *)
Definition reduced_dim (s : string) : res nat :=
  let* z := parse_int s in mk_reduced_dim z.
Definition underscore : ascii := "_"%char.
(** build_core_space.py:96-122 (apply_selection) *)
Definition apply_selection (w_space : space) (s : option string) : res space :=
  match s with
  | None => Ok w_space
  | Some s =>
      if String.eqb s "none" then Ok w_space
      else match split_on underscore s with
           | [s_type; s_criterion; s_red_dim] =>
               if negb (String.eqb s_type "top") then Ok w_space
               else if String.eqb s_criterion "sum" then let* k := reduced_dim s_red_dim in space_apply w_space (TFS CSum k)
               else if String.eqb s_criterion "length" then let* k := reduced_dim s_red_dim in space_apply w_space (TFS CLength k)
               else Ok w_space
           | _ => Ok w_space
           end
  end.
(** build_core_space.py:124-145 (apply_reduction) *)
Definition apply_reduction (s_space : space) (r : option string) : res space :=
  match r with
  | None => Ok s_space
  | Some r =>
      if String.eqb r "none" then Ok s_space
      else match split_on underscore r with
           | [r_type; r_dim_red] =>
               if String.eqb r_type "svd" then let* k := reduced_dim r_dim_red in space_apply s_space (TDim DSvd k)
               else if String.eqb r_type "nmf" then let* k := reduced_dim r_dim_red in space_apply s_space (TDim DNmf k)
               else Ok s_space
           | _ => Ok s_space
           end
  end.
(** build_core_space.py:147-163 (apply_normalization) *)
Definition apply_normalization (r_space : space) (n : option string) : res space :=
  match n with
  | None => Ok r_space
  | Some n =>
      if String.eqb n "none" then Ok r_space
      else if String.eqb n "all" then space_apply r_space (TScale (Norm CSum))
      else if String.eqb n "row" then space_apply r_space (TScale (RowNorm CLength))
      else Ok r_space
  end.
(** build_core_space.py:166-170: the name of the output *)
Definition space_descr (ops : list (option string)) : string :=
  join "." (flat_map (fun o => match o with
                               | Some n => if String.eqb n "" || String.eqb n "none" then [] else [n]
                               | None => [] end) ops).
(** build_core_space.py:166-174 (print_space), and the same steps in build_peripheral_space.py:98-101 and
    apply_composition.py:103-107 *)
Definition save_export (fs : fsys) (s : space) (out_file : string) (out_format : option string) : res fsys :=
  let* fs := save fs (OSpace s) (out_file ++ ".pkl") in
  match out_format with None => Ok fs | Some f => export fs s out_file (Some f) end.
Definition print_space (fs : fsys) (s : space) (out_dir : string) (ops : list (option string)) (out_format : option string) : res fsys :=
  save_export fs s (out_dir ++ "/" ++ space_descr ops) out_format.
(** build_core_space.py:181-204, build_peripheral_space.py:58-82 (build_raw_per_space) *)
Definition load_input (fs : fsys) (prefix fmt : string) (is_gz : bool) : res space :=
  let data_file := (prefix ++ "." ++ fmt)%string in
  let* _ := check (String.eqb fmt "sm" || String.eqb fmt "dm" || String.eqb fmt "pkl") ValueError in
  if String.eqb fmt "pkl" then load_space fs data_file
  else
    let data_file := if is_gz then (data_file ++ ".gz")%string else data_file in
    let rows := if exists_ fs (prefix ++ ".rows") then Some (prefix ++ ".rows")%string else None in
    let* cols := (if exists_ fs (prefix ++ ".cols") then Ok (Some (prefix ++ ".cols")%string)
                  else if String.eqb fmt "sm" then Err ValueError else Ok None) in
    build fs (Some data_file) (Some fmt) rows cols.
(** build_core_space.py:206-218: the nested loops *)
Definition run_combinations (fs : fsys) (s : space) (out_dir descr : string) (out_format : option string)
    (weightings selections reductions normalizations : list (option string)) : res fsys :=
  foldM (fun fs w =>
    let* w_space := apply_weighting s w in
    foldM (fun fs x =>
      let* s_space := apply_selection w_space x in
      foldM (fun fs r =>
        let* r_space := apply_reduction s_space r in
        foldM (fun fs n =>
          let* n_space := apply_normalization r_space n in
          print_space fs n_space out_dir [Some descr; w; x; r; n] out_format) normalizations fs) reductions fs) selections fs)
    weightings fs.
(** build_core_space.py:177-218 (build_spaces) *)
Definition build_spaces (fs : fsys) (in_prefix in_format out_dir : string) (out_format : option string)
    (weightings selections reductions normalizations : list (option string)) (is_gz : bool) : res fsys :=
  let* s := load_input fs in_prefix in_format is_gz in
  run_combinations fs s out_dir ("CORE_SS." ++ base_name in_prefix) out_format weightings selections reductions normalizations.
(** build_core_space.py:224-228, 234-290.  The lists default to [None] (here PNone) *)
Definition core_short : string := "hi:o:w:s:r:n:l:".
Definition core_long : list string :=
  ["help"; "input="; "output="; "weighting="; "selection="; "reduction="; "normalization="; "log="; "gz="; "input_format="; "output_format="].
Definition core_table : list optrow :=
  [OR "in_file_prefix" "input" ["-i"; "--input"] false PNone;
   OR "out_dir" "output" ["-o"; "--output"] false PNone;
   OR "gz" "gz" ["--gz"] false (PStr "False");
   OR "weightings" "weighting" ["-w"; "--weighting"] true PNone;
   OR "selections" "selection" ["-s"; "--selection"] true PNone;
   OR "reductions" "reduction" ["-r"; "--reduction"] true PNone;
   OR "normalizations" "normalization" ["-n"; "--normalization"] true PNone;
   OR "log_file" "log" ["-l"; "--log"] false PNone;
   OR "in_format" "input_format" ["--input_format"] false PNone;
   OR "out_format" "output_format" ["--output_format"] false PNone].
Definition names (l : option (list string)) : list (option string) := match l with Some l => map Some l | None => [None] end.
(** build_core_space.py:221-313 (main) *)
Definition main_core (fs : fsys) (args : list string) : res fsys :=
  let* (opts, argv) := getopt args core_short core_long in
  let* cfg := read_config true fs argv "build_core_space" in
  let* e := settings core_table cfg opts in
  let* fs := config_logging fs (get_str e "log_file") in
  let* in_prefix := require (get_str e "in_file_prefix") in
  let* out_dir := require (get_str e "out_dir") in
  let* in_format := require (get_str e "in_format") in
  let* gz := require (get_str e "gz") in
  let* gz := eval_bool gz in
  build_spaces fs in_prefix in_format out_dir (get_str e "out_format") (names (get_list e "weightings"))
    (names (get_list e "selections")) (names (get_list e "reductions")) (names (get_list e "normalizations")) gz.

(** ** build_peripheral_space.py *)
(** build_peripheral_space.py:91-106 (transform_raw_per_space) *)
Definition transform_raw (fs : fsys) (raw : space) (in_prefix out_dir : string) (out_format : option string) (core_file : string) : res fsys :=
  let* core := load_space fs core_file in
  let* s := mk_peripheral core (s_mat raw) (s_id2row raw) (Some (s_row2id raw)) in
  save_export fs s (out_dir ++ "/" ++ "PER_SS." ++ base_name in_prefix ++ "." ++ stem core_file) out_format.
(** build_peripheral_space.py:85-88 (build_space) *)
Definition build_per_space (fs : fsys) (in_prefix in_format out_dir : string) (out_format : option string) (core_file : string) (is_gz : bool) : res fsys :=
  let* raw := load_input fs in_prefix in_format is_gz in
  transform_raw fs raw in_prefix out_dir out_format core_file.
(** str.find(sub) != -1 *)
Fixpoint contains (sub s : string) : bool :=
  String.prefix sub s || match s with "" => false | String _ r => contains sub r end.
Definition with_slash (d : string) : string := if ends_with d "/" then d else (d ++ "/")%string.
(** build_peripheral_space.py:109-126 (build_space_batch) *)
Definition build_per_batch (fs : fsys) (in_prefix in_format out_dir : string) (out_format : option string) (core_in_dir core_filter : string) (is_gz : bool) : res fsys :=
  let* raw := load_input fs in_prefix in_format is_gz in
  let* _ := check (exists_ fs core_in_dir) ValueError in
  let d := with_slash core_in_dir in
  foldM (fun fs f => if contains core_filter f && ends_with f ".pkl"
                     then transform_raw fs raw in_prefix out_dir out_format (d ++ f) else Ok fs) (listdir fs d) fs.
(** build_peripheral_space.py:131-134, 140-185 *)
Definition per_short : string := "hi:o:c:l:".
Definition per_long : list string :=
  ["help"; "input="; "output="; "core="; "log="; "input_format="; "output_format="; "core_in_dir="; "core_filter="; "gz="].
Definition per_table : list optrow :=
  [OR "in_file_prefix" "input" ["-i"; "--input"] false PNone;
   OR "out_dir" "output" ["-o"; "--output"] false PNone;
   OR "gz" "gz" ["--gz"] false (PStr "False");
   OR "core_space_file" "core" ["-c"; "--core"] false PNone;
   OR "log_file" "log" ["-l"; "--log"] false (PStr "./build_core_space.log");
   OR "in_format" "input_format" ["--input_format"] false PNone;
   OR "out_format" "output_format" ["--output_format"] false PNone;
   OR "core_in_dir" "core_in_dir" ["--core_in_dir"] false PNone;
   OR "core_filter" "core_filter" ["--core_filter"] false (PStr "")].
(** build_peripheral_space.py:129-200 (main) *)
Definition main_peripheral (fs : fsys) (args : list string) : res fsys :=
  let* (opts, argv) := getopt args per_short per_long in
  let* cfg := read_config false fs argv "build_peripheral_space" in
  let* e := settings per_table cfg opts in
  let* fs := config_logging fs (get_str e "log_file") in
  let* in_prefix := require (get_str e "in_file_prefix") in
  let* out_dir := require (get_str e "out_dir") in
  let* in_format := require (get_str e "in_format") in
  let* gz := require (get_str e "gz") in
  let* gz := eval_bool gz in
  match get_str e "core_in_dir" with
  | Some d => let* filter_ := require (get_str e "core_filter") in build_per_batch fs in_prefix in_format out_dir (get_str e "out_format") d filter_ gz
  | None => let* core := require (get_str e "core_space_file") in build_per_space fs in_prefix in_format out_dir (get_str e "out_format") core gz
  end.

(** ** train_composition.py *)
Definition to_tuple3 (l : list string) : res tuple3 := match l with [a; b; c] => Ok (a, b, c) | _ => Err ValueError end.
(** io_utils.read_tuple_list(file, fields=[0, 1, 2]) *)
Definition read_tuples (fs : fsys) (p : string) : res (list tuple3) :=
  let* t := read_text fs p in
  let* l := read_tuple_list t [0%Z; 1%Z; 2%Z] in mapM to_tuple3 l.
(** io_utils.load(file, Space) of the optional second space: only when exactly two files are given *)
Definition load_second (fs : fsys) (files : list string) : res (option space) :=
  match files with [_; f] => let* s := load_space fs f in Ok (Some s) | _ => Ok None end.
Definition head_file (files : list string) : res string := match files with f :: _ => Ok f | [] => Err IndexError end.
(** the value of the variable [param]: a number, or a piece of text (see [train_params]) *)
Inductive lamval := LNum (x : F) | LText (s : string).
(** regression_learner.py:64-90 with that argument: text is stored like a number (it is not None); in the learner object a
    param that is not a number is represented by None *)
Definition make_ridge (icpt cv : bool) (param : option lamval) (range : option (list F)) : res learner :=
  match param with
  | Some (LText _) => Ok (LRidge icpt cv (match range with Some r => r | None => default_range end) None)
  | Some (LNum x) => mk_ridge (Some icpt) range (Some cv) (Some x)
  | None => mk_ridge (Some icpt) range (Some cv) None
  end.
(** train_composition.py:102-121: the learner *)
Definition make_learner (regression : option string) (cv icpt : bool) (param : option lamval) (range : option (list F)) : res (option learner) :=
  match regression with
  | Some r =>
      if String.eqb r "ridge" then let* L := make_ridge icpt cv param range in Ok (Some L)
      else if String.eqb r "lstsq" then Ok (Some (mk_lstsq (Some icpt)))
      else Ok None
  | None => Ok None
  end.
(** train_composition.py:97-121: the model object *)
Definition make_model (model : string) (regression : option string) (cv icpt : bool) (param : option lamval) (range : option (list F)) : res pobj :=
  if String.eqb model "weighted_add" then Ok (OComp (mk_wadd None None))
  else if String.eqb model "dilation" then Ok (OComp (mk_dil None))
  else if String.eqb model "full_add" then
    let* L := make_learner regression cv icpt param range in Ok (OComp (mk_fadd None L))
  else if String.eqb model "lexical_func" then
    let* L := make_learner regression cv icpt param range in let* m := mk_lexfun None None L in Ok (OLex m)
  else Err ValueError.
(** train_composition.py:125-129: one argument space, or two except for lexical functions *)
Definition train_obj (o : pobj) (data : list tuple3) (arg : space) (arg2 : option space) (phrase : space) : res pobj :=
  match o with
  | OComp m =>
      let '(m', r) := train m data (match arg2 with None => One arg | Some s2 => Tup [arg; s2] end) phrase in
      let* _ := r in Ok (OComp m')
  | OLex m => let '(m', r) := lf_train m data arg phrase in let* _ := r in Ok (OLex m')
  | OSpace _ => Err AttributeError
  end.
(** composition_model.py:216-227 (export) and the _export methods: weighted_additive.py:125-128, dilation.py:89-91,
    full_additive.py:115-129, lexical_function.py:297-300; multiplicative.py:38-42
    replaces export by a method that raises (before any directory is created) *)
Definition export_model (fs : fsys) (o : pobj) (file : string) : res fsys :=
  let* fs := create_parent_directories fs file in
  match o with
  | OComp m =>
      match cm_kind m with
      | WAdd a b => write_file fs file (Text ("alpha" ++ tabs ++ ffmt a ++ nl ++ "beta" ++ tabs ++ ffmt b)%string)
      | Dil l => write_file fs file (Text ("lambda" ++ tabs ++ ffmt l)%string)
      | Mult => Err IllegalOperationError
      | FAdd None _ _ => Err IllegalStateError
      | FAdd (Some (a, b)) icpt _ =>
          let txt m := mat_str (m_transpose (conv TDense m)) in
          let* tail := (if icpt : bool then
                          let* b1 := m_slice_rows b 0 (m_nr b - 1) in
                          let* b2 := m_slice_rows b (m_nr b - 1) (m_nr b) in
                          Ok (txt b1 ++ nl ++ "Intercept" ++ nl ++ txt b2)%string
                        else Ok (txt b)) in
          write_file fs file (Text ("A" ++ nl ++ txt a ++ nl ++ "B" ++ nl ++ tail)%string)
      end
  | OLex m => match lf_fs m with None => Err IllegalStateError | Some s => export fs s file (Some "dm") end
  | OSpace _ => Err AttributeError
  end.
(** train_composition.py:74-129 (train_model); the model name is checked after the spaces are loaded *)
Definition train_model (fs : fsys) (in_file out_dir model : string) (arg_files : list string) (phrase_file : string)
    (regression : option string) (cv icpt : bool) (param : option lamval) (range : option (list F)) (export_params : bool) : res fsys :=
  let* f1 := head_file arg_files in
  let* arg := load_space fs f1 in
  let* arg2 := load_second fs arg_files in
  let* phrase := load_space fs phrase_file in
  let* o := make_model model regression cv icpt param range in
  let* data := read_tuples fs in_file in
  let* o := train_obj o data arg arg2 phrase in
  let out_file := join "." [(out_dir ++ "/TRAINED_COMP_MODEL")%string; model; base_name in_file] in
  let* fs := save fs o (out_file ++ ".pkl") in
  if export_params then export_model fs o (out_file ++ ".params") else Ok fs.
(** train_composition.py:134-138, 145-210 *)
Definition train_short : string := "hi:o:m:r:a:p:l:".
Definition train_long : list string :=
  ["help"; "input="; "output="; "model="; "regression="; "intercept="; "arg_space="; "phrase_space="; "export_params=";
   "log="; "crossvalidation="; "lambda_range="; "lambda="].
Definition train_table : list optrow :=
  [OR "in_file" "input" ["-i"; "--input"] false PNone;
   OR "out_dir" "output" ["-o"; "--output"] false PNone;
   OR "model" "model" ["-m"; "--model"] false PNone;
   OR "arg_space" "arg_space" ["-a"; "--arg_space"] true PNone;
   OR "phrase_space" "phrase_space" ["-p"; "--phrase_space"] false PNone;
   OR "regression" "regression" ["-r"; "--regression"] false PNone;
   OR "crossvalidation" "crossvalidation" ["--crossvalidation"] false (PStr "False");
   OR "intercept" "intercept" ["--intercept"] false (PStr "True");
   OR "param" "lambda" ["--lambda"] false PNone;
   OR "param_range" "lambda_range" ["--lambda_range"] true PNone;
   OR "export_params" "export_params" ["--export_params"] false (PStr "False");
   OR "log_file" "log" ["-l"; "--log"] false PNone].
(** pipeline_utils.py:7-10 (assert_bool) of an evaluated option *)
Definition assert_bool (v : option bool) : res bool := require v.
(** train_composition.py:227-230.  The list comprehension of line 230 assigns the variable [param] (Python 2 list
    comprehensions have no scope of their own): afterwards param is the text of the last value of the range, and the
    value of --lambda, converted by lines 227-228, is lost *)
Definition train_params (param : option string) (range : option (list string)) : res (option lamval * option (list F)) :=
  let* p := opt_float param in
  match range with
  | None => Ok (option_map LNum p, None)
  | Some l => let* r := mapM parse_num l in Ok (Some (LText (last l "")), Some r)
  end.
(** train_composition.py:132-236 (main) *)
Definition main_train (fs : fsys) (args : list string) : res fsys :=
  let* (opts, argv) := getopt args train_short train_long in
  let* cfg := read_config false fs argv "train_composition" in
  let* e := settings train_table cfg opts in
  let* fs := config_logging fs (get_str e "log_file") in
  let* in_file := require (get_str e "in_file") in
  let* out_dir := require (get_str e "out_dir") in
  let* model := require (get_str e "model") in
  let* arg_space := require (get_list e "arg_space") in
  let* phrase_space := require (get_str e "phrase_space") in
  let* cv := require (get_str e "crossvalidation") in
  let* icpt := require (get_str e "intercept") in
  let* cv := py_eval cv in
  let* icpt := py_eval icpt in
  let* icpt := assert_bool icpt in
  let* cv := assert_bool cv in
  let* ex := require (get_str e "export_params") in
  let* ex := eval_bool ex in
  let* (param, range) := train_params (get_str e "param") (get_list e "param_range") in
  let* _ := (match get_str e "regression" with
             | Some r => if negb cv && String.eqb r "ridge" then let* _ := require param in Ok tt else Ok tt
             | None => Ok tt end) in
  train_model fs in_file out_dir model arg_space phrase_space (get_str e "regression") cv icpt param range ex.

(** ** apply_composition.py *)
(** apply_composition.py:57-74 (create_model) *)
Definition create_model (model : string) (alpha beta lambda : option F) : res pobj :=
  if String.eqb model "weighted_add" then Ok (OComp (mk_wadd alpha beta))
  else if String.eqb model "dilation" then Ok (OComp (mk_dil lambda))
  else if String.eqb model "mult" then Ok (OComp mk_mult)
  else Err ValueError.
(** io_utils.py:31-38 (load) of a CompositionModel *)
Definition load_model (fs : fsys) (p : string) : res pobj :=
  match fs_file fs p with
  | Some (Pickle (OSpace _)) => Err TypeError
  | Some (Pickle o) => Ok o
  | Some (Text _) => Err ValueError
  | None => Err IOError
  end.
(** type(model_obj).__name__ *)
Definition class_name (o : pobj) : string :=
  match o with
  | OComp m => match cm_kind m with
               | WAdd _ _ => "WeightedAdditive" | Mult => "Multiplicative" | Dil _ => "Dilation" | FAdd _ _ _ => "FullAdditive" end
  | OLex _ => "LexicalFunction"
  | OSpace _ => "Space"
  end.
(** apply_composition.py:97-101: compose; one argument space, or two except for lexical functions *)
Definition compose_obj (o : pobj) (data : list tuple3) (arg : space) (arg2 : option space) : res space :=
  match o with
  | OComp m => snd (compose m data (match arg2 with None => One arg | Some s2 => Tup [arg; s2] end))
  | OLex m => lf_compose m data arg
  | OSpace _ => Err AttributeError
  end.
(** apply_composition.py:77-110 (apply_model) *)
Definition apply_model (fs : fsys) (in_file out_dir : string) (model trained : option string) (arg_files : list string)
    (alpha beta lambda : option F) (out_format : option string) : res fsys :=
  let* o := (match model with
             | Some m => create_model m alpha beta lambda
             | None => let* f := require trained in load_model fs f end) in
  let* f1 := head_file arg_files in
  let* arg := load_space fs f1 in
  let* arg2 := load_second fs arg_files in
  let* data := read_tuples fs in_file in
  let* s := compose_obj o data arg arg2 in
  save_export fs s (join "." [(out_dir ++ "/COMPOSED_SS")%string; class_name o; base_name in_file]) out_format.
(** apply_composition.py:115-118, 125-177 *)
Definition apply_short : string := "hi:o:m:a:l:".
Definition apply_long : list string :=
  ["help"; "input="; "output="; "model="; "alpha="; "beta="; "lambda="; "arg_space="; "load_model="; "output_format="; "log="].
Definition apply_table : list optrow :=
  [OR "in_file" "input" ["-i"; "--input"] false PNone;
   OR "out_dir" "output" ["-o"; "--output"] false PNone;
   OR "model" "model" ["-m"; "--model"] false PNone;
   OR "arg_space" "arg_space" ["-a"; "--arg_space"] true PNone;
   OR "trained_model" "load_model" ["--load_model"] false PNone;
   OR "alpha" "alpha" ["--alpha"] false PNone;
   OR "beta" "beta" ["--beta"] false PNone;
   OR "lambda_" "lambda" ["--lambda"] false PNone;
   OR "out_format" "output_format" ["--output_format"] false PNone;
   OR "log_file" "log" ["-l"; "--log"] false PNone].
(** apply_composition.py:113-195 (main); pipeline_utils.py:17-20 (assert_xor_options) *)
Definition main_apply (fs : fsys) (args : list string) : res fsys :=
  let* (opts, argv) := getopt args apply_short apply_long in
  let* cfg := read_config false fs argv "apply_composition" in
  let* e := settings apply_table cfg opts in
  let* fs := config_logging fs (get_str e "log_file") in
  let* in_file := require (get_str e "in_file") in
  let* out_dir := require (get_str e "out_dir") in
  let* _ := (match get_str e "model", get_str e "trained_model" with
             | Some _, None | None, Some _ => Ok tt
             | _, _ => Err SystemExit end) in
  let* arg_space := require (get_list e "arg_space") in
  let* alpha := opt_float (get_str e "alpha") in
  let* beta := opt_float (get_str e "beta") in
  let* lambda := opt_float (get_str e "lambda_") in
  apply_model fs in_file out_dir (get_str e "model") (get_str e "trained_model") arg_space alpha beta lambda (get_str e "out_format").

(** ** compute_similarities.py *)
(** compute_similarities.py:85-88, compute_neighbours.py:55-58: sim_dict *)
Definition measure (m : string) : option similarity :=
  if String.eqb m "cos" then Some Cos else if String.eqb m "lin" then Some Lin
  else if String.eqb m "dot_prod" then Some Dot else if String.eqb m "euclidean" then Some Euclid else None.
(** compute_similarities.py:104-111: descr *)
Definition sims_descr (kind in_file : string) (space_files : list string) : res string :=
  match space_files with
  | [f; g] => Ok (join "." [kind; base_name in_file; join "." (stem f :: stem_parts g)])
  | f :: _ => Ok (join "." [kind; base_name in_file; stem f])
  | [] => Err IndexError
  end.
(** compute_similarities.py:121-128: one line of the input *)
Definition sim_line (s : space) (s2 : option space) (sim : similarity) (col0 col1 : Z) (out line : string) : res string :=
  if String.eqb (strip line) "" then Ok out
  else
    let elems := split (strip line) in
    let* w1 := py_nth elems col0 in
    let* w2 := py_nth elems col1 in
    let* x := get_sim s w1 w2 sim s2 in
    Ok (out ++ strip line ++ " " ++ fstr x ++ nl)%string.
(** compute_similarities.py:113-128: one measure.  The input is read before the output is opened; it cannot be the output,
    whose name is longer *)
Definition sim_measure_step (in_file out_dir descr : string) (s : space) (s2 : option space) (col0 col1 : Z) (fs : fsys) (m : string) : res fsys :=
  match measure m with
  | None => Ok fs
  | Some sim =>
      let out_file := (out_dir ++ "/" ++ descr ++ "." ++ m)%string in
      let* fs := create_parent_directories fs out_file in
      let* t := read_text fs in_file in
      let* out := foldM (sim_line s s2 sim col0 col1) (flines t) "" in
      write_file fs out_file (Text out)
  end.
(** compute_similarities.py:83-128 (compute_sim) *)
Definition compute_sim (fs : fsys) (in_file : string) (columns : list string) (out_dir : string) (measures : list string) (space_files : list string) : res fsys :=
  match columns with
  | [c0; c1] =>
      let* i0 := parse_int c0 in
      let* i1 := parse_int c1 in
      let* f := head_file space_files in
      match load_space fs f with
      | Err TypeError => Ok fs
      | Err e => Err e
      | Ok s =>
          let* s2 := load_second fs space_files in
          let* descr := sims_descr "SIMS" in_file space_files in
          foldM (sim_measure_step in_file out_dir descr s s2 (i0 - 1) (i1 - 1)) measures fs
      end
  | _ => Err ValueError
  end.
(** compute_similarities.py:67-80 (compute_sim_batch) *)
Definition compute_sim_batch (fs : fsys) (in_file : string) (columns : list string) (out_dir : string) (measures : list string) (in_dir : string) : res fsys :=
  let* _ := check (exists_ fs in_dir) ValueError in
  let d := with_slash in_dir in
  foldM (fun fs f => if ends_with f ".pkl" then compute_sim fs in_file columns out_dir measures [(d ++ f)%string] else Ok fs) (listdir fs d) fs.
(** compute_similarities.py:133-135, 142-187 *)
Definition sim_short : string := "hi:o:s:m:c:l:".
Definition sim_long : list string := ["help"; "input="; "output="; "sim_measures="; "space="; "in_dir="; "columns="; "log="].
Definition sim_table : list optrow :=
  [OR "in_file" "input" ["-i"; "--input"] false PNone;
   OR "out_dir" "output" ["-o"; "--output"] false PNone;
   OR "in_dir" "in_dir" ["--in_dir"] false PNone;
   OR "sim_measures" "sim_measures" ["-m"; "--sim_measures"] true PNone;
   OR "spaces" "space" ["-s"; "--space"] true PNone;
   OR "columns" "columns" ["-c"; "--columns"] true PNone;
   OR "log_file" "log" ["-l"; "--log"] false PNone].
(** compute_similarities.py:131-201 (main) *)
Definition main_sim (fs : fsys) (args : list string) : res fsys :=
  let* (opts, argv) := getopt args sim_short sim_long in
  let* cfg := read_config false fs argv "compute_similarities" in
  let* e := settings sim_table cfg opts in
  let* fs := config_logging fs (get_str e "log_file") in
  let* in_file := require (get_str e "in_file") in
  let* out_dir := require (get_str e "out_dir") in
  let* measures := require (get_list e "sim_measures") in
  let* columns := require (get_list e "columns") in
  match get_str e "in_dir" with
  | Some d => compute_sim_batch fs in_file columns out_dir measures d
  | None => let* spaces := require (get_list e "spaces") in compute_sim fs in_file columns out_dir measures spaces
  end.

(** ** compute_neighbours.py *)
(** compute_neighbours.py:80-86: one word *)
Definition neigh_text (s : space) (s2 : option space) (sim : similarity) (k : Z) (out word : string) : res string :=
  let* l := get_neighbours s word k sim s2 in
  Ok (out ++ word ++ nl ++ String.concat "" (map (fun nx : string * F => (tabs ++ fst nx ++ " " ++ fstr (snd nx) ++ nl)%string) l))%string.
(** compute_neighbours.py:54-86 (compute_neighbours) *)
Definition compute_neighbours (fs : fsys) (in_file : string) (k : Z) (out_dir sim_measure : string) (space_files : list string) : res fsys :=
  match measure sim_measure with
  | None => Err ValueError
  | Some sim =>
      let* f := head_file space_files in
      let* s := load_space fs f in
      let* s2 := load_second fs space_files in
      let* descr := sims_descr "NEIGHBOURS" in_file space_files in
      let out_file := (out_dir ++ "/" ++ descr ++ "." ++ sim_measure)%string in
      let* fs := create_parent_directories fs out_file in
      let* t := read_text fs in_file in
      let* data := read_list t None in
      let* out := foldM (neigh_text s s2 sim k) data "" in
      write_file fs out_file (Text out)
  end.
(** compute_neighbours.py:90-92, 98-140: getopt accepts --sim_measures, the loop only looks for --sim_measure *)
Definition neigh_short : string := "hi:o:s:m:n:l:".
Definition neigh_long : list string := ["help"; "input="; "output="; "sim_measures="; "space="; "log="; "no_neighbours="].
Definition neigh_table : list optrow :=
  [OR "in_file" "input" ["-i"; "--input"] false PNone;
   OR "out_dir" "output" ["-o"; "--output"] false PNone;
   OR "sim_measure" "sim_measure" ["-m"; "--sim_measure"] false PNone;
   OR "spaces" "space" ["-s"; "--space"] true PNone;
   OR "no_neighbours" "no_neighbours" ["-n"; "--no_neighbours"] false (PStr "20");
   OR "log_file" "log" ["-l"; "--log"] false PNone].
(** compute_neighbours.py:88-155 (main) *)
Definition main_neighbours (fs : fsys) (args : list string) : res fsys :=
  let* (opts, argv) := getopt args neigh_short neigh_long in
  let* cfg := read_config true fs argv "compute_neighbours" in
  let* e := settings neigh_table cfg opts in
  let* fs := config_logging fs (get_str e "log_file") in
  let* k := require (get_str e "no_neighbours") in
  let* k := parse_int k in
  let* in_file := require (get_str e "in_file") in
  let* out_dir := require (get_str e "out_dir") in
  let* m := require (get_str e "sim_measure") in
  let* spaces := require (get_list e "spaces") in
  compute_neighbours fs in_file k out_dir m spaces.

(** ** evaluate_similarities.py: writes to the standard output only *)
(** evaluate_similarities.py:63-69: one line *)
Definition eval_line (col0 col1 : Z) (acc : list F * list F) (line : string) : res (list F * list F) :=
  if String.eqb (strip line) "" then Ok acc
  else
    let elems := split (strip line) in
    let* g := py_nth elems col0 in
    let* g := parse_num g in
    let* p := py_nth elems col1 in
    let* p := parse_num p in
    Ok (fst acc ++ [g], snd acc ++ [p]).
(** evaluate_similarities.py:71-74: one measure *)
Definition eval_measure (gold prediction : list F) (out m : string) : res string :=
  let* x := score pearsonr spearmanr gold prediction m in
  Ok (out ++ "CORRELATION:" ++ m ++ nl ++ tabs ++ ffmt x ++ nl)%string.
(** evaluate_similarities.py:52-74 (evaluate_sim): the text printed *)
Definition evaluate_sim (fs : fsys) (in_file : string) (columns : list string) (measures : list string) : res string :=
  match columns with
  | [c0; c1] =>
      let* i0 := parse_int c0 in
      let* i1 := parse_int c1 in
      let* t := read_text fs in_file in
      let* (gold, prediction) := foldM (eval_line (i0 - 1) (i1 - 1)) (flines t) ([], []) in
      foldM (eval_measure gold prediction) measures ""
  | _ => Err ValueError
  end.
(** evaluate_similarities.py:77-88 (evaluate_sim_batch) *)
Definition evaluate_sim_batch (fs : fsys) (in_dir : string) (columns : list string) (measures : list string) (filter_ : string) : res string :=
  let* _ := check (exists_ fs in_dir) ValueError in
  let d := with_slash in_dir in
  foldM (fun out f => if contains filter_ f
                      then let* t := evaluate_sim fs (d ++ f) columns measures in Ok (out ++ f ++ nl ++ t)%string
                      else Ok out) (listdir fs d) "".
(** evaluate_similarities.py:93-95, 102-141 *)
Definition eval_short : string := "hi:m:c:l:".
Definition eval_long : list string := ["help"; "input="; "correlation_measure="; "columns="; "log="; "in_dir="; "filter="].
Definition eval_table : list optrow :=
  [OR "in_file" "input" ["-i"; "--input"] false PNone;
   OR "corr_measures" "correlation_measure" ["-m"; "--correlation_measure"] true PNone;
   OR "columns" "columns" ["-c"; "--columns"] true PNone;
   OR "in_dir" "in_dir" ["--in_dir"] false PNone;
   OR "filter_" "filter" ["--filter"] false (PStr "");
   OR "log_file" "log" ["-l"; "--log"] false PNone].
(** evaluate_similarities.py:91-160 (main): the text printed and the new file system *)
Definition main_evaluate (fs : fsys) (args : list string) : res (string * fsys) :=
  let* (opts, argv) := getopt args eval_short eval_long in
  let* cfg := read_config false fs argv "evaluate_similarities" in
  let* e := settings eval_table cfg opts in
  let* fs := config_logging fs (get_str e "log_file") in
  let* measures := require (get_list e "corr_measures") in
  let* columns := require (get_list e "columns") in
  let* _ := check (Nat.eqb (length columns) 2) ValueError in
  let* out := (match get_str e "in_dir" with
               | Some d => let* f := require (get_str e "filter_") in evaluate_sim_batch fs d columns measures f
               | None => let* f := require (get_str e "in_file") in evaluate_sim fs f columns measures
               end) in
  Ok (out, fs).
End Pipe.
