(** Crash.v -- what a run of the command line tools does to the disk, step by step: also when it raises or is killed.
    IO.v and Pipe.v give the file system after a run that ends normally.  Here every function that writes is modelled again
    as the sequence of its effects together with its result, in the order of the Python code.  A run that raises has the
    effects before the exception; a process that is killed has performed some first part of its effects.  Files are written
    character by character, so that a buffer may have been written to any point; all files are written inside `with`, so a
    file is complete before the next one is opened.  What the operating system loses when the machine itself goes down is
    not modelled.
    A pickle is a sequence of bytes ([dump_bytes], io_utils.py:23 with pickle protocol 2; the second attempt with protocol 0
    after struct.error is not modelled); it loads only when it is complete, and until then the file counts as text. *)
From Coq Require Import Ascii.
From Verif Require Import Base PyList Dict Num Dense Sparse Matrix Scaling Linalg Operation Similarity Space Peripheral Learner Composition Utils LexFun Str IO Pipe.
Local Open Scope string_scope.
Local Open Scope list_scope.
Local Open Scope nat_scope.

Section Crash.
Context {N : Num} {E : Ext} {FI : FloatIO} {PI : PipeIO}.
Class PickleIO := { dump_bytes : pobj -> string }.
Context {KI : PickleIO}.

(** ** effects on the disk *)
Inductive event :=
| Emkdir (p : string)                (* os.mkdir(p) *)
| Eopen (p : string)                 (* open(p, 'w'), or creating p when it is opened for appending *)
| Eput (p : string) (c : ascii)      (* one more character of p *)
| Eseal (p : string) (o : pobj).     (* the last byte of a pickle *)
Definition put (c : ascii) (x : option content) : option content :=
  match x with Some (Text s) => Some (Text (s ++ str1 c)) | _ => x end.
Definition effect (fs : fsys) (e : event) : fsys :=
  match e with
  | Emkdir p => FS (fs_file fs) (fun q => String.eqb q p || fs_dir fs q)
  | Eopen p => FS (fun q => if String.eqb q p then Some (Text "") else fs_file fs q) (fs_dir fs)
  | Eput p c => FS (fun q => if String.eqb q p then put c (fs_file fs q) else fs_file fs q) (fs_dir fs)
  | Eseal p o => FS (fun q => if String.eqb q p then Some (Pickle o) else fs_file fs q) (fs_dir fs)
  end.
Definition replay (fs : fsys) (l : list event) : fsys := fold_left effect l fs.
(** a run: its effects and its result *)
Definition tr (A : Type) := (list event * res A)%type.
Definition lift {A} (r : res A) : tr A := ([], r).
Definition tbind {A B} (m : tr A) (k : A -> tr B) : tr B :=
  match m with
  | (l, Ok a) => (l ++ fst (k a), snd (k a))
  | (l, Err e) => (l, Err e)
  end.
Notation "'let^' x ':=' e 'in' k" := (tbind e (fun x => k))
  (at level 200, x pattern, e at level 100, k at level 200, right associativity).
Fixpoint foldT {A S} (f : S -> A -> tr S) (l : list A) (s : S) : tr S :=
  match l with
  | [] => lift (Ok s)
  | x :: xs => let^ s' := f s x in foldT f xs s'
  end.
(** the disk when the run is killed after [n] effects; a run that raises leaves the disk of its last effect *)
Definition disk_at (fs : fsys) (t : tr fsys) (n : nat) : fsys := replay fs (firstn n (fst t)).

(** ** writing *)
(** os.mkdir *)
Definition t_mkdir (fs : fsys) (p : string) : tr fsys :=
  match mkdir fs p with Ok fs => ([Emkdir p], Ok fs) | Err e => ([], Err e) end.
(** os.makedirs, as in IO.v *)
Fixpoint t_makedirs (n : nat) (fs : fsys) (p : string) : tr fsys :=
  match n with
  | 0 => lift (Err OSError)
  | S n =>
      let (head, tail) := path_split p in
      let (head, tail) := if String.eqb tail "" then path_split head else (head, tail) in
      let^ fs := (if negb (String.eqb head "") && negb (String.eqb tail "") && negb (exists_ fs head)
                  then t_makedirs n fs head else lift (Ok fs)) in
      if String.eqb tail "." then lift (Ok fs) else t_mkdir fs p
  end.
(** io_utils.py:46-50 (create_parent_directories) *)
Definition t_parents (fs : fsys) (p : string) : tr fsys :=
  let d := dirname p in
  if exists_ fs d then lift (Ok fs) else t_makedirs (S (String.length d)) fs d.
(** open(p, 'w') *)
Definition t_open (fs : fsys) (p : string) : tr fsys :=
  match write_file fs p (Text "") with Ok fs => ([Eopen p], Ok fs) | Err e => ([], Err e) end.
(** f.write(s), f being p *)
Definition t_put (fs : fsys) (p s : string) : tr fsys :=
  let l := map (Eput p) (list_ascii_of_string s) in (l, Ok (replay fs l)).
(** a loop that computes a piece of text for every element and writes it *)
Fixpoint t_scan {A S} (p : string) (g : S -> A -> res (S * string)) (l : list A) (st : S) (fs : fsys) : tr fsys :=
  match l with
  | [] => lift (Ok fs)
  | x :: l =>
      let^ (st, s) := lift (g st x) in
      let^ fs := t_put fs p s in
      t_scan p g l st fs
  end.
(** with open(p, 'w') as f: such a loop *)
Definition t_write {A S} (fs : fsys) (p : string) (g : S -> A -> res (S * string)) (l : list A) (st : S) : tr fsys :=
  let^ fs := t_open fs p in t_scan p g l st fs.
(** with open(p, 'w') as f: pickle.dump(o, f, 2) *)
Definition t_dump (fs : fsys) (p : string) (o : pobj) : tr fsys :=
  let^ fs := t_open fs p in
  let^ fs := t_put fs p (dump_bytes o) in
  ([Eseal p o], Ok (effect fs (Eseal p o))).
(** io_utils.py:20-28 (save) *)
Definition t_save (fs : fsys) (o : pobj) (p : string) : tr fsys :=
  let^ fs := t_parents fs p in t_dump fs p o.

(** ** Space.export *)
(** io_utils.py:243-246 (print_list) *)
Definition t_print_list (fs : fsys) (l : list string) (p : string) : tr fsys :=
  t_write fs p (fun (_ : unit) x => Ok (tt, (x ++ nl)%string)) l tt.
(** io_utils.py:249-276 (print_cooc_mat_sparse_format): nothing is opened when there are no columns; the two nested loops
    over a dense matrix are one loop over the pairs *)
Definition dense_cell (d : dmat) (id2row id2col : list string) (_ : unit) (ij : nat * nat) : res (unit * string) :=
  if feqb (dent d (fst ij) (snd ij)) f0 then Ok (tt, "")
  else
    let* r := py_nth id2row (Z.of_nat (fst ij)) in
    let* c := py_nth id2col (Z.of_nat (snd ij)) in
    Ok (tt, cell_text r c (dent d (fst ij) (snd ij))).
Definition stored_cell (c : csr) (id2row id2col : list string) (st : nat * nat * string) (i : nat)
  : res ((nat * nat * string) * string) :=
  let* (s, st) := sparse_cell c id2row id2col ("", st) i in Ok (st, s).
Definition t_print_sparse (fs : fsys) (m : matrix) (id2row id2col : list string) (p : string) : tr fsys :=
  let^ _ := lift (check (negb (Nat.eqb (length id2col) 0)) ValueError) in
  match m with
  | MS c =>
      let^ fs := t_open fs p in
      let^ next_row := lift (py_nth (s_ptr c) 1%Z) in
      let^ row := lift (py_nth id2row 0%Z) in
      t_scan p (stored_cell c id2row id2col) (seq 0 (length (s_data c))) (0, next_row, row) fs
  | MD d => t_write fs p (dense_cell d id2row id2col) (list_prod (seq 0 (d_nr d)) (seq 0 (d_nc d))) tt
  end.
(** io_utils.py:279-286 (print_cooc_mat_dense_format) *)
Definition t_print_dense (fs : fsys) (m : matrix) (id2row : list string) (p : string) : tr fsys :=
  t_write fs p (fun (_ : unit) ir => let* s := dense_row_text m ir in Ok (tt, s)) (combine (seq 0 (length id2row)) id2row) tt.
(** space.py:588-596 (_export_row_column) *)
Definition t_export_row_column (fs : fsys) (s : space) (prefix : string) : tr fsys :=
  let^ fs := (match s_col2id s with
              | [] => lift (Ok fs)
              | _ => t_print_list fs (s_id2col s) (prefix ++ ".cols") end) in
  t_print_list fs (s_id2row s) (prefix ++ ".rows").
(** space.py:544-586 (export) *)
Definition t_export (fs : fsys) (s : space) (prefix : string) (format : option string) : tr fsys :=
  let^ fs := t_parents fs prefix in
  let^ fs := (match format with
              | None => lift (Ok fs)
              | Some f =>
                  if String.eqb f "dm" then t_print_dense fs (s_mat s) (s_id2row s) (prefix ++ ".dm")
                  else if String.eqb f "sm" then t_print_sparse fs (s_mat s) (s_id2row s) (s_id2col s) (prefix ++ ".sm")
                  else lift (Err ValueError)
              end) in
  t_export_row_column fs s prefix.

(** ** the tools *)
(** log_utils.py:11-15 (config_logging); what is appended to the log is not modelled *)
Definition t_config_logging (fs : fsys) (file : option string) : tr fsys :=
  match file with
  | None => lift (Ok fs)
  | Some p =>
      let^ fs := t_parents fs p in
      match fs_file fs p with Some _ => lift (Ok fs) | None => t_open fs p end
  end.
(** build_core_space.py:171-174, build_peripheral_space.py:98-101, apply_composition.py:103-107 *)
Definition t_save_export (fs : fsys) (s : space) (out_file : string) (out_format : option string) : tr fsys :=
  let^ fs := t_save fs (OSpace s) (out_file ++ ".pkl") in
  match out_format with None => lift (Ok fs) | Some f => t_export fs s out_file (Some f) end.
(** build_core_space.py:166-174 (print_space) *)
Definition t_print_space (fs : fsys) (s : space) (out_dir : string) (ops : list (option string)) (out_format : option string) : tr fsys :=
  t_save_export fs s (out_dir ++ "/" ++ space_descr ops) out_format.
(** build_core_space.py:206-218: the nested loops *)
Definition t_combinations (fs : fsys) (s : space) (out_dir descr : string) (out_format : option string)
    (weightings selections reductions normalizations : list (option string)) : tr fsys :=
  foldT (fun fs w =>
    let^ w_space := lift (apply_weighting s w) in
    foldT (fun fs x =>
      let^ s_space := lift (apply_selection w_space x) in
      foldT (fun fs r =>
        let^ r_space := lift (apply_reduction s_space r) in
        foldT (fun fs n =>
          let^ n_space := lift (apply_normalization r_space n) in
          t_print_space fs n_space out_dir [Some descr; w; x; r; n] out_format) normalizations fs) reductions fs) selections fs)
    weightings fs.
(** build_core_space.py:177-218 (build_spaces) *)
Definition t_build_spaces (fs : fsys) (in_prefix in_format out_dir : string) (out_format : option string)
    (weightings selections reductions normalizations : list (option string)) (is_gz : bool) : tr fsys :=
  let^ s := lift (load_input fs in_prefix in_format is_gz) in
  t_combinations fs s out_dir ("CORE_SS." ++ base_name in_prefix) out_format weightings selections reductions normalizations.
(** build_core_space.py:221-313 (main) *)
Definition t_main_core (fs : fsys) (args : list string) : tr fsys :=
  let^ (opts, argv) := lift (getopt args core_short core_long) in
  let^ cfg := lift (read_config true fs argv "build_core_space") in
  let^ e := lift (settings core_table cfg opts) in
  let^ fs := t_config_logging fs (get_str e "log_file") in
  let^ in_prefix := lift (require (get_str e "in_file_prefix")) in
  let^ out_dir := lift (require (get_str e "out_dir")) in
  let^ in_format := lift (require (get_str e "in_format")) in
  let^ gz := lift (require (get_str e "gz")) in
  let^ gz := lift (eval_bool gz) in
  t_build_spaces fs in_prefix in_format out_dir (get_str e "out_format") (names (get_list e "weightings"))
    (names (get_list e "selections")) (names (get_list e "reductions")) (names (get_list e "normalizations")) gz.

(** build_peripheral_space.py:91-106 (transform_raw_per_space) *)
Definition t_transform_raw (fs : fsys) (raw : space) (in_prefix out_dir : string) (out_format : option string) (core_file : string) : tr fsys :=
  let^ core := lift (load_space fs core_file) in
  let^ s := lift (mk_peripheral core (s_mat raw) (s_id2row raw) (Some (s_row2id raw))) in
  t_save_export fs s (out_dir ++ "/" ++ "PER_SS." ++ base_name in_prefix ++ "." ++ stem core_file) out_format.
(** build_peripheral_space.py:85-88 (build_space) *)
Definition t_build_per_space (fs : fsys) (in_prefix in_format out_dir : string) (out_format : option string) (core_file : string) (is_gz : bool) : tr fsys :=
  let^ raw := lift (load_input fs in_prefix in_format is_gz) in
  t_transform_raw fs raw in_prefix out_dir out_format core_file.
(** build_peripheral_space.py:109-126 (build_space_batch) *)
Definition t_build_per_batch (fs : fsys) (in_prefix in_format out_dir : string) (out_format : option string) (core_in_dir core_filter : string) (is_gz : bool) : tr fsys :=
  let^ raw := lift (load_input fs in_prefix in_format is_gz) in
  let^ _ := lift (check (exists_ fs core_in_dir) ValueError) in
  let d := with_slash core_in_dir in
  foldT (fun fs f => if contains core_filter f && ends_with f ".pkl"
                     then t_transform_raw fs raw in_prefix out_dir out_format (d ++ f) else lift (Ok fs)) (listdir fs d) fs.
(** build_peripheral_space.py:129-200 (main) *)
Definition t_main_peripheral (fs : fsys) (args : list string) : tr fsys :=
  let^ (opts, argv) := lift (getopt args per_short per_long) in
  let^ cfg := lift (read_config false fs argv "build_peripheral_space") in
  let^ e := lift (settings per_table cfg opts) in
  let^ fs := t_config_logging fs (get_str e "log_file") in
  let^ in_prefix := lift (require (get_str e "in_file_prefix")) in
  let^ out_dir := lift (require (get_str e "out_dir")) in
  let^ in_format := lift (require (get_str e "in_format")) in
  let^ gz := lift (require (get_str e "gz")) in
  let^ gz := lift (eval_bool gz) in
  match get_str e "core_in_dir" with
  | Some d => let^ filter_ := lift (require (get_str e "core_filter")) in t_build_per_batch fs in_prefix in_format out_dir (get_str e "out_format") d filter_ gz
  | None => let^ core := lift (require (get_str e "core_space_file")) in t_build_per_space fs in_prefix in_format out_dir (get_str e "out_format") core gz
  end.

(** the _export methods (weighted_additive.py:125-128, dilation.py:89-91, full_additive.py:115-129): the pieces written *)
Definition t_pieces (fs : fsys) (p : string) (l : list (res string)) : tr fsys :=
  t_write fs p (fun (_ : unit) r => let* s := r in Ok (tt, s)) l tt.
(** composition_model.py:216-227 (export), lexical_function.py:297-300, multiplicative.py:38-42 *)
Definition t_export_model (fs : fsys) (o : pobj) (file : string) : tr fsys :=
  let^ _ := lift (match o with
                  | OComp m => match cm_kind m with Mult => Err IllegalOperationError | _ => Ok tt end
                  | OLex _ => Ok tt
                  | OSpace _ => Err AttributeError end) in
  let^ fs := t_parents fs file in
  match o with
  | OComp m =>
      match cm_kind m with
      | WAdd a b => t_pieces fs file [Ok ("alpha" ++ tabs ++ ffmt a ++ nl)%string; Ok ("beta" ++ tabs ++ ffmt b)%string]
      | Dil l => t_pieces fs file [Ok ("lambda" ++ tabs ++ ffmt l)%string]
      | Mult => lift (Err IllegalOperationError)
      | FAdd None _ _ => lift (Err IllegalStateError)
      | FAdd (Some (a, b)) icpt _ =>
          let txt m := mat_str (m_transpose (conv TDense m)) in
          t_pieces fs file
            ([Ok ("A" ++ nl)%string; Ok (txt a); Ok (nl ++ "B" ++ nl)%string] ++
             (if icpt : bool
              then [(let* b1 := m_slice_rows b 0 (m_nr b - 1) in Ok (txt b1)); Ok (nl ++ "Intercept" ++ nl)%string;
                    (let* b2 := m_slice_rows b (m_nr b - 1) (m_nr b) in Ok (txt b2))]
              else [Ok (txt b)]))
      end
  | OLex m => match lf_fs m with None => lift (Err IllegalStateError) | Some s => t_export fs s file (Some "dm") end
  | OSpace _ => lift (Err AttributeError)
  end.
(** train_composition.py:74-129 (train_model) *)
Definition t_train_model (fs : fsys) (in_file out_dir model : string) (arg_files : list string) (phrase_file : string)
    (regression : option string) (cv icpt : bool) (param : option lamval) (range : option (list F)) (export_params : bool) : tr fsys :=
  let^ f1 := lift (head_file arg_files) in
  let^ arg := lift (load_space fs f1) in
  let^ arg2 := lift (load_second fs arg_files) in
  let^ phrase := lift (load_space fs phrase_file) in
  let^ o := lift (make_model model regression cv icpt param range) in
  let^ data := lift (read_tuples fs in_file) in
  let^ o := lift (train_obj o data arg arg2 phrase) in
  let out_file := join "." [(out_dir ++ "/TRAINED_COMP_MODEL")%string; model; base_name in_file] in
  let^ fs := t_save fs o (out_file ++ ".pkl") in
  if export_params then t_export_model fs o (out_file ++ ".params") else lift (Ok fs).
(** train_composition.py:132-236 (main) *)
Definition t_main_train (fs : fsys) (args : list string) : tr fsys :=
  let^ (opts, argv) := lift (getopt args train_short train_long) in
  let^ cfg := lift (read_config false fs argv "train_composition") in
  let^ e := lift (settings train_table cfg opts) in
  let^ fs := t_config_logging fs (get_str e "log_file") in
  let^ in_file := lift (require (get_str e "in_file")) in
  let^ out_dir := lift (require (get_str e "out_dir")) in
  let^ model := lift (require (get_str e "model")) in
  let^ arg_space := lift (require (get_list e "arg_space")) in
  let^ phrase_space := lift (require (get_str e "phrase_space")) in
  let^ cv := lift (require (get_str e "crossvalidation")) in
  let^ icpt := lift (require (get_str e "intercept")) in
  let^ cv := lift (py_eval cv) in
  let^ icpt := lift (py_eval icpt) in
  let^ icpt := lift (assert_bool icpt) in
  let^ cv := lift (assert_bool cv) in
  let^ ex := lift (require (get_str e "export_params")) in
  let^ ex := lift (eval_bool ex) in
  let^ (param, range) := lift (train_params (get_str e "param") (get_list e "param_range")) in
  let^ _ := lift (match get_str e "regression" with
             | Some r => if negb cv && String.eqb r "ridge" then let* _ := require param in Ok tt else Ok tt
             | None => Ok tt end) in
  t_train_model fs in_file out_dir model arg_space phrase_space (get_str e "regression") cv icpt param range ex.

(** apply_composition.py:77-110 (apply_model) *)
Definition t_apply_model (fs : fsys) (in_file out_dir : string) (model trained : option string) (arg_files : list string)
    (alpha beta lambda : option F) (out_format : option string) : tr fsys :=
  let^ o := lift (match model with
             | Some m => create_model m alpha beta lambda
             | None => let* f := require trained in load_model fs f end) in
  let^ f1 := lift (head_file arg_files) in
  let^ arg := lift (load_space fs f1) in
  let^ arg2 := lift (load_second fs arg_files) in
  let^ data := lift (read_tuples fs in_file) in
  let^ s := lift (compose_obj o data arg arg2) in
  t_save_export fs s (join "." [(out_dir ++ "/COMPOSED_SS")%string; class_name o; base_name in_file]) out_format.
(** apply_composition.py:113-195 (main) *)
Definition t_main_apply (fs : fsys) (args : list string) : tr fsys :=
  let^ (opts, argv) := lift (getopt args apply_short apply_long) in
  let^ cfg := lift (read_config false fs argv "apply_composition") in
  let^ e := lift (settings apply_table cfg opts) in
  let^ fs := t_config_logging fs (get_str e "log_file") in
  let^ in_file := lift (require (get_str e "in_file")) in
  let^ out_dir := lift (require (get_str e "out_dir")) in
  let^ _ := lift (match get_str e "model", get_str e "trained_model" with
             | Some _, None | None, Some _ => Ok tt
             | _, _ => Err SystemExit end) in
  let^ arg_space := lift (require (get_list e "arg_space")) in
  let^ alpha := lift (opt_float (get_str e "alpha")) in
  let^ beta := lift (opt_float (get_str e "beta")) in
  let^ lambda := lift (opt_float (get_str e "lambda_")) in
  t_apply_model fs in_file out_dir (get_str e "model") (get_str e "trained_model") arg_space alpha beta lambda (get_str e "out_format").

(** compute_similarities.py:121-128: what one line of the input adds to the output *)
Definition sim_piece (s : space) (s2 : option space) (sim : similarity) (col0 col1 : Z) (_ : unit) (line : string) : res (unit * string) :=
  let* t := sim_line s s2 sim col0 col1 "" line in Ok (tt, t).
(** compute_similarities.py:113-128: one measure; the input is opened first, then the output *)
Definition t_sim_measure (in_file out_dir descr : string) (s : space) (s2 : option space) (col0 col1 : Z) (fs : fsys) (m : string) : tr fsys :=
  match measure m with
  | None => lift (Ok fs)
  | Some sim =>
      let out_file := (out_dir ++ "/" ++ descr ++ "." ++ m)%string in
      let^ fs := t_parents fs out_file in
      let^ t := lift (read_text fs in_file) in
      t_write fs out_file (sim_piece s s2 sim col0 col1) (flines t) tt
  end.
(** compute_similarities.py:83-128 (compute_sim) *)
Definition t_compute_sim (fs : fsys) (in_file : string) (columns : list string) (out_dir : string) (measures : list string) (space_files : list string) : tr fsys :=
  match columns with
  | [c0; c1] =>
      let^ i0 := lift (parse_int c0) in
      let^ i1 := lift (parse_int c1) in
      let^ f := lift (head_file space_files) in
      match load_space fs f with
      | Err TypeError => lift (Ok fs)
      | Err e => lift (Err e)
      | Ok s =>
          let^ s2 := lift (load_second fs space_files) in
          let^ descr := lift (sims_descr "SIMS" in_file space_files) in
          foldT (t_sim_measure in_file out_dir descr s s2 (i0 - 1) (i1 - 1)) measures fs
      end
  | _ => lift (Err ValueError)
  end.
(** compute_similarities.py:67-80 (compute_sim_batch) *)
Definition t_compute_sim_batch (fs : fsys) (in_file : string) (columns : list string) (out_dir : string) (measures : list string) (in_dir : string) : tr fsys :=
  let^ _ := lift (check (exists_ fs in_dir) ValueError) in
  let d := with_slash in_dir in
  foldT (fun fs f => if ends_with f ".pkl" then t_compute_sim fs in_file columns out_dir measures [(d ++ f)%string] else lift (Ok fs)) (listdir fs d) fs.
(** compute_similarities.py:131-201 (main) *)
Definition t_main_sim (fs : fsys) (args : list string) : tr fsys :=
  let^ (opts, argv) := lift (getopt args sim_short sim_long) in
  let^ cfg := lift (read_config false fs argv "compute_similarities") in
  let^ e := lift (settings sim_table cfg opts) in
  let^ fs := t_config_logging fs (get_str e "log_file") in
  let^ in_file := lift (require (get_str e "in_file")) in
  let^ out_dir := lift (require (get_str e "out_dir")) in
  let^ measures := lift (require (get_list e "sim_measures")) in
  let^ columns := lift (require (get_list e "columns")) in
  match get_str e "in_dir" with
  | Some d => t_compute_sim_batch fs in_file columns out_dir measures d
  | None => let^ spaces := lift (require (get_list e "spaces")) in t_compute_sim fs in_file columns out_dir measures spaces
  end.

(** compute_neighbours.py:80-86: the word is written before its neighbours are looked for *)
Definition neigh_piece (s : space) (s2 : option space) (sim : similarity) (k : Z) (_ : unit) (x : string * bool) : res (unit * string) :=
  let (word, second) := x in
  if second : bool
  then let* l := get_neighbours s word k sim s2 in
       Ok (tt, String.concat "" (map (fun nx : string * F => (tabs ++ fst nx ++ " " ++ fstr (snd nx) ++ nl)%string) l))
  else Ok (tt, (word ++ nl)%string).
(** compute_neighbours.py:54-86 (compute_neighbours) *)
Definition t_compute_neighbours (fs : fsys) (in_file : string) (k : Z) (out_dir sim_measure : string) (space_files : list string) : tr fsys :=
  match measure sim_measure with
  | None => lift (Err ValueError)
  | Some sim =>
      let^ f := lift (head_file space_files) in
      let^ s := lift (load_space fs f) in
      let^ s2 := lift (load_second fs space_files) in
      let^ descr := lift (sims_descr "NEIGHBOURS" in_file space_files) in
      let out_file := (out_dir ++ "/" ++ descr ++ "." ++ sim_measure)%string in
      let^ fs := t_parents fs out_file in
      let^ t := lift (read_text fs in_file) in
      let^ data := lift (read_list t None) in
      t_write fs out_file (neigh_piece s s2 sim k) (flat_map (fun w => [(w, false); (w, true)]) data) tt
  end.
(** compute_neighbours.py:88-155 (main) *)
Definition t_main_neighbours (fs : fsys) (args : list string) : tr fsys :=
  let^ (opts, argv) := lift (getopt args neigh_short neigh_long) in
  let^ cfg := lift (read_config true fs argv "compute_neighbours") in
  let^ e := lift (settings neigh_table cfg opts) in
  let^ fs := t_config_logging fs (get_str e "log_file") in
  let^ k := lift (require (get_str e "no_neighbours")) in
  let^ k := lift (parse_int k) in
  let^ in_file := lift (require (get_str e "in_file")) in
  let^ out_dir := lift (require (get_str e "out_dir")) in
  let^ m := lift (require (get_str e "sim_measure")) in
  let^ spaces := lift (require (get_list e "spaces")) in
  t_compute_neighbours fs in_file k out_dir m spaces.
(** evaluate_similarities.py:91-160 (main): nothing but the log is written *)
Definition t_main_evaluate (fs : fsys) (args : list string) : tr fsys :=
  let^ (opts, argv) := lift (getopt args eval_short eval_long) in
  let^ cfg := lift (read_config false fs argv "evaluate_similarities") in
  let^ e := lift (settings eval_table cfg opts) in
  let^ fs := t_config_logging fs (get_str e "log_file") in
  let^ measures := lift (require (get_list e "corr_measures")) in
  let^ columns := lift (require (get_list e "columns")) in
  let^ _ := lift (check (Nat.eqb (length columns) 2) ValueError) in
  let^ out := lift (match get_str e "in_dir" with
               | Some d => let* f := require (get_str e "filter_") in evaluate_sim_batch fs d columns measures f
               | None => let* f := require (get_str e "in_file") in evaluate_sim fs f columns measures
               end) in
  lift (Ok fs).
End Crash.
