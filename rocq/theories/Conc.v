(** Conc.v -- the command line tools as sequences of atomic steps on a disk that other processes may use at the same time.
    Crash.v gives the effects of a tool that is alone: everything it asks about the disk is answered by the disk it has left
    itself.  Here the same functions are modelled as programs that ask the disk, or change it, one step at a time; between two
    steps of one program any other program may run.  [alone] runs a program with nobody else on the disk; PConc.v proves that
    this is the run of Crash.v for every tool.
    The steps: os.path.exists; os.listdir; reading one file; os.mkdir; opening a file for writing (or a log for appending); writing one character.  Reading a whole
    file and listing a directory are one step each (a simplification), as is os.mkdir with its tests, and open(p, 'w') with its tests, which
    are single system calls.  Not modelled: what is written to log files, evaluate_similarities (it writes no file), and
    processes outside dissect. *)
From Coq Require Import Ascii.
From Verif Require Import Base PyList Dict Num Dense Sparse Matrix Scaling Linalg Operation Similarity Space Peripheral Learner Composition Utils LexFun Str IO Pipe Crash.
Local Open Scope string_scope.
Local Open Scope list_scope.
Local Open Scope nat_scope.

Section Conc.
Context {N : Num} {E : Ext} {FI : FloatIO} {PI : PipeIO} {KI : PickleIO}.

(** ** programs *)
Inductive prog (A : Type) : Type :=
| Ret (a : A)                                                 (* ended, with the value a *)
| Raise (e : exn)                                             (* ended by an exception *)
| Look (X : Type) (f : fsys -> res X) (k : X -> prog A)       (* one question to the disk *)
| Act (f : fsys -> res (list event)) (k : prog A).            (* one change of the disk, or the exception it raises *)
Arguments Ret {A}. Arguments Raise {A}. Arguments Look {A X}. Arguments Act {A}.
Fixpoint pbind {A B} (m : prog A) (k : A -> prog B) : prog B :=
  match m with
  | Ret a => k a
  | Raise e => Raise e
  | Look f c => Look f (fun x => pbind (c x) k)
  | Act f c => Act f (pbind c k)
  end.
Notation "'let!' x ':=' e 'in' k" := (pbind e (fun x => k))
  (at level 200, x pattern, e at level 100, k at level 200, right associativity).
(** a computation that does not use the disk *)
Definition pure {A} (r : res A) : prog A := match r with Ok a => Ret a | Err e => Raise e end.
Definition look {A} (f : fsys -> res A) : prog A := Look f Ret.
Definition act (f : fsys -> res (list event)) : prog unit := Act f (Ret tt).
Fixpoint p_fold {A} (f : A -> prog unit) (l : list A) : prog unit :=
  match l with [] => Ret tt | x :: l => let! _ := f x in p_fold f l end.
(** the run of a program that is alone: its effects and its result *)
Fixpoint alone {A} (P : prog A) (fs : fsys) : list event * res A :=
  match P with
  | Ret a => ([], Ok a)
  | Raise e => ([], Err e)
  | Look f k => match f fs with Ok x => alone (k x) fs | Err e => ([], Err e) end
  | Act f k => match f fs with Ok l => (l ++ fst (alone k (replay fs l)), snd (alone k (replay fs l))) | Err e => ([], Err e) end
  end.
(** the number of its steps *)
Fixpoint steps {A} (P : prog A) (fs : fsys) : nat :=
  match P with
  | Ret _ | Raise _ => 0
  | Look f k => S (match f fs with Ok x => steps (k x) fs | Err _ => 0 end)
  | Act f k => S (match f fs with Ok l => steps k (replay fs l) | Err _ => 0 end)
  end.

(** ** several programs on one disk *)
(** one step of one program; a program that has ended does nothing *)
Definition pstep {A} (P : prog A) (fs : fsys) : prog A * fsys :=
  match P with
  | Ret a => (Ret a, fs)
  | Raise e => (Raise e, fs)
  | Look f k => match f fs with Ok x => (k x, fs) | Err e => (Raise e, fs) end
  | Act f k => match f fs with Ok l => (k, replay fs l) | Err e => (Raise e, fs) end
  end.
Fixpoint replace {A} (i : nat) (x : A) (l : list A) : list A :=
  match l, i with
  | [], _ => []
  | _ :: l, 0 => x :: l
  | y :: l, S i => y :: replace i x l
  end.
(** program [i] makes one step *)
Definition turn (st : list (prog unit) * fsys) (i : nat) : list (prog unit) * fsys :=
  match nth_error (fst st) i with
  | None => st
  | Some P => let (P', fs) := pstep P (snd st) in (replace i P' (fst st), fs)
  end.
(** a schedule: whose turn it is, step by step *)
Definition turns (sched : list nat) (Ps : list (prog unit)) (fs : fsys) : list (prog unit) * fsys := fold_left turn sched (Ps, fs).
(** the result of a program, once it has ended *)
Definition ended {A} (P : prog A) : option (res A) :=
  match P with Ret a => Some (Ok a) | Raise e => Some (Err e) | _ => None end.

(** ** writing *)
(** os.path.exists *)
Definition p_exists (p : string) : prog bool := look (fun fs => Ok (exists_ fs p)).
(** os.mkdir *)
Definition p_mkdir (p : string) : prog unit := act (fun fs => let* _ := mkdir fs p in Ok [Emkdir p]).
(** os.makedirs, as in IO.v *)
Fixpoint p_makedirs (n : nat) (p : string) : prog unit :=
  match n with
  | 0 => Raise OSError
  | S n =>
      let (head, tail) := path_split p in
      let (head, tail) := if String.eqb tail "" then path_split head else (head, tail) in
      let! _ := (if negb (String.eqb head "") && negb (String.eqb tail "")
                 then let! b := p_exists head in if b : bool then Ret tt else p_makedirs n head
                 else Ret tt) in
      if String.eqb tail "." then Ret tt else p_mkdir p
  end.
(** io_utils.py:46-50 (create_parent_directories): the directory is looked for first, and made afterwards *)
Definition p_parents (p : string) : prog unit :=
  let d := dirname p in
  let! b := p_exists d in
  if b : bool then Ret tt else p_makedirs (S (String.length d)) d.
(** open(p, 'w') *)
Definition p_open (p : string) : prog unit := act (fun fs => let* _ := write_file fs p (Text "") in Ok [Eopen p]).
(** f.write(s), f being p *)
Definition p_put (p s : string) : prog unit := p_fold (fun c => act (fun _ => Ok [Eput p c])) (list_ascii_of_string s).
(** a loop that computes a piece of text for every element and writes it *)
Fixpoint p_scan {A S} (p : string) (g : S -> A -> res (S * string)) (l : list A) (st : S) : prog unit :=
  match l with
  | [] => Ret tt
  | x :: l =>
      let! (st, s) := pure (g st x) in
      let! _ := p_put p s in
      p_scan p g l st
  end.
(** with open(p, 'w') as f: such a loop *)
Definition p_write {A S} (p : string) (g : S -> A -> res (S * string)) (l : list A) (st : S) : prog unit :=
  let! _ := p_open p in p_scan p g l st.
(** with open(p, 'w') as f: pickle.dump(o, f, 2) *)
Definition p_dump (p : string) (o : pobj) : prog unit :=
  let! _ := p_open p in
  let! _ := p_put p (dump_bytes o) in
  act (fun _ => Ok [Eseal p o]).
(** io_utils.py:20-28 (save) *)
Definition p_save (o : pobj) (p : string) : prog unit := let! _ := p_parents p in p_dump p o.

(** log_utils.py:11-15 (config_logging) with a log file: open(p, 'a'); what is logged is not modelled *)
Definition p_log (p : string) : prog unit :=
  let! _ := p_parents p in
  act (fun fs => match fs_file fs p with Some _ => Ok [] | None => let* _ := write_file fs p (Text "") in Ok [Eopen p] end).

(** ** Space.export *)
(** io_utils.py:243-246 (print_list) *)
Definition p_print_list (l : list string) (p : string) : prog unit :=
  p_write p (fun (_ : unit) x => Ok (tt, (x ++ nl)%string)) l tt.
(** io_utils.py:249-276 (print_cooc_mat_sparse_format) *)
Definition p_print_sparse (m : matrix) (id2row id2col : list string) (p : string) : prog unit :=
  let! _ := pure (check (negb (Nat.eqb (length id2col) 0)) ValueError) in
  match m with
  | MS c =>
      let! _ := p_open p in
      let! next_row := pure (py_nth (s_ptr c) 1%Z) in
      let! row := pure (py_nth id2row 0%Z) in
      p_scan p (stored_cell c id2row id2col) (seq 0 (length (s_data c))) (0, next_row, row)
  | MD d => p_write p (dense_cell d id2row id2col) (list_prod (seq 0 (d_nr d)) (seq 0 (d_nc d))) tt
  end.
(** io_utils.py:279-286 (print_cooc_mat_dense_format) *)
Definition p_print_dense (m : matrix) (id2row : list string) (p : string) : prog unit :=
  p_write p (fun (_ : unit) ir => let* s := dense_row_text m ir in Ok (tt, s)) (combine (seq 0 (length id2row)) id2row) tt.
(** space.py:588-596 (_export_row_column) *)
Definition p_export_row_column (s : space) (prefix : string) : prog unit :=
  let! _ := (match s_col2id s with [] => Ret tt | _ => p_print_list (s_id2col s) (prefix ++ ".cols") end) in
  p_print_list (s_id2row s) (prefix ++ ".rows").
(** space.py:544-586 (export) *)
Definition p_export (s : space) (prefix : string) (format : option string) : prog unit :=
  let! _ := p_parents prefix in
  let! _ := (match format with
             | None => Ret tt
             | Some f =>
                 if String.eqb f "dm" then p_print_dense (s_mat s) (s_id2row s) (prefix ++ ".dm")
                 else if String.eqb f "sm" then p_print_sparse (s_mat s) (s_id2row s) (s_id2col s) (prefix ++ ".sm")
                 else Raise ValueError
             end) in
  p_export_row_column s prefix.

(** ** reading *)
(** open(p) for reading text *)
Definition p_read_text (p : string) : prog string := look (fun fs => read_text fs p).
(** io_utils.py:30-43 (load), of a Space *)
Definition p_load_space (p : string) : prog space := look (fun fs => load_space fs p).
(** the optional second space: only when exactly two files are given *)
Definition p_load_second (files : list string) : prog (option space) :=
  match files with [_; f] => let! s := p_load_space f in Ret (Some s) | _ => Ret None end.
(** io_utils.py:30-43 (load), of a CompositionModel *)
Definition p_load_model (p : string) : prog pobj := look (fun fs => load_model fs p).
(** io_utils.py:187-229 (read_tuple_list) of three columns *)
Definition p_read_tuples (p : string) : prog (list tuple3) :=
  let! t := p_read_text p in
  pure (let* l := read_tuple_list t [0%Z; 1%Z; 2%Z] in mapM to_tuple3 l).
(** space.py:84-146 (Space.build), file by file *)
Definition p_read_index (p : string) : prog (list string * dict Z) := let! t := p_read_text p in pure (extract_indexing0 t).
Definition p_build (data_file fmt : string) (rows cols : option string) : prog space :=
  let! _ := pure (check (String.eqb fmt "dm" || String.eqb fmt "sm") ValueError) in
  let! ri := (match rows with Some p => let! x := p_read_index p in Ret (Some x) | None => Ret None end) in
  let! ci := (match cols with
              | Some p => let! x := p_read_index p in Ret (Some x)
              | None => if String.eqb fmt "sm" then Raise ValueError else Ret None end) in
  let! (id2row, row2id) := (match ri with Some x => Ret x | None => p_read_index data_file end) in
  let! t := p_read_text data_file in
  pure (let* mat := (if String.eqb fmt "sm"
                     then read_sparse_space_data t row2id (match ci with Some (_, c) => c | None => [] end)
                     else read_dense_space_data t row2id) in
        let* _ := check (match ci with Some (l, _) => Nat.eqb (length l) 0 || Nat.eqb (length l) (m_nc mat) | None => true end) ValueError in
        let '(id2col, col2id) := match ci with Some x => x | None => ([], []) end in
        mk_space mat id2row id2col (Some row2id) (Some col2id) [] None).
(** build_core_space.py:181-204, build_peripheral_space.py:61-83 *)
Definition p_load_input (prefix fmt : string) (is_gz : bool) : prog space :=
  let data_file := (prefix ++ "." ++ fmt)%string in
  let! _ := pure (check (String.eqb fmt "sm" || String.eqb fmt "dm" || String.eqb fmt "pkl") ValueError) in
  if String.eqb fmt "pkl" then p_load_space data_file
  else
    let data_file := if is_gz then (data_file ++ ".gz")%string else data_file in
    let! r := p_exists (prefix ++ ".rows") in
    let! c := p_exists (prefix ++ ".cols") in
    let! cols := (if c : bool then Ret (Some (prefix ++ ".cols")%string)
                  else if String.eqb fmt "sm" then Raise ValueError else Ret None) in
    p_build data_file fmt (if r : bool then Some (prefix ++ ".rows")%string else None) cols.

(** ** the tools *)
(** build_core_space.py:171-174, build_peripheral_space.py:98-101, apply_composition.py:103-107 *)
Definition p_save_export (s : space) (out_file : string) (out_format : option string) : prog unit :=
  let! _ := p_save (OSpace s) (out_file ++ ".pkl") in
  match out_format with None => Ret tt | Some f => p_export s out_file (Some f) end.
(** build_core_space.py:206-218: the nested loops *)
Definition p_combinations (s : space) (out_dir descr : string) (out_format : option string)
    (weightings selections reductions normalizations : list (option string)) : prog unit :=
  p_fold (fun w =>
    let! w_space := pure (apply_weighting s w) in
    p_fold (fun x =>
      let! s_space := pure (apply_selection w_space x) in
      p_fold (fun r =>
        let! r_space := pure (apply_reduction s_space r) in
        p_fold (fun n =>
          let! n_space := pure (apply_normalization r_space n) in
          p_save_export n_space (out_dir ++ "/" ++ space_descr [Some descr; w; x; r; n]) out_format) normalizations) reductions) selections)
    weightings.
(** build_core_space.py:177-218 (build_spaces) *)
Definition p_build_spaces (in_prefix in_format out_dir : string) (out_format : option string)
    (weightings selections reductions normalizations : list (option string)) (is_gz : bool) : prog unit :=
  let! s := p_load_input in_prefix in_format is_gz in
  p_combinations s out_dir ("CORE_SS." ++ base_name in_prefix) out_format weightings selections reductions normalizations.
(** build_peripheral_space.py:91-106 (transform_raw_per_space) *)
Definition p_transform_raw (raw : space) (in_prefix out_dir : string) (out_format : option string) (core_file : string) : prog unit :=
  let! core := p_load_space core_file in
  let! s := pure (mk_peripheral core (s_mat raw) (s_id2row raw) (Some (s_row2id raw))) in
  p_save_export s (out_dir ++ "/" ++ "PER_SS." ++ base_name in_prefix ++ "." ++ stem core_file) out_format.
(** build_peripheral_space.py:85-88 (build_space) *)
Definition p_build_per_space (in_prefix in_format out_dir : string) (out_format : option string) (core_file : string) (is_gz : bool) : prog unit :=
  let! raw := p_load_input in_prefix in_format is_gz in
  p_transform_raw raw in_prefix out_dir out_format core_file.
(** build_peripheral_space.py:109-126 (build_space_batch) *)
Definition p_build_per_batch (in_prefix in_format out_dir : string) (out_format : option string) (core_in_dir core_filter : string) (is_gz : bool) : prog unit :=
  let! raw := p_load_input in_prefix in_format is_gz in
  let! there := p_exists core_in_dir in
  let! _ := pure (check there ValueError) in
  let d := with_slash core_in_dir in
  let! l := look (fun fs => Ok (listdir fs d)) in
  p_fold (fun f => if contains core_filter f && ends_with f ".pkl"
                   then p_transform_raw raw in_prefix out_dir out_format (d ++ f) else Ret tt) l.
(** the _export methods, as in Crash.v *)
Definition p_pieces (p : string) (l : list (res string)) : prog unit :=
  p_write p (fun (_ : unit) r => let* s := r in Ok (tt, s)) l tt.
(** composition_model.py:216-227 (export), lexical_function.py:297-300, multiplicative.py:38-42 *)
Definition p_export_model (o : pobj) (file : string) : prog unit :=
  let! _ := pure (match o with
                  | OComp m => match cm_kind m with Mult => Err IllegalOperationError | _ => Ok tt end
                  | OLex _ => Ok tt
                  | OSpace _ => Err AttributeError end) in
  let! _ := p_parents file in
  match o with
  | OComp m =>
      match cm_kind m with
      | WAdd a b => p_pieces file [Ok ("alpha" ++ tabs ++ ffmt a ++ nl)%string; Ok ("beta" ++ tabs ++ ffmt b)%string]
      | Dil l => p_pieces file [Ok ("lambda" ++ tabs ++ ffmt l)%string]
      | Mult => Raise IllegalOperationError
      | FAdd None _ _ => Raise IllegalStateError
      | FAdd (Some (a, b)) icpt _ =>
          let txt m := mat_str (m_transpose (conv TDense m)) in
          p_pieces file
            ([Ok ("A" ++ nl)%string; Ok (txt a); Ok (nl ++ "B" ++ nl)%string] ++
             (if icpt : bool
              then [(let* b1 := m_slice_rows b 0 (m_nr b - 1) in Ok (txt b1)); Ok (nl ++ "Intercept" ++ nl)%string;
                    (let* b2 := m_slice_rows b (m_nr b - 1) (m_nr b) in Ok (txt b2))]
              else [Ok (txt b)]))
      end
  | OLex m => match lf_fs m with None => Raise IllegalStateError | Some s => p_export s file (Some "dm") end
  | OSpace _ => Raise AttributeError
  end.
(** train_composition.py:74-129 (train_model) *)
Definition p_train_model (in_file out_dir model : string) (arg_files : list string) (phrase_file : string)
    (regression : option string) (cv icpt : bool) (param : option lamval) (range : option (list F)) (export_params : bool) : prog unit :=
  let! f1 := pure (head_file arg_files) in
  let! arg := p_load_space f1 in
  let! arg2 := p_load_second arg_files in
  let! phrase := p_load_space phrase_file in
  let! o := pure (make_model model regression cv icpt param range) in
  let! data := p_read_tuples in_file in
  let! o := pure (train_obj o data arg arg2 phrase) in
  let out_file := join "." [(out_dir ++ "/TRAINED_COMP_MODEL")%string; model; base_name in_file] in
  let! _ := p_save o (out_file ++ ".pkl") in
  if export_params then p_export_model o (out_file ++ ".params") else Ret tt.
(** apply_composition.py:77-110 (apply_model) *)
Definition p_apply_model (in_file out_dir : string) (model trained : option string) (arg_files : list string)
    (alpha beta lambda : option F) (out_format : option string) : prog unit :=
  let! o := (match model with
             | Some m => pure (create_model m alpha beta lambda)
             | None => let! f := pure (require trained) in p_load_model f end) in
  let! f1 := pure (head_file arg_files) in
  let! arg := p_load_space f1 in
  let! arg2 := p_load_second arg_files in
  let! data := p_read_tuples in_file in
  let! s := pure (compose_obj o data arg arg2) in
  p_save_export s (join "." [(out_dir ++ "/COMPOSED_SS")%string; class_name o; base_name in_file]) out_format.
(** compute_similarities.py:113-128: one measure *)
Definition p_sim_measure (in_file out_dir descr : string) (s : space) (s2 : option space) (col0 col1 : Z) (m : string) : prog unit :=
  match measure m with
  | None => Ret tt
  | Some sim =>
      let out_file := (out_dir ++ "/" ++ descr ++ "." ++ m)%string in
      let! _ := p_parents out_file in
      let! t := p_read_text in_file in
      p_write out_file (sim_piece s s2 sim col0 col1) (flines t) tt
  end.
(** compute_similarities.py:83-128 (compute_sim); a TypeError from loading the first space is caught *)
Definition p_compute_sim (in_file : string) (columns : list string) (out_dir : string) (measures : list string) (space_files : list string) : prog unit :=
  match columns with
  | [c0; c1] =>
      let! i0 := pure (parse_int c0) in
      let! i1 := pure (parse_int c1) in
      let! f := pure (head_file space_files) in
      let! r := look (fun fs => Ok (load_space fs f)) in
      match r with
      | Err TypeError => Ret tt
      | Err e => Raise e
      | Ok s =>
          let! s2 := p_load_second space_files in
          let! descr := pure (sims_descr "SIMS" in_file space_files) in
          p_fold (p_sim_measure in_file out_dir descr s s2 (i0 - 1) (i1 - 1)) measures
      end
  | _ => Raise ValueError
  end.
(** compute_similarities.py:67-80 (compute_sim_batch) *)
Definition p_compute_sim_batch (in_file : string) (columns : list string) (out_dir : string) (measures : list string) (in_dir : string) : prog unit :=
  let! there := p_exists in_dir in
  let! _ := pure (check there ValueError) in
  let d := with_slash in_dir in
  let! l := look (fun fs => Ok (listdir fs d)) in
  p_fold (fun f => if ends_with f ".pkl" then p_compute_sim in_file columns out_dir measures [(d ++ f)%string] else Ret tt) l.
(** compute_neighbours.py:54-86 (compute_neighbours) *)
Definition p_compute_neighbours (in_file : string) (k : Z) (out_dir sim_measure : string) (space_files : list string) : prog unit :=
  match measure sim_measure with
  | None => Raise ValueError
  | Some sim =>
      let! f := pure (head_file space_files) in
      let! s := p_load_space f in
      let! s2 := p_load_second space_files in
      let! descr := pure (sims_descr "NEIGHBOURS" in_file space_files) in
      let out_file := (out_dir ++ "/" ++ descr ++ "." ++ sim_measure)%string in
      let! _ := p_parents out_file in
      let! t := p_read_text in_file in
      let! data := pure (read_list t None) in
      p_write out_file (neigh_piece s s2 sim k) (flat_map (fun w => [(w, false); (w, true)]) data) tt
  end.
End Conc.
Arguments Ret {N A}. Arguments Raise {N A}. Arguments Look {N A X}. Arguments Act {N A}.
