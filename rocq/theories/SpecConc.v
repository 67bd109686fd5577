(** SpecConc.v -- vocabulary of C97: runs of the tools, the files they read and the files they write. *)
From Coq Require Import Ascii.
From Verif Require Import Base PyList Dict Num Dense Sparse Matrix Scaling Linalg Operation Similarity Space Peripheral Learner Composition Utils LexFun Str PStr IO Pipe SpecPipe SpecPipe2 PFiles SpecPipe3 SpecCore Prop_Batch Prop_TrainPipe Crash SpecCrash PCrash4 PCrash5 Prop_Rerun SpecDir Conc.
Local Open Scope string_scope.
Local Open Scope list_scope.
Local Open Scope nat_scope.
Section SpecConc.
Context {N : Num} {E : Ext} {FI : FloatIO} {PI : PipeIO} {KI : PickleIO}.
(** a run of a tool with its settings; JLog: with a log file, which is opened first *)
Inductive job :=
| JCore (in_prefix in_format out_dir : string) (out_format : option string) (ws xs rs ns : list (option string)) (gz : bool)
| JPer (in_prefix in_format out_dir : string) (out_format : option string) (core_file : string) (gz : bool)
| JTrain (in_file out_dir model : string) (files : list string) (phrase : string) (reg : option string) (cv icpt : bool)
    (param : option lamval) (range : option (list F)) (ex : bool)
| JApply (in_file out_dir : string) (model trained : option string) (files : list string) (alpha beta lambda : option F) (out_format : option string)
| JSim (in_file : string) (columns : list string) (out_dir : string) (measures files : list string)
| JNeigh (in_file : string) (k : Z) (out_dir m : string) (files : list string)
| JPerDir (in_prefix in_format out_dir : string) (out_format : option string) (core_dir filter_ : string) (gz : bool)
| JSimDir (in_file : string) (columns : list string) (out_dir : string) (measures : list string) (in_dir : string)
| JLog (log : string) (j : job).
(** the tool of Pipe.v: the file system it leaves, or its exception *)
Fixpoint tool (j : job) (fs : fsys) : res fsys :=
  match j with
  | JCore a b c d ws xs rs ns gz => build_spaces fs a b c d ws xs rs ns gz
  | JPer a b c d e gz => build_per_space fs a b c d e gz
  | JTrain a b c d e f g h i k l => train_model fs a b c d e f g h i k l
  | JApply a b c d e f g h i => apply_model fs a b c d e f g h i
  | JSim a b c d e => compute_sim fs a b c d e
  | JNeigh a b c d e => compute_neighbours fs a b c d e
  | JPerDir a b c d e f gz => build_per_batch fs a b c d e f gz
  | JSimDir a b c d e => compute_sim_batch fs a b c d e
  | JLog l j => let* fs := config_logging fs (Some l) in tool j fs
  end.
(** its run when it is alone, effect by effect (Crash.v) *)
Fixpoint solo (j : job) (fs : fsys) : tr fsys :=
  match j with
  | JCore a b c d ws xs rs ns gz => t_build_spaces fs a b c d ws xs rs ns gz
  | JPer a b c d e gz => t_build_per_space fs a b c d e gz
  | JTrain a b c d e f g h i k l => t_train_model fs a b c d e f g h i k l
  | JApply a b c d e f g h i => t_apply_model fs a b c d e f g h i
  | JSim a b c d e => t_compute_sim fs a b c d e
  | JNeigh a b c d e => t_compute_neighbours fs a b c d e
  | JPerDir a b c d e f gz => t_build_per_batch fs a b c d e f gz
  | JSimDir a b c d e => t_compute_sim_batch fs a b c d e
  | JLog l j => tbind (t_config_logging fs (Some l)) (solo j)
  end.
(** the program it runs when others use the disk as well *)
Fixpoint program (j : job) : prog unit :=
  match j with
  | JCore a b c d ws xs rs ns gz => p_build_spaces a b c d ws xs rs ns gz
  | JPer a b c d e gz => p_build_per_space a b c d e gz
  | JTrain a b c d e f g h i k l => p_train_model a b c d e f g h i k l
  | JApply a b c d e f g h i => p_apply_model a b c d e f g h i
  | JSim a b c d e => p_compute_sim a b c d e
  | JNeigh a b c d e => p_compute_neighbours a b c d e
  | JPerDir a b c d e f gz => p_build_per_batch a b c d e f gz
  | JSimDir a b c d e => p_compute_sim_batch a b c d e
  | JLog l j => pbind (p_log l) (fun _ => program j)
  end.
(** a directory and its entries *)
Definition in_directory (d q : string) : Prop := q = d \/ exists dir f, dir_slash d dir /\ plain f /\ q = (dir ++ f)%string.
(** the files it may read; a tool that lists a directory reads every entry of it *)
Fixpoint reads (j : job) (q : string) : Prop :=
  match j with
  | JCore p f _ _ _ _ _ _ gz => In q (input_files p f gz)
  | JPer p f _ _ core gz => q = core \/ In q (input_files p f gz)
  | JTrain i _ _ files phrase _ _ _ _ _ _ => q = i \/ q = phrase \/ In q files
  | JApply i _ _ trained files _ _ _ _ => q = i \/ trained = Some q \/ In q files
  | JSim i _ _ _ files => q = i \/ In q files
  | JNeigh i _ _ _ files => q = i \/ In q files
  | JPerDir p f _ _ core_dir _ gz => In q (input_files p f gz) \/ in_directory core_dir q
  | JSimDir i _ _ _ in_dir => q = i \/ in_directory in_dir q
  | JLog l j => reads j q
  end.
(** the files it may write *)
Fixpoint writes (j : job) (q : string) : Prop :=
  match j with
  | JCore p _ out _ ws xs rs ns _ => exists nm c, file_name p nm /\ combos ws xs rs ns c /\ saved_target (core_file out nm c) q
  | JPer p _ out _ core _ => exists nm x, file_name p nm /\ stem_of core x /\ saved_target (per_file out nm x) q
  | JTrain i out model _ _ _ _ _ _ _ _ => exists nm, file_name i nm /\
      (q = (model_file out model nm ++ ".pkl")%string \/ q = (model_file out model nm ++ ".params")%string \/ export_target (model_file out model nm ++ ".params") q)
  | JApply i out _ _ _ _ _ _ _ => exists nm o c, file_name i nm /\ class_of o c /\ saved_target (composed_file out c nm) q
  | JSim i _ out ms files => exists nm d m sim, file_name i nm /\ described files d /\ In m ms /\ measure_named m sim /\ q = result_file out "SIMS" nm d m
  | JNeigh i _ out m files => exists nm d, file_name i nm /\ described files d /\ q = result_file out "NEIGHBOURS" nm d m
  | JPerDir p _ out _ _ _ _ => exists nm x, file_name p nm /\ ~ In "/"%char (chars x) /\ saved_target (per_file out nm x) q
  | JSimDir i _ out ms _ => exists nm x m sim, file_name i nm /\ ~ In "/"%char (chars x) /\ In m ms /\ measure_named m sim /\ q = result_file out "SIMS" nm x m
  | JLog l j => q = l \/ writes j q
  end.
(** os.listdir does what it should on the directory it works on *)
Fixpoint listing (j : job) : Prop :=
  match j with
  | JPerDir _ _ _ _ d _ _ | JSimDir _ _ _ _ d => forall dir, dir_slash d dir -> lists_entries dir
  | JLog _ j => listing j
  | _ => True
  end.
(** the directories of its outputs and of its log are there (and os.listdir works) *)
Definition ready (fs : fsys) (j : job) : Prop := listing j /\ forall q, writes j q -> dirname q <> "" /\ fs_dir fs (dirname q) = true.
(** no job writes a file that another one reads or writes *)
Definition apart (js : list job) : Prop := forall i k a b q, nth_error js i = Some a -> nth_error js k = Some b -> i <> k ->
  writes a q -> ~ reads b q /\ ~ writes b q.
(** the jobs run at the same time by a schedule: their programs then, and the disk *)
Definition together (js : list job) (sched : list nat) (fs : fsys) : list (prog unit) * fsys := turns sched (map program js) fs.
(** job [i] has ended with the result [r] *)
Definition ended_with (st : list (prog unit) * fsys) (i : nat) (r : res unit) : Prop := exists P, nth_error (fst st) i = Some P /\ ended P = Some r.
(** one job after the other *)
Definition one_by_one (js : list job) (fs : fsys) : res fsys := foldM (fun fs j => tool j fs) js fs.
End SpecConc.
