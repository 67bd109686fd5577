(** Prop_Getopt.v -- C110: which command lines the tools accept, and what they mean. *)
From Coq Require Import Ascii.
From Verif Require Import Base PyList Dict Num Dense Sparse Matrix Scaling Linalg Operation Similarity Space Peripheral Learner Composition Utils LexFun Str PStr IO Pipe SpecPipe PPipe Prop_Pipe Prop_Pipe2 Crash SpecCrash PCrash Prop_CrashMain Prop_Options SpecGetopt PGetopt.
Local Open Scope string_scope.
Local Open Scope list_scope.
Local Open Scope nat_scope.

(** the options of the tools: "-h" and "--help" take no value, the others do *)
Definition flag_h (l : string) : list (ascii * bool) := ("h"%char, false) :: map (fun c => (c, true)) (list_ascii_of_string l).
Definition flag_help (l : list string) : list (string * bool) := ("help", false) :: map (fun n => (n, true)) l.
Definition cli_of (t : tool) : cli :=
  match t with
  | Core => CLI (flag_h "iowsrnl") (flag_help ["input"; "output"; "weighting"; "selection"; "reduction"; "normalization"; "log"; "gz"; "input_format"; "output_format"])
  | Peripheral => CLI (flag_h "iocl") (flag_help ["input"; "output"; "core"; "log"; "input_format"; "output_format"; "core_in_dir"; "core_filter"; "gz"])
  | Train => CLI (flag_h "iomrapl") (flag_help ["input"; "output"; "model"; "regression"; "intercept"; "arg_space"; "phrase_space"; "export_params"; "log"; "crossvalidation"; "lambda_range"; "lambda"])
  | Apply => CLI (flag_h "iomal") (flag_help ["input"; "output"; "model"; "alpha"; "beta"; "lambda"; "arg_space"; "load_model"; "output_format"; "log"])
  | Similarities => CLI (flag_h "iosmcl") (flag_help ["input"; "output"; "sim_measures"; "space"; "in_dir"; "columns"; "log"])
  | Neighbours => CLI (flag_h "iosmnl") (flag_help ["input"; "output"; "sim_measures"; "space"; "log"; "no_neighbours"])
  | Evaluate => CLI (flag_h "imcl") (flag_help ["input"; "correlation_measure"; "columns"; "log"; "in_dir"; "filter"])
  end.
(** the configuration file has to exist *)
Definition needs_config (t : tool) : bool := match t with Core | Neighbours => true | _ => false end.


Section Opts.
Context {N : Num} {E : Ext} {FI : FloatIO} {PI : PipeIO} {KI : PickleIO}.
Definition config_readable (t : tool) (fs : fsys) (config : option string) : Prop :=
  forall p, config = Some p -> match fs_file fs p with Some (Text _) => True | Some (Pickle _) => False | None => needs_config t = false end.
(** what a run does to the disk, in order *)
Definition effects_of (t : tool) (fs : fsys) (args : list string) : list event :=
  match t with
  | Core => fst (t_main_core fs args) | Peripheral => fst (t_main_peripheral fs args) | Train => fst (t_main_train fs args) | Apply => fst (t_main_apply fs args)
  | Similarities => fst (t_main_sim fs args) | Neighbours => fst (t_main_neighbours fs args) | Evaluate => fst (t_main_evaluate fs args) end.
Definition declared (t : tool) : string * list string :=
  match t with
  | Core => (core_short, core_long) | Peripheral => (per_short, per_long) | Train => (train_short, train_long) | Apply => (apply_short, apply_long)
  | Similarities => (sim_short, sim_long) | Neighbours => (neigh_short, neigh_long) | Evaluate => (eval_short, eval_long) end.
Lemma declared_ok t : declared t = (enc_short (letters (cli_of t)), enc_long (names (cli_of t))).
Proof. destruct t; reflexivity. Qed.
Ltac distinct := repeat (constructor; [cbn; intuition discriminate|]); constructor.
Lemma cli_well t : well (cli_of t).
Proof.
  unfold well. destruct t; cbn [cli_of letters names]; (split; [cbn; distinct|]); (split; [cbn; intuition discriminate|]); (split; [cbn; intuition discriminate|]); (split; [cbn; distinct|]);
    repeat constructor; cbn; unfold no_equals; cbn; intuition discriminate.
Qed.
Definition parse (t : tool) (args : list string) := getopt args (fst (declared t)) (snd (declared t)).
Lemma parse_line t args given rest : parse t args = Ok (given, rest) <-> line (cli_of t) args given rest.
Proof.
  unfold parse. rewrite declared_ok. cbn [fst snd]. split; intros H.
  - pose proof (sound (cli_of t) args (cli_well t)) as S. rewrite H in S. exact S.
  - apply complete; [apply cli_well|exact H].
Qed.
Lemma parse_err t args : (forall given rest, ~ line (cli_of t) args given rest) -> parse t args = Err SystemExit.
Proof.
  intros H. pose proof (sound (cli_of t) args (cli_well t)) as S. unfold parse. rewrite declared_ok. cbn [fst snd] in *. destruct (getopt _ _ _) as [[g r]|e]; [exfalso; exact (H g r S)|congruence].
Qed.

(** a command line can be read in one way only *)
Theorem C110_unique t args given rest given' rest' : line (cli_of t) args given rest -> line (cli_of t) args given' rest' -> given = given' /\ rest = rest'.
Proof. intros H1 H2. apply parse_line in H1, H2. rewrite H1 in H2. injection H2 as -> ->. auto. Qed.
(** the plain command lines of C55 and C94 are among them and mean what they say *)
Theorem C110_plain t args given config : command_line (options_of t) given config args ->
  exists rest, line (cli_of t) args given rest /\ config_of rest = config.
Proof.
  intros H. exists (match config with Some p => [p] | None => [] end). split; [|destruct config; reflexivity]. apply parse_line. unfold parse.
  destruct t; cbn [declared fst snd]; eapply getopt_line; try exact H;
    [exact core_takes|exact per_takes|exact train_takes|exact apply_takes|exact sim_takes|exact neigh_working_takes|exact eval_takes].
Qed.

Lemma read_config_of strict fs rest rest' section : config_of rest = config_of rest' -> read_config strict fs rest section = read_config strict fs rest' section.
Proof. destruct rest as [|p [|]], rest' as [|p' [|]]; cbn; intros H; try discriminate; try reflexivity. injection H as ->. reflexivity. Qed.
(** what a run does depends on the options and the configuration file only: abbreviations, grouped letters and "--" make no difference *)
Theorem C110_same t fs args args' given rest rest' : line (cli_of t) args given rest -> line (cli_of t) args' given rest' -> config_of rest = config_of rest' ->
  run t fs args = run t fs args' /\ effects_of t fs args = effects_of t fs args'.
Proof.
  intros H1 H2 HC. apply parse_line in H1, H2. unfold parse in H1, H2.
  destruct t; cbn [declared fst snd] in H1, H2; cbn [run effects_of];
    [unfold main_core, t_main_core|unfold main_peripheral, t_main_peripheral|unfold main_train, t_main_train|unfold main_apply, t_main_apply|unfold main_sim, t_main_sim|unfold main_neighbours, t_main_neighbours|unfold main_evaluate, t_main_evaluate];
    rewrite H1, H2, ?lift_ok; cbn [bind]; rewrite (read_config_of _ fs rest rest' _ HC); split; reflexivity.
Qed.
(** all other command lines are refused before anything is done *)
Theorem C110_refused t fs args : (forall given rest, ~ line (cli_of t) args given rest) -> run t fs args = Err SystemExit /\ effects_of t fs args = [].
Proof.
  intros H. apply parse_err in H. unfold parse in H.
  destruct t; cbn [declared fst snd] in H; cbn [run effects_of];
    [unfold main_core, t_main_core|unfold main_peripheral, t_main_peripheral|unfold main_train, t_main_train|unfold main_apply, t_main_apply|unfold main_sim, t_main_sim|unfold main_neighbours, t_main_neighbours|unfold main_evaluate, t_main_evaluate];
    rewrite H; split; reflexivity.
Qed.
(** asking for help does nothing else *)
Theorem C110_help t fs args given rest : line (cli_of t) args given rest -> In "-h" (map fst given) \/ In "--help" (map fst given) -> config_readable t fs (config_of rest) ->
  run t fs args = Err SystemExit /\ effects_of t fs args = [].
Proof.
  intros H HI HC. apply parse_line in H. unfold parse in H.
  assert (HE : forall T cfg, ~ In "-h" (names_of T) -> ~ In "--help" (names_of T) -> settings T cfg given = Err SystemExit).
  { intros T cfg N1 N2. apply settings_unknown, Exists_exists. destruct HI as [HI|HI]; apply in_map_iff in HI; destruct HI as ([o v] & Q & HI); cbn [fst] in Q; subst o; eexists; (split; [exact HI|]); assumption. }
  assert (RC : forall section, exists cfg, read_config (needs_config t) fs rest section = Ok cfg).
  { intros section. unfold read_config. destruct rest as [|p [|]]; eauto. specialize (HC p eq_refl). destruct (fs_file fs p) as [[x|x]|]; [eauto|contradiction|]. rewrite HC. eauto. }
  destruct t; cbn [declared fst snd] in H; cbn [run effects_of needs_config] in *;
    [unfold main_core, t_main_core|unfold main_peripheral, t_main_peripheral|unfold main_train, t_main_train|unfold main_apply, t_main_apply|unfold main_sim, t_main_sim|unfold main_neighbours, t_main_neighbours|unfold main_evaluate, t_main_evaluate];
    rewrite H, ?lift_ok; cbn [bind];
    match goal with |- context [read_config _ fs rest ?s] => destruct (RC s) as (cfg & ->) end; rewrite ?lift_ok; cbn [bind];
    rewrite HE by (cbn; intuition discriminate); split; reflexivity.
Qed.
(** a --gz that is neither True nor False: nothing but the log file is touched *)
Theorem C110_boolean t fs args given config v : t = Core \/ t = Peripheral -> command_line (options_of t) given config args ->
  match t with Core => config_is_text fs config | _ => config_may_miss fs config end ->
  value_of t fs given config (["--gz"], "gz") = Some v -> py_eval v = Ok None ->
  (exists e, run t fs args = Err e) /\
  effects_of t fs args = fst (t_config_logging fs (match t with Core => value_of t fs given config (["-l"; "--log"], "log")
                                                   | _ => Some (with_default (value_of t fs given config (["-l"; "--log"], "log")) "./build_core_space.log") end)).
Proof.
  intros [-> | ->] HL HC HV HP; cbn [run effects_of]; unfold value_of in *; cbn [fst snd section_of] in *.
  - rewrite (C55_core fs args given config HL HC), (C70_run_core fs args given config HL HC). cbv zeta. rewrite HV. cbn [with_default]. unfold eval_bool. rewrite HP. cbn [bind]. split.
    + destruct (config_logging _ _); cbn [bind]; [|eauto]. repeat match goal with |- context [first_of ?a ?b] => destruct (first_of a b) end; cbn; eauto.
    + destruct (t_config_logging _ _) as [l [f|e]]; cbn [tbind fst]; [|reflexivity].
      repeat match goal with |- context [first_of ?a ?b] => destruct (first_of a b) end; cbn; apply app_nil_r.
  - rewrite (C55_peripheral fs args given config HL HC), (C70_run_peripheral fs args given config HL HC). cbv zeta. rewrite HV. cbn [with_default]. unfold eval_bool. rewrite HP. cbn [bind]. split.
    + destruct (config_logging _ _); cbn [bind]; [|eauto]. repeat match goal with |- context [first_of ?a ?b] => destruct (first_of a b) end; cbn; eauto.
    + destruct (t_config_logging _ _) as [l [f|e]]; cbn [tbind fst]; [|reflexivity].
      repeat match goal with |- context [first_of ?a ?b] => destruct (first_of a b) end; cbn; apply app_nil_r.
Qed.
End Opts.

(** "--wei" can only mean --weighting, grouped letters, "--" before the configuration file *)
Example C110_example : line (cli_of Core) ["-i"; "data"; "--wei=plog"; "--output_f"; "dm"; "-oout"; "--"; "a.cfg"] [("-i", "data"); ("--weighting", "plog"); ("--output_format", "dm"); ("-o", "out")] ["a.cfg"].
Proof. apply (parse_line Core). reflexivity. Qed.
Example C110_example_help : line (cli_of Core) ["-hi"; "data"] [("-h", ""); ("-i", "data")] [].
Proof. apply (parse_line Core). reflexivity. Qed.
(** "--in" could be --input or --input_format, "--input" is an option; a value is missing; -x is no option; --help takes no value *)
Example C110_example_refused : Forall (fun args => forall given rest, ~ line (cli_of Core) args given rest) [["--in"; "data"]; ["-i"; "data"; "-o"]; ["-x"]; ["--help=yes"]] /\
  line (cli_of Core) ["--input"; "data"] [("--input", "data")] [].
Proof.
  split; [|apply (parse_line Core); reflexivity].
  repeat constructor; intros given rest H; apply (parse_line Core) in H; discriminate H.
Qed.
(** "--gz yes" *)
Example C110_example_boolean : command_line (options_of Core) [("-i", "data"); ("--gz", "yes")] None ["-i"; "data"; "--gz"; "yes"].
Proof.
  apply (cl_option _ "-i" "data" ["-i"; "data"]); [cbn; tauto|left; reflexivity|]. apply (cl_option _ "--gz" "yes" ["--gz"; "yes"]); [cbn; tauto|left; reflexivity|]. constructor.
Qed.
