(** Prop_Pipe.v -- C55 (options, configuration file, defaults), C56 (--lambda). *)
From Coq Require Import Ascii.
From Verif Require Import Base PyList Dict Num Dense Sparse Matrix Scaling Linalg Operation Similarity Space Peripheral Learner Composition Utils LexFun Str PStr IO Pipe SpecPipe PPipe.
Local Open Scope string_scope.
Local Open Scope list_scope.
Local Open Scope nat_scope.

Ltac no_dup := repeat (apply NoDup_cons; [cbn; intros K; repeat (destruct K as [K|K]; [discriminate|]); exact K|]); apply NoDup_nil.
Ltac no_equals := cbn; intros K; repeat (destruct K as [K|K]; [discriminate|]); exact K.
Ltac take := repeat (apply Forall_cons;
  [first [apply takes_short; vm_compute; reflexivity
         |match goal with |- takes_value ?s ?l (String _ (String _ ?n)) => refine (takes_long s l n _ _ _); [discriminate|no_equals|vm_compute; reflexivity] end]|]); apply Forall_nil.

Lemma core_takes : Forall (takes_value core_short core_long) (names_of core_table).
Proof. take. Qed.
Lemma per_takes : Forall (takes_value per_short per_long) (names_of per_table).
Proof. take. Qed.
Lemma train_takes : Forall (takes_value train_short train_long) (names_of train_table).
Proof. take. Qed.
Lemma apply_takes : Forall (takes_value apply_short apply_long) (names_of apply_table).
Proof. take. Qed.
Lemma sim_takes : Forall (takes_value sim_short sim_long) (names_of sim_table).
Proof. take. Qed.
Lemma eval_takes : Forall (takes_value eval_short eval_long) (names_of eval_table).
Proof. take. Qed.
Definition neigh_options : list string := ["-i"; "--input"; "-o"; "--output"; "-m"; "--sim_measures"; "-s"; "--space"; "-n"; "--no_neighbours"; "-l"; "--log"].
Lemma neigh_takes : Forall (takes_value neigh_short neigh_long) neigh_options.
Proof. take. Qed.

(** the options of each tool (the -h / --help options, which print the usage text, are left out) *)
Definition core_options : list string := ["-i"; "--input"; "-o"; "--output"; "--gz"; "-w"; "--weighting"; "-s"; "--selection";
  "-r"; "--reduction"; "-n"; "--normalization"; "-l"; "--log"; "--input_format"; "--output_format"].
Definition per_options : list string := ["-i"; "--input"; "-o"; "--output"; "--gz"; "-c"; "--core"; "-l"; "--log"; "--input_format";
  "--output_format"; "--core_in_dir"; "--core_filter"].
Definition train_options : list string := ["-i"; "--input"; "-o"; "--output"; "-m"; "--model"; "-a"; "--arg_space"; "-p"; "--phrase_space";
  "-r"; "--regression"; "--crossvalidation"; "--intercept"; "--lambda"; "--lambda_range"; "--export_params"; "-l"; "--log"].
Definition apply_options : list string := ["-i"; "--input"; "-o"; "--output"; "-m"; "--model"; "-a"; "--arg_space"; "--load_model";
  "--alpha"; "--beta"; "--lambda"; "--output_format"; "-l"; "--log"].
Definition sim_options : list string := ["-i"; "--input"; "-o"; "--output"; "--in_dir"; "-m"; "--sim_measures"; "-s"; "--space";
  "-c"; "--columns"; "-l"; "--log"].
Definition eval_options : list string := ["-i"; "--input"; "-m"; "--correlation_measure"; "-c"; "--columns"; "--in_dir"; "--filter"; "-l"; "--log"].
(** a list of operations: comma-separated names, or no operation *)
Definition op_names (o : option string) : list (option string) := match o with Some s => map Some (commas s) | None => [None] end.

Section Opts.
Context {N : Num} {E : Ext} {FI : FloatIO} {PI : PipeIO}.

Ltac row n := match goal with
  | He : forall r, In r ?T -> _ |- _ =>
      let r := eval cbv in (nth n T (OR "" "" [] false PNone)) in
      let K := fresh "K" in pose proof (He r ltac:(cbn; tauto)) as K;
      first [apply get_str_none in K; [|reflexivity|reflexivity]
            |eapply get_str_default in K; [|reflexivity|reflexivity]
            |apply get_list_none in K; [|reflexivity|reflexivity]];
      cbn [o_var o_names o_key] in K; rewrite ?K; clear K
  end.
Ltac start options takes read HL :=
  rewrite (getopt_line _ _ options _ _ _ takes HL); cbn [bind];
  destruct read as (cfg & -> & Hcfg); cbn [bind];
  match goal with |- context [settings ?T cfg ?g] =>
    destruct (settings_ok T cfg g ltac:(no_dup) ltac:(no_dup) (line_options _ _ _ _ HL)) as (e & -> & He) end; cbn [bind].

Theorem C55_core fs args given config : command_line core_options given config args -> config_is_text fs config ->
  let opt names key := first_of (last_given names given) (config_value fs config "build_core_space" key) in
  main_core fs args =
  (let* fs := config_logging fs (opt ["-l"; "--log"] "log") in
   match opt ["-i"; "--input"] "input", opt ["-o"; "--output"] "output", opt ["--input_format"] "input_format" with
   | Some i, Some o, Some f =>
       let* gz := eval_bool (with_default (opt ["--gz"] "gz") "False") in
       build_spaces fs i f o (opt ["--output_format"] "output_format")
         (op_names (opt ["-w"; "--weighting"] "weighting")) (op_names (opt ["-s"; "--selection"] "selection"))
         (op_names (opt ["-r"; "--reduction"] "reduction")) (op_names (opt ["-n"; "--normalization"] "normalization")) gz
   | _, _, _ => Err SystemExit
   end).
Proof.
  intros HL HC opt. unfold main_core. start core_options core_takes (read_config_strict fs config "build_core_space" HC) HL.
  row 0. row 1. row 2. row 3. row 4. row 5. row 6. row 7. row 8. row 9. rewrite !Hcfg. fold (opt ["-l"; "--log"] "log").
  destruct (config_logging fs _) as [fs1|e1]; cbn [bind]; [|reflexivity].
  repeat match goal with |- context [first_of (last_given ?n given) (config_value fs config _ ?k)] => fold (opt n k) end.
  destruct (opt ["-i"; "--input"] "input"); cbn [require bind]; [|reflexivity].
  destruct (opt ["-o"; "--output"] "output"); cbn [require bind]; [|reflexivity].
  destruct (opt ["--input_format"] "input_format"); cbn [require bind]; [|reflexivity].
  destruct (opt ["-w"; "--weighting"] "weighting"), (opt ["-s"; "--selection"] "selection"), (opt ["-r"; "--reduction"] "reduction"), (opt ["-n"; "--normalization"] "normalization"); reflexivity.
Qed.

Theorem C55_peripheral fs args given config : command_line per_options given config args -> config_may_miss fs config ->
  let opt names key := first_of (last_given names given) (config_value fs config "build_peripheral_space" key) in
  main_peripheral fs args =
  (let* fs := config_logging fs (Some (with_default (opt ["-l"; "--log"] "log") "./build_core_space.log")) in
   match opt ["-i"; "--input"] "input", opt ["-o"; "--output"] "output", opt ["--input_format"] "input_format" with
   | Some i, Some o, Some f =>
       let* gz := eval_bool (with_default (opt ["--gz"] "gz") "False") in
       match opt ["--core_in_dir"] "core_in_dir", opt ["-c"; "--core"] "core" with
       | Some d, _ => build_per_batch fs i f o (opt ["--output_format"] "output_format") d (with_default (opt ["--core_filter"] "core_filter") "") gz
       | None, Some c => build_per_space fs i f o (opt ["--output_format"] "output_format") c gz
       | None, None => Err SystemExit
       end
   | _, _, _ => Err SystemExit
   end).
Proof.
  intros HL HC opt. unfold main_peripheral. start per_options per_takes (read_config_loose fs config "build_peripheral_space" HC) HL.
  row 0. row 1. row 2. row 3. row 4. row 5. row 6. row 7. row 8. rewrite !Hcfg.
  repeat match goal with |- context [first_of (last_given ?n given) (config_value fs config _ ?k)] => fold (opt n k) end.
  destruct (config_logging fs _) as [fs1|e1]; cbn [bind]; [|reflexivity].
  destruct (opt ["-i"; "--input"] "input"); cbn [require bind]; [|reflexivity].
  destruct (opt ["-o"; "--output"] "output"); cbn [require bind]; [|reflexivity].
  destruct (opt ["--input_format"] "input_format"); cbn [require bind]; [|reflexivity].
  destruct (eval_bool _) as [gz|e1]; cbn [bind]; [|reflexivity].
  destruct (opt ["--core_in_dir"] "core_in_dir"); cbn [require bind]; [reflexivity|].
  destruct (opt ["-c"; "--core"] "core"); reflexivity.
Qed.

Theorem C55_similarities fs args given config : command_line sim_options given config args -> config_may_miss fs config ->
  let opt names key := first_of (last_given names given) (config_value fs config "compute_similarities" key) in
  main_sim fs args =
  (let* fs := config_logging fs (opt ["-l"; "--log"] "log") in
   match opt ["-i"; "--input"] "input", opt ["-o"; "--output"] "output", opt ["-m"; "--sim_measures"] "sim_measures", opt ["-c"; "--columns"] "columns" with
   | Some i, Some o, Some m, Some c =>
       match opt ["--in_dir"] "in_dir", opt ["-s"; "--space"] "space" with
       | Some d, _ => compute_sim_batch fs i (commas c) o (commas m) d
       | None, Some s => compute_sim fs i (commas c) o (commas m) (commas s)
       | None, None => Err SystemExit
       end
   | _, _, _, _ => Err SystemExit
   end).
Proof.
  intros HL HC opt. unfold main_sim. start sim_options sim_takes (read_config_loose fs config "compute_similarities" HC) HL.
  row 0. row 1. row 2. row 3. row 4. row 5. row 6. rewrite !Hcfg.
  repeat match goal with |- context [first_of (last_given ?n given) (config_value fs config _ ?k)] => fold (opt n k) end.
  destruct (config_logging fs _) as [fs1|e1]; cbn [bind]; [|reflexivity].
  destruct (opt ["-i"; "--input"] "input"); cbn [require bind]; [|reflexivity].
  destruct (opt ["-o"; "--output"] "output"); cbn [require bind]; [|reflexivity].
  destruct (opt ["-m"; "--sim_measures"] "sim_measures"); cbn [require bind option_map]; [|reflexivity].
  destruct (opt ["-c"; "--columns"] "columns"); cbn [require bind option_map]; [|reflexivity].
  destruct (opt ["--in_dir"] "in_dir"); cbn [require bind]; [reflexivity|].
  destruct (opt ["-s"; "--space"] "space"); reflexivity.
Qed.

Theorem C55_evaluate fs args given config : command_line eval_options given config args -> config_may_miss fs config ->
  let opt names key := first_of (last_given names given) (config_value fs config "evaluate_similarities" key) in
  main_evaluate fs args =
  (let* fs := config_logging fs (opt ["-l"; "--log"] "log") in
   match opt ["-m"; "--correlation_measure"] "correlation_measure", opt ["-c"; "--columns"] "columns" with
   | Some m, Some c =>
       let* _ := check (Nat.eqb (length (commas c)) 2) ValueError in
       let* out := (match opt ["--in_dir"] "in_dir", opt ["-i"; "--input"] "input" with
                    | Some d, _ => evaluate_sim_batch fs d (commas c) (commas m) (with_default (opt ["--filter"] "filter") "")
                    | None, Some i => evaluate_sim fs i (commas c) (commas m)
                    | None, None => Err SystemExit
                    end) in
       Ok (out, fs)
   | _, _ => Err SystemExit
   end).
Proof.
  intros HL HC opt. unfold main_evaluate. start eval_options eval_takes (read_config_loose fs config "evaluate_similarities" HC) HL.
  row 0. row 1. row 2. row 3. row 4. row 5. rewrite !Hcfg.
  repeat match goal with |- context [first_of (last_given ?n given) (config_value fs config _ ?k)] => fold (opt n k) end.
  destruct (config_logging fs _) as [fs1|e1]; cbn [bind]; [|reflexivity].
  destruct (opt ["-m"; "--correlation_measure"] "correlation_measure"); cbn [require bind option_map]; [|reflexivity].
  destruct (opt ["-c"; "--columns"] "columns"); cbn [require bind option_map]; [|reflexivity].
  destruct (check _ _); cbn [bind]; [|reflexivity].
  destruct (opt ["--in_dir"] "in_dir"); cbn [require bind]; [reflexivity|].
  destruct (opt ["-i"; "--input"] "input"); reflexivity.
Qed.

Theorem C55_apply fs args given config : command_line apply_options given config args -> config_may_miss fs config ->
  let opt names key := first_of (last_given names given) (config_value fs config "apply_composition" key) in
  main_apply fs args =
  (let* fs := config_logging fs (opt ["-l"; "--log"] "log") in
   let model := opt ["-m"; "--model"] "model" in
   let saved := opt ["--load_model"] "load_model" in
   match opt ["-i"; "--input"] "input", opt ["-o"; "--output"] "output", opt ["-a"; "--arg_space"] "arg_space" with
   | Some i, Some o, Some a =>
       match model, saved with
       | Some _, Some _ | None, None => Err SystemExit
       | _, _ =>
           let* alpha := opt_float (opt ["--alpha"] "alpha") in
           let* beta := opt_float (opt ["--beta"] "beta") in
           let* lambda := opt_float (opt ["--lambda"] "lambda") in
           apply_model fs i o model saved (commas a) alpha beta lambda (opt ["--output_format"] "output_format")
       end
   | _, _, _ => Err SystemExit
   end).
Proof.
  intros HL HC opt. unfold main_apply. start apply_options apply_takes (read_config_loose fs config "apply_composition" HC) HL.
  row 0. row 1. row 2. row 3. row 4. row 5. row 6. row 7. row 8. row 9. rewrite !Hcfg.
  repeat match goal with |- context [first_of (last_given ?n given) (config_value fs config _ ?k)] => fold (opt n k) end.
  destruct (config_logging fs _) as [fs1|e1]; cbn [bind]; [|reflexivity].
  destruct (opt ["-i"; "--input"] "input"); cbn [require bind]; [|reflexivity].
  destruct (opt ["-o"; "--output"] "output"); cbn [require bind]; [|reflexivity].
  destruct (opt ["-a"; "--arg_space"] "arg_space"); cbn [require bind option_map];
    destruct (opt ["-m"; "--model"] "model"), (opt ["--load_model"] "load_model"); reflexivity.
Qed.

(** train_composition: everything but the lambda range (C56) *)
Theorem C55_train fs args given config : command_line train_options given config args -> config_may_miss fs config ->
  let opt names key := first_of (last_given names given) (config_value fs config "train_composition" key) in
  main_train fs args =
  (let* fs := config_logging fs (opt ["-l"; "--log"] "log") in
   match opt ["-i"; "--input"] "input", opt ["-o"; "--output"] "output", opt ["-m"; "--model"] "model",
         opt ["-a"; "--arg_space"] "arg_space", opt ["-p"; "--phrase_space"] "phrase_space" with
   | Some i, Some o, Some m, Some a, Some p =>
       let regression := opt ["-r"; "--regression"] "regression" in
       let* cv := py_eval (with_default (opt ["--crossvalidation"] "crossvalidation") "False") in
       let* icpt := py_eval (with_default (opt ["--intercept"] "intercept") "True") in
       match cv, icpt with
       | Some cv, Some icpt =>
           let* ex := eval_bool (with_default (opt ["--export_params"] "export_params") "False") in
           let* (param, range) := train_params (opt ["--lambda"] "lambda") (option_map commas (opt ["--lambda_range"] "lambda_range")) in
           match cv, regression, param with
           | false, Some "ridge", None => Err SystemExit
           | _, _, _ => train_model fs i o m (commas a) p regression cv icpt param range ex
           end
       | _, _ => Err SystemExit
       end
   | _, _, _, _, _ => Err SystemExit
   end).
Proof.
  intros HL HC opt. unfold main_train. start train_options train_takes (read_config_loose fs config "train_composition" HC) HL.
  row 0. row 1. row 2. row 3. row 4. row 5. row 6. row 7. row 8. row 9. row 10. row 11. rewrite !Hcfg.
  repeat match goal with |- context [first_of (last_given ?n given) (config_value fs config _ ?k)] => fold (opt n k) end.
  destruct (config_logging fs _) as [fs1|e1]; cbn [bind]; [|reflexivity].
  destruct (opt ["-i"; "--input"] "input") as [i|]; cbn [require bind]; [|reflexivity].
  destruct (opt ["-o"; "--output"] "output") as [o|]; cbn [require bind]; [|reflexivity].
  destruct (opt ["-m"; "--model"] "model") as [m|]; cbn [require bind]; [|reflexivity].
  destruct (opt ["-a"; "--arg_space"] "arg_space") as [a|]; cbn [require bind option_map]; [|reflexivity].
  destruct (opt ["-p"; "--phrase_space"] "phrase_space") as [p|]; cbn [require bind]; [|reflexivity].
  destruct (py_eval (with_default (opt ["--crossvalidation"] _) _)) as [cv|]; cbn [bind]; [|reflexivity].
  destruct (py_eval (with_default (opt ["--intercept"] _) _)) as [ic|]; cbn [bind]; [|reflexivity].
  destruct ic as [ic|]; [|destruct cv; reflexivity]. destruct cv as [cv|]; [|reflexivity]. cbn [assert_bool require bind].
  destruct (eval_bool _) as [ex|]; cbn [bind]; [|reflexivity].
  destruct (train_params _ _) as [[pa ra]|]; cbn [bind]; [|reflexivity].
  destruct (opt ["-r"; "--regression"] "regression") as [r|]; [|destruct cv; reflexivity].
  destruct cv; cbn [negb andb]; [reflexivity|]. destruct (String.eqb_spec r "ridge") as [-> |Hr]; [destruct pa; reflexivity|].
  cbn [bind].
  assert (G : forall A (x y : A) s, s <> "ridge" -> match s, pa with "ridge", None => x | _, _ => y end = y).
  { clear. intros A x y s Hs. destruct pa; repeat (destruct s as [|[b0 b1 b2 b3 b4 b5 b6 b7] s]; try reflexivity; try (destruct b0, b1, b2, b3, b4, b5, b6, b7; try reflexivity)); congruence. }
  exact (eq_sym (G _ _ _ r Hr)).
Qed.
End Opts.
