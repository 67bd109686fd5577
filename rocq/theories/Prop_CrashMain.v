(** Prop_CrashMain.v -- C70: the runs of the programs started from the command line, in terms of the runs of their tools. *)
From Coq Require Import Ascii.
From Verif Require Import Base PyList Dict Num Dense Sparse Matrix Scaling Linalg Operation Similarity Space Peripheral Learner Composition Utils LexFun Str PStr IO Pipe SpecPipe PPipe Prop_Pipe Prop_Pipe2 Crash SpecCrash PCrash.
Local Open Scope string_scope.
Local Open Scope list_scope.
Local Open Scope nat_scope.
Notation "'let^' x ':=' e 'in' k" := (tbind e (fun x => k))
  (at level 200, x pattern, e at level 100, k at level 200, right associativity).

Section Mains.
Context {N : Num} {E : Ext} {FI : FloatIO} {PI : PipeIO} {KI : PickleIO}.
Lemma lift_ok {A B} (a : A) (k : A -> tr B) : tbind (lift (Ok a)) k = k a.
Proof. cbn. destruct (k a); reflexivity. Qed.
Lemma lift_err {A B} e (k : A -> tr B) : tbind (lift (Err e)) k = lift (Err e).
Proof. reflexivity. Qed.
Lemma tbind_ext {A B} (m : tr A) (k k' : A -> tr B) : (forall a, k a = k' a) -> tbind m k = tbind m k'.
Proof. intros H. destruct m as [l [a|e]]; cbn; [rewrite H|]; reflexivity. Qed.

Ltac row n := match goal with
  | He : forall r, In r ?T -> _ |- _ =>
      let r := eval cbv in (nth n T (OR "" "" [] false PNone)) in
      let K := fresh "K" in pose proof (He r ltac:(cbn; tauto)) as K;
      first [apply get_str_none in K; [|reflexivity|reflexivity]
            |eapply get_str_default in K; [|reflexivity|reflexivity]
            |apply get_list_none in K; [|reflexivity|reflexivity]];
      cbn [o_var o_names o_key] in K; rewrite ?K; clear K
  end.
Ltac start options takes read HL :=
  rewrite (getopt_line _ _ options _ _ _ takes HL); rewrite ?lift_ok;
  destruct read as (cfg & -> & Hcfg); rewrite ?lift_ok;
  match goal with |- context [settings ?T cfg ?g] =>
    destruct (settings_ok T cfg g ltac:(no_dup) ltac:(no_dup) (line_options _ _ _ _ HL)) as (e & -> & He) end; rewrite ?lift_ok.

Theorem C70_run_core fs args given config : command_line core_options given config args -> config_is_text fs config ->
  let opt names key := first_of (last_given names given) (config_value fs config "build_core_space" key) in
  t_main_core fs args =
  (let^ fs := t_config_logging fs (opt ["-l"; "--log"] "log") in
   match opt ["-i"; "--input"] "input", opt ["-o"; "--output"] "output", opt ["--input_format"] "input_format" with
   | Some i, Some o, Some f =>
       let^ gz := lift (eval_bool (with_default (opt ["--gz"] "gz") "False")) in
       t_build_spaces fs i f o (opt ["--output_format"] "output_format")
         (op_names (opt ["-w"; "--weighting"] "weighting")) (op_names (opt ["-s"; "--selection"] "selection"))
         (op_names (opt ["-r"; "--reduction"] "reduction")) (op_names (opt ["-n"; "--normalization"] "normalization")) gz
   | _, _, _ => lift (Err SystemExit)
   end).
Proof.
  intros HL HC opt. unfold t_main_core. start core_options core_takes (read_config_strict fs config "build_core_space" HC) HL.
  row 0. row 1. row 2. row 3. row 4. row 5. row 6. row 7. row 8. row 9. rewrite !Hcfg. fold (opt ["-l"; "--log"] "log").
  apply tbind_ext. intros fs1.
  repeat match goal with |- context [first_of (last_given ?n given) (config_value fs config _ ?k)] => fold (opt n k) end.
  destruct (opt ["-i"; "--input"] "input"); cbn [require option_map]; rewrite ?lift_ok, ?lift_err; [|reflexivity].
  destruct (opt ["-o"; "--output"] "output"); cbn [require option_map]; rewrite ?lift_ok, ?lift_err; [|reflexivity].
  destruct (opt ["--input_format"] "input_format"); cbn [require option_map]; rewrite ?lift_ok, ?lift_err; [|reflexivity].
  destruct (opt ["-w"; "--weighting"] "weighting"), (opt ["-s"; "--selection"] "selection"), (opt ["-r"; "--reduction"] "reduction"), (opt ["-n"; "--normalization"] "normalization"); cbn [require assert_bool option_map bind]; rewrite ?lift_ok, ?lift_err; reflexivity.
Qed.

Theorem C70_run_peripheral fs args given config : command_line per_options given config args -> config_may_miss fs config ->
  let opt names key := first_of (last_given names given) (config_value fs config "build_peripheral_space" key) in
  t_main_peripheral fs args =
  (let^ fs := t_config_logging fs (Some (with_default (opt ["-l"; "--log"] "log") "./build_core_space.log")) in
   match opt ["-i"; "--input"] "input", opt ["-o"; "--output"] "output", opt ["--input_format"] "input_format" with
   | Some i, Some o, Some f =>
       let^ gz := lift (eval_bool (with_default (opt ["--gz"] "gz") "False")) in
       match opt ["--core_in_dir"] "core_in_dir", opt ["-c"; "--core"] "core" with
       | Some d, _ => t_build_per_batch fs i f o (opt ["--output_format"] "output_format") d (with_default (opt ["--core_filter"] "core_filter") "") gz
       | None, Some c => t_build_per_space fs i f o (opt ["--output_format"] "output_format") c gz
       | None, None => lift (Err SystemExit)
       end
   | _, _, _ => lift (Err SystemExit)
   end).
Proof.
  intros HL HC opt. unfold t_main_peripheral. start per_options per_takes (read_config_loose fs config "build_peripheral_space" HC) HL.
  row 0. row 1. row 2. row 3. row 4. row 5. row 6. row 7. row 8. rewrite !Hcfg.
  repeat match goal with |- context [first_of (last_given ?n given) (config_value fs config _ ?k)] => fold (opt n k) end.
  apply tbind_ext. intros fs1.
  destruct (opt ["-i"; "--input"] "input"); cbn [require option_map]; rewrite ?lift_ok, ?lift_err; [|reflexivity].
  destruct (opt ["-o"; "--output"] "output"); cbn [require option_map]; rewrite ?lift_ok, ?lift_err; [|reflexivity].
  destruct (opt ["--input_format"] "input_format"); cbn [require option_map]; rewrite ?lift_ok, ?lift_err; [|reflexivity].
  destruct (eval_bool _) as [gz|e1]; cbn [require option_map]; rewrite ?lift_ok, ?lift_err; [|reflexivity].
  destruct (opt ["--core_in_dir"] "core_in_dir"); cbn [require option_map]; rewrite ?lift_ok, ?lift_err; [rewrite ?lift_ok, ?lift_err; reflexivity|].
  destruct (opt ["-c"; "--core"] "core"); cbn [require assert_bool option_map bind]; rewrite ?lift_ok, ?lift_err; reflexivity.
Qed.

Theorem C70_run_similarities fs args given config : command_line sim_options given config args -> config_may_miss fs config ->
  let opt names key := first_of (last_given names given) (config_value fs config "compute_similarities" key) in
  t_main_sim fs args =
  (let^ fs := t_config_logging fs (opt ["-l"; "--log"] "log") in
   match opt ["-i"; "--input"] "input", opt ["-o"; "--output"] "output", opt ["-m"; "--sim_measures"] "sim_measures", opt ["-c"; "--columns"] "columns" with
   | Some i, Some o, Some m, Some c =>
       match opt ["--in_dir"] "in_dir", opt ["-s"; "--space"] "space" with
       | Some d, _ => t_compute_sim_batch fs i (commas c) o (commas m) d
       | None, Some s => t_compute_sim fs i (commas c) o (commas m) (commas s)
       | None, None => lift (Err SystemExit)
       end
   | _, _, _, _ => lift (Err SystemExit)
   end).
Proof.
  intros HL HC opt. unfold t_main_sim. start sim_options sim_takes (read_config_loose fs config "compute_similarities" HC) HL.
  row 0. row 1. row 2. row 3. row 4. row 5. row 6. rewrite !Hcfg.
  repeat match goal with |- context [first_of (last_given ?n given) (config_value fs config _ ?k)] => fold (opt n k) end.
  apply tbind_ext. intros fs1.
  destruct (opt ["-i"; "--input"] "input"); cbn [require option_map]; rewrite ?lift_ok, ?lift_err; [|reflexivity].
  destruct (opt ["-o"; "--output"] "output"); cbn [require option_map]; rewrite ?lift_ok, ?lift_err; [|reflexivity].
  destruct (opt ["-m"; "--sim_measures"] "sim_measures"); cbn [require option_map]; rewrite ?lift_ok, ?lift_err; [|reflexivity].
  destruct (opt ["-c"; "--columns"] "columns"); cbn [require option_map]; rewrite ?lift_ok, ?lift_err; [|reflexivity].
  destruct (opt ["--in_dir"] "in_dir"); cbn [require option_map]; rewrite ?lift_ok, ?lift_err; [rewrite ?lift_ok, ?lift_err; reflexivity|].
  destruct (opt ["-s"; "--space"] "space"); cbn [require assert_bool option_map bind]; rewrite ?lift_ok, ?lift_err; reflexivity.
Qed.

Theorem C70_run_apply fs args given config : command_line apply_options given config args -> config_may_miss fs config ->
  let opt names key := first_of (last_given names given) (config_value fs config "apply_composition" key) in
  t_main_apply fs args =
  (let^ fs := t_config_logging fs (opt ["-l"; "--log"] "log") in
   let model := opt ["-m"; "--model"] "model" in
   let saved := opt ["--load_model"] "load_model" in
   match opt ["-i"; "--input"] "input", opt ["-o"; "--output"] "output", opt ["-a"; "--arg_space"] "arg_space" with
   | Some i, Some o, Some a =>
       match model, saved with
       | Some _, Some _ | None, None => lift (Err SystemExit)
       | _, _ =>
           let^ alpha := lift (opt_float (opt ["--alpha"] "alpha")) in
           let^ beta := lift (opt_float (opt ["--beta"] "beta")) in
           let^ lambda := lift (opt_float (opt ["--lambda"] "lambda")) in
           t_apply_model fs i o model saved (commas a) alpha beta lambda (opt ["--output_format"] "output_format")
       end
   | _, _, _ => lift (Err SystemExit)
   end).
Proof.
  intros HL HC opt. unfold t_main_apply. start apply_options apply_takes (read_config_loose fs config "apply_composition" HC) HL.
  row 0. row 1. row 2. row 3. row 4. row 5. row 6. row 7. row 8. row 9. rewrite !Hcfg.
  repeat match goal with |- context [first_of (last_given ?n given) (config_value fs config _ ?k)] => fold (opt n k) end.
  apply tbind_ext. intros fs1.
  destruct (opt ["-i"; "--input"] "input"); cbn [require option_map]; rewrite ?lift_ok, ?lift_err; [|reflexivity].
  destruct (opt ["-o"; "--output"] "output"); cbn [require option_map]; rewrite ?lift_ok, ?lift_err; [|reflexivity].
  destruct (opt ["-a"; "--arg_space"] "arg_space"); cbn [require option_map]; rewrite ?lift_ok, ?lift_err;
    destruct (opt ["-m"; "--model"] "model"), (opt ["--load_model"] "load_model"); cbn [require assert_bool option_map bind]; rewrite ?lift_ok, ?lift_err; reflexivity.
Qed.

Theorem C70_run_train fs args given config : command_line train_options given config args -> config_may_miss fs config ->
  let opt names key := first_of (last_given names given) (config_value fs config "train_composition" key) in
  t_main_train fs args =
  (let^ fs := t_config_logging fs (opt ["-l"; "--log"] "log") in
   match opt ["-i"; "--input"] "input", opt ["-o"; "--output"] "output", opt ["-m"; "--model"] "model",
         opt ["-a"; "--arg_space"] "arg_space", opt ["-p"; "--phrase_space"] "phrase_space" with
   | Some i, Some o, Some m, Some a, Some p =>
       let regression := opt ["-r"; "--regression"] "regression" in
       let^ cv := lift (py_eval (with_default (opt ["--crossvalidation"] "crossvalidation") "False")) in
       let^ icpt := lift (py_eval (with_default (opt ["--intercept"] "intercept") "True")) in
       match cv, icpt with
       | Some cv, Some icpt =>
           let^ ex := lift (eval_bool (with_default (opt ["--export_params"] "export_params") "False")) in
           let^ (param, range) := lift (train_params (opt ["--lambda"] "lambda") (option_map commas (opt ["--lambda_range"] "lambda_range"))) in
           match cv, regression, param with
           | false, Some "ridge", None => lift (Err SystemExit)
           | _, _, _ => t_train_model fs i o m (commas a) p regression cv icpt param range ex
           end
       | _, _ => lift (Err SystemExit)
       end
   | _, _, _, _, _ => lift (Err SystemExit)
   end).
Proof.
  intros HL HC opt. unfold t_main_train. start train_options train_takes (read_config_loose fs config "train_composition" HC) HL.
  row 0. row 1. row 2. row 3. row 4. row 5. row 6. row 7. row 8. row 9. row 10. row 11. rewrite !Hcfg.
  repeat match goal with |- context [first_of (last_given ?n given) (config_value fs config _ ?k)] => fold (opt n k) end.
  apply tbind_ext. intros fs1.
  destruct (opt ["-i"; "--input"] "input") as [i|]; cbn [require option_map]; rewrite ?lift_ok, ?lift_err; [|reflexivity].
  destruct (opt ["-o"; "--output"] "output") as [o|]; cbn [require option_map]; rewrite ?lift_ok, ?lift_err; [|reflexivity].
  destruct (opt ["-m"; "--model"] "model") as [m|]; cbn [require option_map]; rewrite ?lift_ok, ?lift_err; [|reflexivity].
  destruct (opt ["-a"; "--arg_space"] "arg_space") as [a|]; cbn [require option_map]; rewrite ?lift_ok, ?lift_err; [|reflexivity].
  destruct (opt ["-p"; "--phrase_space"] "phrase_space") as [p|]; cbn [require option_map]; rewrite ?lift_ok, ?lift_err; [|reflexivity].
  destruct (py_eval (with_default (opt ["--crossvalidation"] _) _)) as [cv|]; cbn [require option_map]; rewrite ?lift_ok, ?lift_err; [|reflexivity].
  destruct (py_eval (with_default (opt ["--intercept"] _) _)) as [ic|]; cbn [require option_map]; rewrite ?lift_ok, ?lift_err; [|reflexivity].
  destruct ic as [ic|]; [|destruct cv; cbn [require assert_bool option_map bind]; rewrite ?lift_ok, ?lift_err; reflexivity]. destruct cv as [cv|]; [|reflexivity]. cbn [assert_bool require]; rewrite ?lift_ok, ?lift_err.
  destruct (eval_bool _) as [ex|]; cbn [require option_map]; rewrite ?lift_ok, ?lift_err; [|reflexivity].
  destruct (train_params _ _) as [[pa ra]|]; cbn [require option_map]; rewrite ?lift_ok, ?lift_err; [|reflexivity].
  destruct (opt ["-r"; "--regression"] "regression") as [r|]; [|destruct cv; cbn [require assert_bool option_map bind]; rewrite ?lift_ok, ?lift_err; reflexivity].
  destruct cv; cbn [negb andb]; [rewrite ?lift_ok, ?lift_err; reflexivity|]. destruct (String.eqb_spec r "ridge") as [-> |Hr]; [destruct pa; cbn [require bind]; rewrite ?lift_ok, ?lift_err; reflexivity|].
  cbn [require option_map]; rewrite ?lift_ok, ?lift_err.
  assert (G : forall A (x y : A) s, s <> "ridge" -> match s, pa with "ridge", None => x | _, _ => y end = y).
  { clear. intros A x y s Hs. destruct pa; repeat (destruct s as [|[b0 b1 b2 b3 b4 b5 b6 b7] s]; try reflexivity; try (destruct b0, b1, b2, b3, b4, b5, b6, b7; try reflexivity)); congruence. }
  exact (eq_sym (G _ _ _ r Hr)).
Qed.

(** with the options that work (see C55_neighbours_partial) *)
Theorem C70_run_neighbours fs args given config : command_line neigh_working given config args -> config_is_text fs config ->
  let opt names key := first_of (last_given names given) (config_value fs config "compute_neighbours" key) in
  t_main_neighbours fs args =
  (let^ fs := t_config_logging fs (opt ["-l"; "--log"] "log") in
   let^ k := lift (parse_int (with_default (opt ["-n"; "--no_neighbours"] "no_neighbours") "20")) in
   match opt ["-i"; "--input"] "input", opt ["-o"; "--output"] "output", opt ["-m"] "sim_measure", opt ["-s"; "--space"] "space" with
   | Some i, Some o, Some m, Some s => t_compute_neighbours fs i k o m (commas s)
   | _, _, _, _ => lift (Err SystemExit)
   end).
Proof.
  intros HL HC opt. unfold t_main_neighbours. rewrite (getopt_line _ _ _ _ _ _ neigh_working_takes HL). cbn [require option_map]; rewrite ?lift_ok, ?lift_err.
  destruct (read_config_strict fs config "compute_neighbours" HC) as (cfg & -> & Hcfg). cbn [require option_map]; rewrite ?lift_ok, ?lift_err.
  assert (HG : Forall (fun ov => In (fst ov) (names_of neigh_table)) given).
  { eapply Forall_impl; [|apply (line_options _ _ _ _ HL)]. intros [o v] Ho. cbn in Ho |- *. tauto. }
  destruct (settings_ok neigh_table cfg given ltac:(no_dup) ltac:(no_dup) HG) as (e & -> & He). cbn [require option_map]; rewrite ?lift_ok, ?lift_err.
  row 0. row 1. row 2. row 3. row 4. row 5. rewrite !Hcfg.
  assert (Hm : last_given ["-m"; "--sim_measure"] given = last_given ["-m"] given).
  { unfold last_given. f_equal. f_equal. apply filter_ext_in. intros [o v] Hi. pose proof (line_options _ _ _ _ HL) as Hl. rewrite Forall_forall in Hl. specialize (Hl _ Hi).
    cbn in Hl |- *. repeat destruct Hl as [Hl|Hl]; subst; try reflexivity; contradiction. }
  rewrite Hm.
  repeat match goal with |- context [first_of (last_given ?n given) (config_value fs config _ ?k)] => fold (opt n k) end.
  apply tbind_ext. intros fs1. cbn [require]. rewrite !lift_ok.
  destruct (parse_int _) as [k|]; cbn [require option_map]; rewrite ?lift_ok, ?lift_err; [|reflexivity].
  destruct (opt ["-i"; "--input"] "input"); cbn [require option_map]; rewrite ?lift_ok, ?lift_err; [|reflexivity].
  destruct (opt ["-o"; "--output"] "output"); cbn [require option_map]; rewrite ?lift_ok, ?lift_err; [|reflexivity].
  destruct (opt ["-m"] "sim_measure"); cbn [require option_map]; rewrite ?lift_ok, ?lift_err; [|reflexivity].
  destruct (opt ["-s"; "--space"] "space"); cbn [require assert_bool option_map bind]; rewrite ?lift_ok, ?lift_err; reflexivity.
Qed.
End Mains.
