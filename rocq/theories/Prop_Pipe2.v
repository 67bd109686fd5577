(** Prop_Pipe2.v -- C55 for compute_neighbours. *)
From Coq Require Import Ascii.
From Verif Require Import Base PyList Dict Num Dense Sparse Matrix Scaling Linalg Operation Similarity Space Peripheral Learner Composition Utils LexFun Str PStr IO Pipe SpecPipe PPipe Prop_Pipe.
Local Open Scope string_scope.
Local Open Scope list_scope.
Local Open Scope nat_scope.

(** the documented options, and those among them that work *)
Definition neigh_documented : list string := ["-i"; "--input"; "-o"; "--output"; "-m"; "--sim_measure"; "-s"; "--space"; "-n"; "--no_neighbours"; "-l"; "--log"].
Definition neigh_working : list string := ["-i"; "--input"; "-o"; "--output"; "-m"; "-s"; "--space"; "-n"; "--no_neighbours"; "-l"; "--log"].

Lemma neigh_working_takes : Forall (takes_value neigh_short neigh_long) neigh_working.
Proof. take. Qed.
(** getopt accepts the documented "--sim_measure" as an abbreviation, and reports it as "--sim_measures" *)
Lemma neigh_documented_line given config args : command_line neigh_documented given config args ->
  getopt args neigh_short neigh_long =
  Ok (map (fun ov => (if String.eqb (fst ov) "--sim_measure" then "--sim_measures" else fst ov, snd ov)) given, match config with Some p => [p] | None => [] end).
Proof.
  intros H. induction H as [|p Hp|o v args given config rest Ho Hw _ IH]; [reflexivity| |].
  - apply (getopt_line _ _ neigh_working [] (Some p)); [apply neigh_working_takes|]. constructor. exact Hp.
  - assert (K : o = "--sim_measure" \/ (o <> "--sim_measure" /\ In o neigh_working)).
    { cbn in Ho |- *. repeat destruct Ho as [Ho|Ho]; subst; try (right; split; [discriminate|tauto]); try (left; reflexivity); contradiction. }
    destruct K as [-> |(Hne & Hin)]; cbn [map fst snd].
    + rewrite String.eqb_refl. destruct Hw as [-> |[((c & K & Hc) & _)|(_ & ->)]].
      * cbn [app getopt append]. change (Ascii.eqb "-" dash) with true. cbn [negb String.eqb].
        replace (cut_equals "sim_measure") with ("sim_measure", @None string) by reflexivity.
        replace (long_has_args "sim_measure" neigh_long) with (Ok (true, "sim_measures")) by (vm_compute; reflexivity). cbn [bind]. rewrite IH. reflexivity.
      * exfalso. injection K as K _. congruence.
      * cbn [app getopt append]. change (Ascii.eqb "-" dash) with true. cbn [negb String.eqb].
        change (cut_equals (String "s" (String "i" (String "m" (String "_" (String "m" (String "e" (String "a" (String "s" (String "u" (String "r" (String "e" (String "=" v)))))))))))))
          with (cut_equals ("sim_measure" ++ String "=" v)). rewrite cut_equals_app by no_equals.
        replace (long_has_args "sim_measure" neigh_long) with (Ok (true, "sim_measures")) by (vm_compute; reflexivity). cbn [bind]. rewrite IH. reflexivity.
    + rewrite (proj2 (String.eqb_neq _ _) Hne). pose proof neigh_working_takes as HT. rewrite Forall_forall in HT. rewrite (HT o Hin v args rest Hw), IH. reflexivity.
Qed.

Section Opts.
Context {N : Num} {E : Ext} {FI : FloatIO} {PI : PipeIO}.

Ltac row n := match goal with
  | He : forall r, In r ?T -> _ |- _ =>
      let r := eval cbv in (nth n T (OR "" "" [] false PNone)) in
      let K := fresh "K" in pose proof (He r ltac:(cbn; tauto)) as K;
      first [apply get_str_none in K; [|reflexivity|reflexivity]
            |eapply get_str_default in K; [|reflexivity|reflexivity]
            |apply get_list_none in K; [|reflexivity|reflexivity]];
      cbn [o_var o_names o_key] in K; rewrite ?K; clear K
  end.

(** the full claim would allow "--sim_measure", which the usage text documents (see C55_sim_measure_refuted) *)
Theorem C55_neighbours_partial fs args given config : command_line neigh_working given config args -> config_is_text fs config ->
  let opt names key := first_of (last_given names given) (config_value fs config "compute_neighbours" key) in
  main_neighbours fs args =
  (let* fs := config_logging fs (opt ["-l"; "--log"] "log") in
   let* k := parse_int (with_default (opt ["-n"; "--no_neighbours"] "no_neighbours") "20") in
   match opt ["-i"; "--input"] "input", opt ["-o"; "--output"] "output", opt ["-m"] "sim_measure", opt ["-s"; "--space"] "space" with
   | Some i, Some o, Some m, Some s => compute_neighbours fs i k o m (commas s)
   | _, _, _, _ => Err SystemExit
   end).
Proof.
  intros HL HC opt. unfold main_neighbours. rewrite (getopt_line _ _ _ _ _ _ neigh_working_takes HL). cbn [bind].
  destruct (read_config_strict fs config "compute_neighbours" HC) as (cfg & -> & Hcfg). cbn [bind].
  assert (HG : Forall (fun ov => In (fst ov) (names_of neigh_table)) given).
  { eapply Forall_impl; [|apply (line_options _ _ _ _ HL)]. intros [o v] Ho. cbn in Ho |- *. tauto. }
  destruct (settings_ok neigh_table cfg given ltac:(no_dup) ltac:(no_dup) HG) as (e & -> & He). cbn [bind].
  row 0. row 1. row 2. row 3. row 4. row 5. rewrite !Hcfg.
  assert (Hm : last_given ["-m"; "--sim_measure"] given = last_given ["-m"] given).
  { unfold last_given. f_equal. f_equal. apply filter_ext_in. intros [o v] Hi. pose proof (line_options _ _ _ _ HL) as Hl. rewrite Forall_forall in Hl. specialize (Hl _ Hi).
    cbn in Hl |- *. repeat destruct Hl as [Hl|Hl]; subst; try reflexivity; contradiction. }
  rewrite Hm.
  repeat match goal with |- context [first_of (last_given ?n given) (config_value fs config _ ?k)] => fold (opt n k) end.
  destruct (config_logging fs _) as [fs1|e1]; cbn [bind require]; [|reflexivity].
  destruct (parse_int _) as [k|]; cbn [bind]; [|reflexivity].
  destruct (opt ["-i"; "--input"] "input"); cbn [require bind]; [|reflexivity].
  destruct (opt ["-o"; "--output"] "output"); cbn [require bind]; [|reflexivity].
  destruct (opt ["-m"] "sim_measure"); cbn [require bind]; [|reflexivity].
  destruct (opt ["-s"; "--space"] "space"); reflexivity.
Qed.

(** the documented option --sim_measure never works: the program prints its usage text and exits *)
Theorem C55_sim_measure_refuted fs args given config : command_line neigh_documented given config args -> config_is_text fs config ->
  In "--sim_measure" (map fst given) -> main_neighbours fs args = Err SystemExit.
Proof.
  intros HL HC Hin. unfold main_neighbours. rewrite (neigh_documented_line _ _ _ HL). cbn [bind].
  destruct (read_config_strict fs config "compute_neighbours" HC) as (cfg & -> & Hcfg). cbn [bind].
  rewrite settings_unknown; [reflexivity|]. apply Exists_exists. apply in_map_iff in Hin. destruct Hin as ([o v] & Eo & Ho). cbn [fst] in Eo. subst o.
  exists ("--sim_measures", v). split; [apply in_map_iff; exists ("--sim_measure", v); split; [reflexivity|exact Ho]|].
  cbn. intros K. repeat destruct K as [K|K]; try discriminate; contradiction.
Qed.
End Opts.
(** the hypotheses are met: short and long options in all the ways to write them, and a configuration file *)
Example C55_line_ex : command_line core_options [("-i", "data"); ("--output", "out"); ("-w", "ppmi"); ("--gz", "True"); ("-w", "plog")] (Some "a.cfg")
  ["-i"; "data"; "--output=out"; "-wppmi"; "--gz"; "True"; "-w"; "plog"; "a.cfg"].
Proof.
  refine (cl_option core_options "-i" "data" ["-i"; "data"] _ _ ["--output=out"; "-wppmi"; "--gz"; "True"; "-w"; "plog"; "a.cfg"] ltac:(cbn; tauto) (or_introl eq_refl) _).
  refine (cl_option core_options "--output" "out" ["--output=out"] _ _ ["-wppmi"; "--gz"; "True"; "-w"; "plog"; "a.cfg"] ltac:(cbn; tauto) (or_intror (or_intror (conj _ eq_refl))) _).
  { exists "output". split; [reflexivity|discriminate]. }
  refine (cl_option core_options "-w" "ppmi" ["-wppmi"] _ _ ["--gz"; "True"; "-w"; "plog"; "a.cfg"] ltac:(cbn; tauto) (or_intror (or_introl (conj _ (conj _ eq_refl)))) _).
  { exists "w"%char. split; [reflexivity|discriminate]. } { discriminate. }
  refine (cl_option core_options "--gz" "True" ["--gz"; "True"] _ _ ["-w"; "plog"; "a.cfg"] ltac:(cbn; tauto) (or_introl eq_refl) _).
  refine (cl_option core_options "-w" "plog" ["-w"; "plog"] _ _ ["a.cfg"] ltac:(cbn; tauto) (or_introl eq_refl) _).
  apply cl_config. reflexivity.
Qed.
Example C55_last_ex : last_given ["-w"; "--weighting"] [("-i", "data"); ("--output", "out"); ("-w", "ppmi"); ("--gz", "True"); ("-w", "plog")] = Some "plog".
Proof. reflexivity. Qed.
