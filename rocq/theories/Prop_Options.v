(** Prop_Options.v -- C94: a run of a command line tool is determined by the values of its settings: not by the order of the options,
    the names used for them, the way they are written, or whether they come from the command line or the configuration file. *)
From Coq Require Import Ascii Permutation.
From Verif Require Import Base PyList Dict Num Dense Sparse Matrix Scaling Linalg Operation Similarity Space Peripheral Learner Composition Utils LexFun Str PStr IO Pipe SpecPipe PPipe Prop_Pipe Prop_Pipe2.
Local Open Scope string_scope.
Local Open Scope list_scope.
Local Open Scope nat_scope.

(** ** specification *)
Inductive tool := Core | Peripheral | Train | Apply | Similarities | Neighbours | Evaluate.
(** the settings of each tool: the option names under which each can be given, and its key in the configuration file *)
Definition settings_of (t : tool) : list (list string * string) :=
  match t with
  | Core => [(["-i"; "--input"], "input"); (["-o"; "--output"], "output"); (["--gz"], "gz"); (["-w"; "--weighting"], "weighting");
             (["-s"; "--selection"], "selection"); (["-r"; "--reduction"], "reduction"); (["-n"; "--normalization"], "normalization");
             (["-l"; "--log"], "log"); (["--input_format"], "input_format"); (["--output_format"], "output_format")]
  | Peripheral => [(["-i"; "--input"], "input"); (["-o"; "--output"], "output"); (["--gz"], "gz"); (["-c"; "--core"], "core"); (["-l"; "--log"], "log");
                   (["--input_format"], "input_format"); (["--output_format"], "output_format"); (["--core_in_dir"], "core_in_dir"); (["--core_filter"], "core_filter")]
  | Train => [(["-i"; "--input"], "input"); (["-o"; "--output"], "output"); (["-m"; "--model"], "model"); (["-a"; "--arg_space"], "arg_space");
              (["-p"; "--phrase_space"], "phrase_space"); (["-r"; "--regression"], "regression"); (["--crossvalidation"], "crossvalidation");
              (["--intercept"], "intercept"); (["--lambda"], "lambda"); (["--lambda_range"], "lambda_range"); (["--export_params"], "export_params"); (["-l"; "--log"], "log")]
  | Apply => [(["-i"; "--input"], "input"); (["-o"; "--output"], "output"); (["-m"; "--model"], "model"); (["-a"; "--arg_space"], "arg_space"); (["--load_model"], "load_model");
              (["--alpha"], "alpha"); (["--beta"], "beta"); (["--lambda"], "lambda"); (["--output_format"], "output_format"); (["-l"; "--log"], "log")]
  | Similarities => [(["-i"; "--input"], "input"); (["-o"; "--output"], "output"); (["--in_dir"], "in_dir"); (["-m"; "--sim_measures"], "sim_measures");
                     (["-s"; "--space"], "space"); (["-c"; "--columns"], "columns"); (["-l"; "--log"], "log")]
  | Neighbours => [(["-i"; "--input"], "input"); (["-o"; "--output"], "output"); (["-m"], "sim_measure"); (["-s"; "--space"], "space");
                   (["-n"; "--no_neighbours"], "no_neighbours"); (["-l"; "--log"], "log")]
  | Evaluate => [(["-i"; "--input"], "input"); (["-m"; "--correlation_measure"], "correlation_measure"); (["-c"; "--columns"], "columns"); (["--in_dir"], "in_dir");
                 (["--filter"], "filter"); (["-l"; "--log"], "log")]
  end.
(** its options, and its section of the configuration file *)
Definition options_of (t : tool) : list string := concat (map fst (settings_of t)).
Definition section_of (t : tool) : string :=
  match t with Core => "build_core_space" | Peripheral => "build_peripheral_space" | Train => "train_composition" | Apply => "apply_composition"
  | Similarities => "compute_similarities" | Neighbours => "compute_neighbours" | Evaluate => "evaluate_similarities" end.
(** the setting an option is a name of, by its key *)
Definition setting (t : tool) (o : string) : string := match find (fun s => existsb (String.eqb o) (fst s)) (settings_of t) with Some s => snd s | None => "" end.
(** what a list of options says, apart from the names used *)
Definition says (t : tool) (given : list (string * string)) : list (string * string) := map (fun ov => (setting t (fst ov), snd ov)) given.

Section Opts.
Context {N : Num} {E : Ext} {FI : FloatIO} {PI : PipeIO}.
(** what running a tool does: the text it prints, if any, and the files it leaves; or an exception *)
Definition run (t : tool) (fs : fsys) (args : list string) : res (option string * fsys) :=
  match t with
  | Core => let* f := main_core fs args in Ok (None, f)
  | Peripheral => let* f := main_peripheral fs args in Ok (None, f)
  | Train => let* f := main_train fs args in Ok (None, f)
  | Apply => let* f := main_apply fs args in Ok (None, f)
  | Similarities => let* f := main_sim fs args in Ok (None, f)
  | Neighbours => let* f := main_neighbours fs args in Ok (None, f)
  | Evaluate => let* (out, f) := main_evaluate fs args in Ok (Some out, f)
  end.
(** the value of a setting: the one given last on the command line, and otherwise the one in the configuration file *)
Definition value_of (t : tool) (fs : fsys) (given : list (string * string)) (config : option string) (s : list string * string) : option string :=
  first_of (last_given (fst s) given) (config_value fs config (section_of t) (snd s)).

Lemma text_may_miss fs config : config_is_text fs config -> config_may_miss fs config.
Proof. intros H p o Hp K. destruct (H p Hp) as (x & Hx). congruence. Qed.


Ltac all_settings H :=
  repeat match type of H with
  | forall s, In s (settings_of ?T) -> _ =>
    let tb := eval cbv [settings_of] in (settings_of T) in
    let rec go l := match l with
      | ?s :: ?l' => let K := fresh "K" in pose proof (H s ltac:(cbv [settings_of In]; tauto)) as K; unfold value_of in K; cbn [fst snd section_of] in K; rewrite K; clear K; go l'
      | [] => idtac end in go tb; clear H
  end; reflexivity.

(** ** C94: the values of the settings determine the run *)
Theorem C94_values t fs given config args given' config' args' :
  command_line (options_of t) given config args -> command_line (options_of t) given' config' args' ->
  config_is_text fs config -> config_is_text fs config' ->
  (forall s, In s (settings_of t) -> value_of t fs given config s = value_of t fs given' config' s) ->
  run t fs args = run t fs args'.
Proof.
  intros L L' C C' H. pose proof (text_may_miss _ _ C) as M. pose proof (text_may_miss _ _ C') as M'.
  destruct t; cbn [run].
  - rewrite (C55_core fs args given config L C), (C55_core fs args' given' config' L' C').
    cbv beta zeta. all_settings H.
  - rewrite (C55_peripheral fs args given config L M), (C55_peripheral fs args' given' config' L' M').
    cbv beta zeta. all_settings H.
  - rewrite (C55_train fs args given config L M), (C55_train fs args' given' config' L' M').
    cbv beta zeta. all_settings H.
  - rewrite (C55_apply fs args given config L M), (C55_apply fs args' given' config' L' M').
    cbv beta zeta. all_settings H.
  - rewrite (C55_similarities fs args given config L M), (C55_similarities fs args' given' config' L' M').
    cbv beta zeta. all_settings H.
  - rewrite (C55_neighbours_partial fs args given config L C), (C55_neighbours_partial fs args' given' config' L' C').
    cbv beta zeta. all_settings H.
  - rewrite (C55_evaluate fs args given config L M), (C55_evaluate fs args' given' config' L' M').
    cbv beta zeta. all_settings H.
Qed.

(** the value given last under a setting's names depends only on what the options say *)
Lemma last_given_says t names key given : In (names, key) (settings_of t) -> Forall (fun ov => In (fst ov) (options_of t)) given ->
  last_given names given = last (map (fun kv => Some (snd kv)) (filter (fun kv => String.eqb (fst kv) key) (says t given))) None.
Proof.
  intros Hin HF. unfold last_given. f_equal. unfold says. induction HF as [|[o v] given Ho HF IH]; [reflexivity|].
  cbn [map filter fst snd].
  replace (existsb (String.eqb o) names) with (String.eqb (setting t o) key); [destruct (String.eqb _ _); cbn [map]; rewrite IH; reflexivity|].
  clear -Hin Ho. cbn [fst] in Ho.
  destruct t; cbn in Hin; repeat (destruct Hin as [Hin|Hin]; [injection Hin as <- <-; cbn in Ho; repeat (destruct Ho as [<-|Ho]; [reflexivity|]); contradiction|]); contradiction.
Qed.
Lemma last_unique (l l' : list (string * string)) key : Permutation l l' -> NoDup (map fst l) ->
  last (map (fun kv => Some (snd kv)) (filter (fun kv => String.eqb (fst kv) key) l)) None = last (map (fun kv => Some (snd kv)) (filter (fun kv => String.eqb (fst kv) key) l')) None.
Proof.
  intros HP HN.
  assert (K : forall l : list (string * string), NoDup (map fst l) -> last (map (fun kv => Some (snd kv)) (filter (fun kv => String.eqb (fst kv) key) l)) None = None /\ ~ In key (map fst l) \/
            exists v, last (map (fun kv => Some (snd kv)) (filter (fun kv => String.eqb (fst kv) key) l)) None = Some v /\ In (key, v) l).
  { clear. induction l as [|[k v] l IH]; intros HN; [left; split; [reflexivity|intros []]|]. cbn [map fst] in HN. inversion HN as [|? ? Hk HN']; subst. cbn [filter fst].
    destruct (String.eqb_spec k key) as [->|Hne].
    - right. exists v. split; [|left; reflexivity]. cbn [map snd].
      replace (filter (fun kv => String.eqb (fst kv) key) l) with (@nil (string * string)); [reflexivity|].
      symmetry. clear -Hk. induction l as [|[k' v'] l IHl]; [reflexivity|]. cbn [filter fst]. cbn [map fst] in Hk.
      destruct (String.eqb_spec k' key) as [->|_]; [exfalso; apply Hk; left; reflexivity|]. apply IHl. intros K. apply Hk. right. exact K.
    - destruct (IH HN') as [(E1 & E2)|(w & E1 & E2)].
      + left. split; [exact E1|]. cbn [map fst]. intros [K|K]; [congruence|contradiction].
      + right. exists w. split; [exact E1|right; exact E2]. }
  assert (HN' : NoDup (map fst l')) by (eapply Permutation_NoDup; [apply Permutation_map; exact HP|exact HN]).
  destruct (K l HN) as [(-> & E2)|(v & -> & E2)]; destruct (K l' HN') as [(-> & E2')|(v' & -> & E2')]; [reflexivity| | |].
  - exfalso. apply E2. apply (Permutation_in _ (Permutation_sym HP)) in E2'. apply (in_map fst) in E2'. exact E2'.
  - exfalso. apply E2'. apply (Permutation_in _ HP) in E2. apply (in_map fst) in E2. exact E2.
  - f_equal. apply (Permutation_in _ HP) in E2. clear -HN' E2 E2'.
    induction l' as [|[k w] l IH]; [contradiction|]. cbn [map fst] in HN'. inversion HN' as [|? ? Hk HN1]; subst.
    destruct E2 as [E2|E2], E2' as [E2'|E2'].
    + congruence.
    + exfalso. assert (k = key) by congruence. subst. apply Hk. apply (in_map fst) in E2'. exact E2'.
    + exfalso. assert (k = key) by congruence. subst. apply Hk. apply (in_map fst) in E2. exact E2.
    + exact (IH HN1 E2 E2').
Qed.

(** two command lines that say the same about each setting, each at most once, in any order, under any names and written in any way *)
Theorem C94_order t fs given config args given' args' :
  command_line (options_of t) given config args -> command_line (options_of t) given' config args' -> config_is_text fs config ->
  Permutation (says t given) (says t given') -> NoDup (map fst (says t given)) ->
  run t fs args = run t fs args'.
Proof.
  intros L L' C HP HN. apply (C94_values t fs given config args given' config args' L L' C C). intros [names key] Hin. unfold value_of. cbn [fst snd]. f_equal.
  rewrite (last_given_says t names key given Hin (line_options _ _ _ _ L)), (last_given_says t names key given' Hin (line_options _ _ _ _ L')).
  apply last_unique; [exact HP|exact HN].
Qed.
(** a value given again replaces the earlier one: dropping the earlier one changes nothing *)
Theorem C94_last_wins t fs before o v o' v' after config args args' :
  command_line (options_of t) (before ++ (o, v) :: after) config args -> command_line (options_of t) (before ++ after) config args' -> config_is_text fs config ->
  In (o', v') after -> setting t o' = setting t o ->
  run t fs args = run t fs args'.
Proof.
  intros L L' C Hin Hs. apply (C94_values t fs _ config args _ config args' L L' C C). intros [names key] Hk. unfold value_of. cbn [fst snd]. f_equal.
  rewrite (last_given_says t names key _ Hk (line_options _ _ _ _ L)), (last_given_says t names key _ Hk (line_options _ _ _ _ L')).
  unfold says. rewrite !map_app. cbn [map fst snd]. rewrite !filter_app. cbn [filter fst].
  destruct (String.eqb_spec (setting t o) key) as [Ek|_]; [|reflexivity].
  assert (G : In (key, v') (filter (fun kv => String.eqb (fst kv) key) (map (fun ov => (setting t (fst ov), snd ov)) after))).
  { apply filter_In. split; [|apply String.eqb_refl]. apply in_map_iff. exists (o', v'). cbn [fst snd]. split; [congruence|exact Hin]. }
  set (x := filter _ (map _ after)) in *. destruct x as [|y x]; [contradiction|].
  rewrite !map_app. cbn [map snd]. clear. generalize (map (fun kv : string * string => Some (snd kv)) (filter (fun kv => String.eqb (fst kv) key) (map (fun ov => (setting t (fst ov), snd ov)) before))).
  intros l. induction l as [|a l IH]; [reflexivity|]. cbn [app]. cbn [last]. destruct l; cbn [app] in *; exact IH.
Qed.
End Opts.
(** the hypotheses are met: the same settings for build_core_space in two orders, under short and long names, written in different ways *)
Example C94_example :
  let given := [("-i", "data"); ("--output", "out"); ("-w", "ppmi"); ("--gz", "True")] in
  let given' := [("--weighting", "ppmi"); ("--gz", "True"); ("-o", "out"); ("--input", "data")] in
  command_line (options_of Core) given (Some "a.cfg") ["-i"; "data"; "--output=out"; "-wppmi"; "--gz"; "True"; "a.cfg"] /\
  command_line (options_of Core) given' (Some "a.cfg") ["--weighting"; "ppmi"; "--gz=True"; "-oout"; "--input=data"; "a.cfg"] /\
  says Core given = [("input", "data"); ("output", "out"); ("weighting", "ppmi"); ("gz", "True")] /\
  Permutation (says Core given) (says Core given') /\ NoDup (map fst (says Core given)).
Proof.
  cbv zeta. split; [|split; [|split; [reflexivity|split]]].
  - refine (cl_option (options_of Core) "-i" "data" ["-i"; "data"] _ _ ["--output=out"; "-wppmi"; "--gz"; "True"; "a.cfg"] ltac:(cbn; tauto) (or_introl eq_refl) _).
    refine (cl_option (options_of Core) "--output" "out" ["--output=out"] _ _ ["-wppmi"; "--gz"; "True"; "a.cfg"] ltac:(cbn; tauto) (or_intror (or_intror (conj _ eq_refl))) _).
    { exists "output". split; [reflexivity|discriminate]. }
    refine (cl_option (options_of Core) "-w" "ppmi" ["-wppmi"] _ _ ["--gz"; "True"; "a.cfg"] ltac:(cbn; tauto) (or_intror (or_introl (conj _ (conj _ eq_refl)))) _).
    { exists "w"%char. split; [reflexivity|discriminate]. } { discriminate. }
    refine (cl_option (options_of Core) "--gz" "True" ["--gz"; "True"] _ _ ["a.cfg"] ltac:(cbn; tauto) (or_introl eq_refl) _).
    apply cl_config. reflexivity.
  - refine (cl_option (options_of Core) "--weighting" "ppmi" ["--weighting"; "ppmi"] _ _ ["--gz=True"; "-oout"; "--input=data"; "a.cfg"] ltac:(cbn; tauto) (or_introl eq_refl) _).
    refine (cl_option (options_of Core) "--gz" "True" ["--gz=True"] _ _ ["-oout"; "--input=data"; "a.cfg"] ltac:(cbn; tauto) (or_intror (or_intror (conj _ eq_refl))) _).
    { exists "gz". split; [reflexivity|discriminate]. }
    refine (cl_option (options_of Core) "-o" "out" ["-oout"] _ _ ["--input=data"; "a.cfg"] ltac:(cbn; tauto) (or_intror (or_introl (conj _ (conj _ eq_refl)))) _).
    { exists "o"%char. split; [reflexivity|discriminate]. } { discriminate. }
    refine (cl_option (options_of Core) "--input" "data" ["--input=data"] _ _ ["a.cfg"] ltac:(cbn; tauto) (or_intror (or_intror (conj _ eq_refl))) _).
    { exists "input". split; [reflexivity|discriminate]. }
    apply cl_config. reflexivity.
  - cbn. set (a := ("input", "data")). set (b := ("output", "out")). set (c := ("weighting", "ppmi")). set (d := ("gz", "True")).
    change [c; d; b; a] with ([c; d] ++ [b; a]). transitivity ([b; a] ++ [c; d]); [|apply Permutation_app_comm]. apply (perm_swap b a [c; d]).
  - cbn. repeat constructor; cbn; intuition discriminate.
Qed.
