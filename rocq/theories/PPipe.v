(** PPipe.v -- lemmas about getopt and the option tables *)
From Coq Require Import Ascii.
From Verif Require Import Base PyList Dict Num Dense Sparse Matrix Scaling Linalg Operation Similarity Space Peripheral Learner Composition Utils LexFun Str PStr IO Pipe SpecPipe.
Local Open Scope string_scope.
Local Open Scope list_scope.
Local Open Scope nat_scope.

(** ** getopt on a command line of declared options *)
Definition takes_value (short : string) (long : list string) (o : string) : Prop :=
  forall v args rest, written o v args ->
  getopt (args ++ rest) short long = (let* (os, more) := getopt rest short long in Ok ((o, v) :: os, more)).
Lemma getopt_line short long options given config args : Forall (takes_value short long) options -> command_line options given config args ->
  getopt args short long = Ok (given, match config with Some p => [p] | None => [] end).
Proof.
  intros HT H. induction H as [|p Hp|o v args given config rest Ho Hw _ IH]; [reflexivity| |].
  - destruct p as [|d [|c r]]; [reflexivity|cbn [getopt]; reflexivity|]. cbn [getopt]. cbn [prefix] in Hp.
    destruct (ascii_dec "-" d) as [->|Hd]; [destruct r; discriminate|]. destruct (Ascii.eqb_spec d dash) as [->|]; [exfalso; apply Hd; reflexivity|reflexivity].
  - rewrite Forall_forall in HT. rewrite (HT o Ho v args rest Hw), IH. reflexivity.
Qed.
(** a declared short option *)
Lemma takes_short short long c : Ascii.eqb c dash = false -> short_has_arg c short = Ok true -> takes_value short long (String "-" (String c "")).
Proof.
  intros Hc Hs v args rest [-> |[(_ & Hv & ->)|((n & K & _) & ->)]].
  - cbn [app getopt]. change (Ascii.eqb "-" dash) with true. cbn [negb]. rewrite Hc. cbn [do_shorts]. rewrite Hs. cbn [bind String.eqb]. destruct (getopt rest short long) as [[os more]|e]; reflexivity.
  - cbn [app append getopt]. change (Ascii.eqb "-" dash) with true. cbn [negb]. rewrite Hc. cbn [do_shorts]. rewrite Hs. cbn [bind]. rewrite (proj2 (String.eqb_neq v "") Hv). cbn [bind].
    destruct (getopt rest short long) as [[os more]|e]; reflexivity.
  - cbn [append] in K. injection K as K _. subst c. discriminate.
Qed.
Lemma cut_equals_app n v : ~ In "="%char (chars n) -> cut_equals (n ++ String "=" v) = (n, Some v).
Proof.
  induction n as [|c n IH]; intros H; [reflexivity|]. cbn [append cut_equals]. destruct (Ascii.eqb_spec c equals) as [->|]; [exfalso; apply H; left; reflexivity|].
  rewrite IH; [reflexivity|]. intros K. apply H. right. exact K.
Qed.
Lemma cut_equals_none n : ~ In "="%char (chars n) -> cut_equals n = (n, None).
Proof.
  induction n as [|c n IH]; intros H; [reflexivity|]. cbn [cut_equals]. destruct (Ascii.eqb_spec c equals) as [->|]; [exfalso; apply H; left; reflexivity|].
  rewrite IH; [reflexivity|]. intros K. apply H. right. exact K.
Qed.
(** a declared long option *)
Lemma takes_long short long n : n <> "" -> ~ In "="%char (chars n) -> long_has_args n long = Ok (true, n) -> takes_value short long ("--" ++ n).
Proof.
  intros Hn He Hl v args rest [-> |[((c & K & Hc) & _ & ->)|(_ & ->)]].
  - cbn [app append getopt]. change (Ascii.eqb "-" dash) with true. cbn [negb]. rewrite (proj2 (String.eqb_neq n "") Hn), cut_equals_none, Hl by assumption. reflexivity.
  - cbn [append] in K. injection K as K _. congruence.
  - cbn [app]. rewrite sapp_assoc. cbn [append getopt]. change (Ascii.eqb "-" dash) with true. cbn [negb].
    assert (K : (n ++ String "=" v)%string <> "") by (destruct n; discriminate). rewrite (proj2 (String.eqb_neq _ "") K).
    rewrite cut_equals_app, Hl by assumption. reflexivity.
Qed.

(** ** option tables *)
Definition names_of (T : list optrow) : list string := flat_map o_names T.
Definition row_value (cfg : string -> option string) (given : list (string * string)) (r : optrow) : pval :=
  match last_given (o_names r) given with
  | Some s => pconv (o_split r) s
  | None => match cfg (o_key r) with Some s => pconv (o_split r) s | None => o_default r end
  end.
Lemma find_names T o r : NoDup (names_of T) -> In r T -> In o (o_names r) -> find (fun r => existsb (String.eqb o) (o_names r)) T = Some r.
Proof.
  intros Hn Hr Ho. unfold names_of in Hn. induction T as [|x T IH]; [contradiction|]. cbn [find flat_map] in *.
  destruct Hr as [-> |Hr].
  - replace (existsb (String.eqb o) (o_names r)) with true; [reflexivity|]. symmetry. apply existsb_exists. exists o. split; [exact Ho|apply String.eqb_refl].
  - destruct (existsb (String.eqb o) (o_names x)) eqn:Ex.
    + exfalso. apply existsb_exists in Ex. destruct Ex as (o' & Ho' & Eo). apply String.eqb_eq in Eo. subst o'.
      clear IH. induction (o_names x) as [|y l IHl]; [contradiction|]. cbn [app] in Hn. inversion Hn as [|? ? Hy Hn']; subst. destruct Ho' as [-> |Ho'].
      * apply Hy, in_app_iff. right. apply in_flat_map. eauto.
      * apply IHl; assumption.
    + apply IH; [|exact Hr]. clear - Hn. induction (o_names x) as [|y l IHl]; [exact Hn|]. cbn [app] in Hn. inversion Hn. auto.
Qed.
Lemma find_var T r : NoDup (map o_var T) -> In r T -> find (fun x => String.eqb (o_var x) (o_var r)) T = Some r.
Proof.
  induction T as [|x T IH]; intros Hn Hr; [contradiction|]. cbn [find map] in *. inversion Hn as [|? ? Hx Hn']; subst. destruct Hr as [-> |Hr]; [rewrite String.eqb_refl; reflexivity|].
  destruct (String.eqb_spec (o_var x) (o_var r)) as [E|]; [exfalso; apply Hx; rewrite E; apply in_map; exact Hr|]. apply IH; assumption.
Qed.
Lemma last_given_snoc names given o v : last_given names (given ++ [(o, v)]) = if existsb (String.eqb o) names then Some v else last_given names given.
Proof.
  unfold last_given. rewrite filter_app. cbn [filter fst]. destruct (existsb (String.eqb o) names); [|rewrite app_nil_r; reflexivity].
  rewrite map_app. cbn [map snd]. apply last_last.
Qed.
Lemma in_names r l o : In r l -> In o (o_names r) -> In o (names_of l).
Proof. intros H K. apply in_flat_map. eauto. Qed.
Lemma foldM_app {A S} (f : S -> A -> res S) l1 l2 s : foldM f (l1 ++ l2) s = let* s' := foldM f l1 s in foldM f l2 s'.
Proof. revert s. induction l1 as [|x l1 IH]; intros s; cbn [app foldM bind]; [reflexivity|]. destruct (f s x); cbn [bind]; [apply IH|reflexivity]. Qed.
Lemma settings_ok T cfg given : NoDup (names_of T) -> NoDup (map o_var T) -> Forall (fun ov => In (fst ov) (names_of T)) given ->
  exists e, settings T cfg given = Ok e /\ forall r, In r T -> e (o_var r) = row_value cfg given r.
Proof.
  intros Hn Hv. unfold settings. induction given as [|[o v] given IH] using rev_ind; intros Hg.
  - exists (env0 T cfg). split; [reflexivity|]. intros r Hr. unfold env0. rewrite (find_var T r Hv Hr). reflexivity.
  - rewrite Forall_app in Hg. destruct Hg as (Hg & Ho). inversion Ho as [|? ? Ho' _]; subst. cbn [fst] in Ho'. destruct (IH Hg) as (e & He & Hr). clear IH.
    rewrite foldM_app, He. cbn [bind foldM]. unfold env_step. cbn [fst snd].
    apply in_flat_map in Ho'. destruct Ho' as (x & Hx & Hox). rewrite (find_names T o x Hn Hx Hox). cbn [bind]. eexists. split; [reflexivity|]. intros r Hr'. cbv beta.
    unfold row_value. rewrite last_given_snoc. destruct (String.eqb_spec (o_var r) (o_var x)) as [E|E].
    + assert (r = x). { pose proof (find_var T r Hv Hr') as F1. pose proof (find_var T x Hv Hx) as F2. rewrite E in F1. congruence. }
      subst r. replace (existsb (String.eqb o) (o_names x)) with true; [reflexivity|]. symmetry. apply existsb_exists. exists o. split; [exact Hox|apply String.eqb_refl].
    + destruct (existsb (String.eqb o) (o_names r)) eqn:Ex; [|apply Hr; exact Hr'].
      exfalso. apply existsb_exists in Ex. destruct Ex as (o' & Ho'' & Eo). apply String.eqb_eq in Eo. subst o'.
      pose proof (find_names T o x Hn Hx Hox) as F1. pose proof (find_names T o r Hn Hr' Ho'') as F2. congruence.
Qed.
(** an option that no branch accepts *)
Lemma settings_unknown T cfg given : Exists (fun ov => ~ In (fst ov) (names_of T)) given -> settings T cfg given = Err SystemExit.
Proof.
  unfold settings. generalize (env0 T cfg). induction given as [|[o v] given IH]; intros e H; [inversion H|]. cbn [foldM]. unfold env_step at 1. cbn [fst snd].
  destruct (find _ T) as [r|] eqn:Ef; [|reflexivity]. cbn [bind]. apply IH. inversion H as [? ? K|? ? K]; subst; [|exact K]. exfalso. apply K. cbn [fst].
  apply find_some in Ef. destruct Ef as (Hr & Hx). apply existsb_exists in Hx. destruct Hx as (o' & Ho & Eo). apply String.eqb_eq in Eo. subst o'. eapply in_names; eassumption.
Qed.
Lemma line_options options given config args : command_line options given config args -> Forall (fun ov => In (fst ov) options) given.
Proof. induction 1; constructor; assumption. Qed.
Lemma get_str_none e r cfg given : e (o_var r) = row_value cfg given r -> o_split r = false -> o_default r = PNone ->
  get_str e (o_var r) = first_of (last_given (o_names r) given) (cfg (o_key r)).
Proof. intros H H1 H2. unfold get_str. rewrite H. unfold row_value, pconv. rewrite H1, H2. destruct (last_given _ _); [reflexivity|]. destruct (cfg _); reflexivity. Qed.
Lemma get_str_default e r cfg given d : e (o_var r) = row_value cfg given r -> o_split r = false -> o_default r = PStr d ->
  get_str e (o_var r) = Some (with_default (first_of (last_given (o_names r) given) (cfg (o_key r))) d).
Proof. intros H H1 H2. unfold get_str. rewrite H. unfold row_value, pconv. rewrite H1, H2. destruct (last_given _ _); [reflexivity|]. destruct (cfg _); reflexivity. Qed.
Lemma get_list_none e r cfg given : e (o_var r) = row_value cfg given r -> o_split r = true -> o_default r = PNone ->
  get_list e (o_var r) = option_map commas (first_of (last_given (o_names r) given) (cfg (o_key r))).
Proof. intros H H1 H2. unfold get_list. rewrite H. unfold row_value, pconv. rewrite H1, H2. destruct (last_given _ _); [reflexivity|]. destruct (cfg _); reflexivity. Qed.

Section Config.
Context {N : Num} {E : Ext} {FI : FloatIO} {PI : PipeIO}.
(** the value of a key in the configuration file, if there is one *)
Definition config_value (fs : fsys) (config : option string) (section key : string) : option string :=
  match config with
  | Some p => match fs_file fs p with Some (Text t) => cfg_opt t section key | _ => None end
  | None => None
  end.
Definition config_is_text (fs : fsys) (config : option string) : Prop := forall p, config = Some p -> exists t, fs_file fs p = Some (Text t).
(** a configuration file that does not exist is ignored by some of the tools *)
Definition config_may_miss (fs : fsys) (config : option string) : Prop := forall p o, config = Some p -> fs_file fs p <> Some (Pickle o).
Lemma read_config_strict fs config section : config_is_text fs config ->
  exists cfg, read_config true fs (match config with Some p => [p] | None => [] end) section = Ok cfg /\ forall key, cfg key = config_value fs config section key.
Proof.
  intros H. destruct config as [p|]; cbn; [|eauto]. destruct (H p eq_refl) as (t & ->). eauto.
Qed.
Lemma read_config_loose fs config section : config_may_miss fs config ->
  exists cfg, read_config false fs (match config with Some p => [p] | None => [] end) section = Ok cfg /\ forall key, cfg key = config_value fs config section key.
Proof.
  intros H. destruct config as [p|]; cbn; [|eauto]. destruct (fs_file fs p) as [[t|o]|] eqn:Ep; eauto. exfalso. exact (H p o eq_refl Ep).
Qed.
End Config.
