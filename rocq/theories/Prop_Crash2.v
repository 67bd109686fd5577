(** Prop_Crash2.v -- C70: logs, what is complete when, and examples. *)
From Coq Require Import Ascii FunctionalExtensionality.
From Verif Require Import Base PyList Dict Num Dense Sparse Matrix Scaling Linalg Operation Similarity Space Peripheral SpecSpace Learner Composition Utils LexFun Str PStr IO SpecIO PIO Prop_IO PExport Prop_Export Pipe SpecPipe SpecPipe2 PFiles PPipe PPipe2 PSave SpecPipe3 PPipe3 SpecCore PCore Prop_Core Prop_Sims Prop_Batch Prop_TrainPipe Crash SpecCrash PCrash PCrash2 PCrash3 PCrash4 PCrash5 Prop_Crash.
Local Open Scope string_scope.
Local Open Scope list_scope.
Local Open Scope nat_scope.

Section PropCrash2.
Context {N : Num} {E : Ext} {FI : FloatIO} {PI : PipeIO} {KI : PickleIO}.

(** a run in two parts: it stops in the first, or the first has ended and it stops in the second *)
Lemma stopped_bind {B} fs (m : tr fsys) (k : fsys -> tr B) (st : fsys) n : sound fs m -> st = replay fs (firstn n (fst (tbind m k))) ->
  stopped fs m st \/ exists a, snd m = Ok a /\ st = replay a (firstn (n - length (fst m)) (fst (k a))).
Proof.
  intros (Hs & _) H. destruct m as [l [a|e]]; [|left; exists n; exact H]. cbn [tbind fst snd] in *. rewrite firstn_app, replay_app in H. destruct (le_lt_dec n (length l)) as [K|K].
  - left. exists n. unfold disk_at. cbn [fst]. rewrite H. replace (n - length l) with 0 by lia. reflexivity.
  - right. exists a. split; [reflexivity|]. rewrite H. rewrite (firstn_all2 l) by lia. rewrite (Hs a eq_refl). reflexivity.
Qed.
Lemma stopped_seq fs (m : tr fsys) (k : fsys -> tr fsys) st : sound fs m -> stopped fs (tbind m k) st -> stopped fs m st \/ exists a, snd m = Ok a /\ stopped a (k a) st.
Proof. intros H (n & K). destruct (stopped_bind fs m k st n H K) as [L|(a & La & L)]; [left; exact L|right]. exists a. split; [exact La|]. eexists. exact L. Qed.
Lemma stopped_pure {A} fs (r : res A) (k : A -> tr fsys) st : stopped fs (tbind (lift r) k) st -> (st = fs \/ exists v, r = Ok v /\ stopped fs (k v) st).
Proof. rewrite tbind_lift. destruct r as [v|e]; [intros H; right; exists v; auto|]. intros (n & ->). left. unfold disk_at. cbn. rewrite firstn_nil. reflexivity. Qed.

(** ** the log *)
(** opening the log changes no file that exists *)
Theorem C70_log fs l st : stopped fs (t_config_logging fs l) st ->
  leaves (fun w => exists p, l = Some p /\ w = (p, Text "") /\ fs_file fs p = None) (fun d => exists p, l = Some p /\ leads d (dirname p)) fs st.
Proof. apply runs_stopped, runs_config_logging. Qed.
(** a program that opens its log and goes on: it stops while opening the log, or in what it does afterwards *)
Theorem C70_after_log fs l (k : fsys -> tr fsys) st : stopped fs (tbind (t_config_logging fs l) k) st ->
  stopped fs (t_config_logging fs l) st \/ exists fs1, config_logging fs l = Ok fs1 /\ stopped fs1 (k fs1) st.
Proof.
  intros H. destruct (stopped_seq _ _ _ _ (sound_config_logging fs l) H) as [K|(a & Ha & K)]; [left; exact K|right]. exists a. split; [|exact K]. apply same_config_logging, Ha.
Qed.
(** evaluate_similarities writes nothing but its log *)
Theorem C70_evaluate fs args st : stopped fs (t_main_evaluate fs args) st ->
  leaves (fun w => exists p, w = (p, Text "") /\ fs_file fs p = None) (fun _ => True) fs st.
Proof.
  apply runs_stopped. unfold t_main_evaluate. apply runs_pure. intros [opts argv] _. apply runs_pure. intros cfg _. apply runs_pure. intros e _. apply runs_bind.
  - eapply runs_weaken; [| |apply runs_config_logging]; [|auto]. intros w (p & _ & K). exists p. exact K.
  - intros fs1 _. apply runs_pure. intros ms _. apply runs_pure. intros cs _. apply runs_pure. intros u _. apply runs_pure. intros out _. apply runs_lift.
Qed.
(** and ends normally just when it prints its result *)
Theorem C70_evaluate_steps fs args fs' : snd (t_main_evaluate fs args) = Ok fs' <-> exists out, main_evaluate fs args = Ok (out, fs').
Proof.
  unfold t_main_evaluate, main_evaluate. rewrite tbind_lift. destruct (getopt _ _ _) as [[opts argv]|e]; cbn [bind]; [|split; [discriminate|intros (out & K); discriminate]].
  rewrite tbind_lift. destruct (read_config _ _ _ _) as [cfg|e]; cbn [bind]; [|split; [discriminate|intros (out & K); discriminate]].
  rewrite tbind_lift. destruct (settings _ _ _) as [en|e]; cbn [bind]; [|split; [discriminate|intros (out & K); discriminate]].
  pose proof (same_config_logging fs (get_str en "log_file")) as S. destruct (t_config_logging fs (get_str en "log_file")) as [l [fs1|e]] eqn:Et; cbn [tbind snd].
  2:{ split; [discriminate|]. intros (out & K). apply bind_ok in K. destruct K as (x & Hx & _). apply S in Hx. discriminate. }
  rewrite (proj1 (S fs1) eq_refl). cbn [bind]. rewrite tbind_lift. destruct (require _) as [ms|e]; cbn [bind]; [|split; [discriminate|intros (out & K); discriminate]].
  rewrite tbind_lift. destruct (require _) as [cs|e]; cbn [bind]; [|split; [discriminate|intros (out & K); discriminate]].
  rewrite tbind_lift. destruct (check _ _) as [u|e]; cbn [bind]; [|split; [discriminate|intros (out & K); discriminate]].
  rewrite tbind_lift. destruct (match get_str en "in_dir" with Some _ => _ | None => _ end) as [out|e]; cbn [bind]; [|split; [discriminate|intros (out & K); discriminate]].
  cbn. split; [intros H; injection H as <-; eauto|]. intros (o & H). injection H as _ <-. reflexivity.
Qed.

(** ** the pickle is complete before anything else is written *)
Lemma save_export_first fs s out fmt st : stopped fs (t_save_export fs s out fmt) st ->
  (forall q, q <> (out ++ ".pkl")%string -> fs_file st q = fs_file fs q) \/ space_at st (out ++ ".pkl") s.
Proof.
  intros H. unfold t_save_export in H. destruct (stopped_seq _ _ _ _ (sound_save fs (OSpace s) (out ++ ".pkl")) H) as [K|(a & Ha & K)].
  - left. intros q Hq. destruct (runs_stopped _ _ _ _ _ (runs_save (fun w => fst w = (out ++ ".pkl")%string) fs (OSpace s) (out ++ ".pkl") eq_refl) K) as (L & _). destruct (L q) as [L1|(c & L1 & _)]; [exact L1|]. cbn in L1. contradiction.
  - right. apply same_save in Ha. destruct (save_ok _ _ _ _ Ha) as (K1 & _). destruct fmt as [f|].
    + destruct (runs_stopped _ _ _ _ _ (runs_export a s out f) K) as (L & _). unfold space_at, object_at in *. destruct (L (out ++ ".pkl")%string) as [L1|(c & L1 & _)]; [rewrite L1; exact K1|]. exfalso.
      apply piece_file in L1. exact (not_pkl _ _ L1 out eq_refl).
    + destruct K as (n & ->). unfold disk_at. cbn. rewrite firstn_nil. exact K1.
Qed.
(** while the pickle of the result is incomplete no other file has changed *)
Theorem C70_pickle_first_peripheral fs in_prefix in_name in_format out_dir out_format core_file x gz st : file_name in_prefix in_name -> stem_of core_file x ->
  stopped fs (t_build_per_space fs in_prefix in_format out_dir out_format core_file gz) st ->
  (forall q, q <> (per_file out_dir in_name x ++ ".pkl")%string -> fs_file st q = fs_file fs q) \/
  exists raw core s, input_space fs in_prefix gz in_format raw /\ space_at fs core_file core /\ peripheral_of core raw s /\ space_at st (per_file out_dir in_name x ++ ".pkl") s.
Proof.
  intros Hn Hx H. unfold t_build_per_space in H. apply stopped_pure in H. destruct H as [-> |(raw & Hr & H)]; [left; reflexivity|]. unfold t_transform_raw in H. apply stopped_pure in H. destruct H as [-> |(core & Hc & H)]; [left; reflexivity|].
  apply stopped_pure in H. destruct H as [-> |(s & Hs & H)]; [left; reflexivity|]. rewrite (base_name_file _ _ Hn), (per_file_eq _ _ _ _ Hx) in H. destruct (save_export_first _ _ _ _ _ H) as [K|K]; [left; exact K|right].
  exists raw, core, s. split; [apply load_input_space, Hr|]. split; [apply load_space_at, Hc|]. split; [exact Hs|exact K].
Qed.
Theorem C70_pickle_first_apply fs in_file nm out_dir model trained files alpha beta lambda out_format st : file_name in_file nm ->
  stopped fs (t_apply_model fs in_file out_dir model trained files alpha beta lambda out_format) st ->
  (forall q, (forall o c, model_used fs alpha beta lambda model trained o -> class_of o c -> q <> (composed_file out_dir c nm ++ ".pkl")%string) -> fs_file st q = fs_file fs q) \/
  exists arg arg2 t o c s, spaces_at fs files arg arg2 /\ text_at fs in_file t /\ three_fields t /\ model_used fs alpha beta lambda model trained o /\ class_of o c /\
    composed_as o (triples t) arg arg2 s /\ space_at st (composed_file out_dir c nm ++ ".pkl") s.
Proof.
  intros Hn H. unfold t_apply_model in H. repeat (apply stopped_pure in H; destruct H as [-> |(?x & ?K & H)]; [left; reflexivity|]). rename x into o, x0 into f1, x1 into arg, x2 into arg2, x3 into data, x4 into s.
  apply model_used_iff in K. pose proof (class_of_ex o (model_not_space _ _ _ _ _ _ _ K)) as Hc. rewrite (composed_file_eq _ _ _ _ _ Hn Hc) in H. destruct (read_tuples_ok _ _ _ K3) as (t & T1 & T3 & ->). apply composed_iff in K4.
  assert (Hsp : spaces_at fs files arg arg2) by (apply spaces_at_ok; rewrite K0; cbn [bind]; rewrite K1; cbn [bind]; rewrite K2; reflexivity).
  destruct (save_export_first _ _ _ _ _ H) as [L|L]; [left|right].
  - intros q Hq. apply L, (Hq o (class_name o)); assumption.
  - exists arg, arg2, t, o, (class_name o), s. auto 8.
Qed.
Theorem C70_pickle_first_train fs in_file nm out_dir model files phrase reg cv icpt lambda range ex st : file_name in_file nm ->
  stopped fs (t_train_model fs in_file out_dir model files phrase reg cv icpt (option_map LNum lambda) range ex) st ->
  (forall q, q <> (model_file out_dir model nm ++ ".pkl")%string -> fs_file st q = fs_file fs q) \/
  exists arg arg2 phr t o o', spaces_at fs files arg arg2 /\ space_at fs phrase phr /\ text_at fs in_file t /\ three_fields t /\
    model_for cv icpt lambda range reg model o /\ trained_as o (triples t) arg arg2 phr o' /\ object_at st (model_file out_dir model nm ++ ".pkl") o'.
Proof.
  intros Hn H. unfold t_train_model in H. repeat (apply stopped_pure in H; destruct H as [-> |(?x & ?K & H)]; [left; reflexivity|]). rename x into f1, x0 into arg, x1 into arg2, x2 into phr, x3 into o, x4 into data, x5 into o'.
  cbv zeta in H. rewrite (model_file_eq _ _ _ _ Hn) in H. destruct (read_tuples_ok _ _ _ K4) as (t & T1 & T3 & ->).
  assert (Hsp : spaces_at fs files arg arg2) by (apply spaces_at_ok; rewrite K; cbn [bind]; rewrite K0; cbn [bind]; rewrite K1; reflexivity). apply load_space_at in K2. apply make_model_for in K3. apply train_obj_as in K5.
  set (mf := model_file out_dir model nm) in *. destruct (stopped_seq _ _ _ _ (sound_save fs o' (mf ++ ".pkl")) H) as [L|(a & Ha & L)].
  - left. intros q Hq. destruct (runs_stopped _ _ _ _ _ (runs_save (fun w => fst w = (mf ++ ".pkl")%string) fs o' (mf ++ ".pkl") eq_refl) L) as (L1 & _). destruct (L1 q) as [L2|(c & L2 & _)]; [exact L2|]. cbn in L2. contradiction.
  - right. exists arg, arg2, phr, t, o, o'. repeat (split; [assumption|]). apply same_save in Ha. destruct (save_ok _ _ _ _ Ha) as (S1 & _). destruct ex.
    + destruct (runs_stopped _ _ _ _ _ (runs_export_model a o' (mf ++ ".params")) L) as (L1 & _). unfold object_at in *. destruct (L1 (mf ++ ".pkl")%string) as [L2|(c & L2 & _)]; [rewrite L2; exact S1|]. exfalso.
      destruct L2 as [(m & s & _ & _ & L2)|(m & tt & _ & L2 & _)].
      * apply piece_file in L2. exact (not_pkl _ _ L2 mf eq_refl).
      * injection L2 as L2 _. apply sapp_inj in L2. discriminate.
    + destruct L as (n & ->). unfold disk_at. cbn. rewrite firstn_nil. exact S1.
Qed.
End PropCrash2.
