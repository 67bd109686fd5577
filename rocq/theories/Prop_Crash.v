(** Prop_Crash.v -- C70: what a run that is killed, raises or ends normally leaves on disk. *)
From Coq Require Import Ascii FunctionalExtensionality.
From Verif Require Import Base PyList Dict Num Dense Sparse Matrix Scaling Linalg Operation Similarity Space Peripheral SpecSpace Learner Composition Utils LexFun Str PStr IO SpecIO PIO Prop_IO PExport Prop_Export Pipe SpecPipe SpecPipe2 PFiles PPipe PPipe2 PSave SpecPipe3 PPipe3 SpecCore PCore Prop_Core Prop_Sims Prop_Batch Prop_TrainPipe Crash SpecCrash PCrash PCrash2 PCrash3 PCrash4 PCrash5.
Local Open Scope string_scope.
Local Open Scope list_scope.
Local Open Scope nat_scope.

Section PropCrash.
Context {N : Num} {E : Ext} {FI : FloatIO} {PI : PipeIO} {KI : PickleIO}.

(** ** the runs are those of the tools *)
(** the run ends normally just when the tool does (as modelled in Pipe.v), and then its last disk is the tool's result *)
Definition steps_of (fs : fsys) (t : tr fsys) (r : res fsys) : Prop :=
  (forall fs', snd t = Ok fs' <-> r = Ok fs') /\ (forall fs', r = Ok fs' -> fs' = replay fs (fst t)).
Lemma steps_intro fs t r : same t r -> sound fs t -> steps_of fs t r.
Proof. intros H (K & _). split; [exact H|]. intros fs' L. apply K, H, L. Qed.
Theorem C70_steps fs args :
  steps_of fs (t_main_core fs args) (main_core fs args) /\
  steps_of fs (t_main_peripheral fs args) (main_peripheral fs args) /\
  steps_of fs (t_main_train fs args) (main_train fs args) /\
  steps_of fs (t_main_apply fs args) (main_apply fs args) /\
  steps_of fs (t_main_sim fs args) (main_sim fs args) /\
  steps_of fs (t_main_neighbours fs args) (main_neighbours fs args).
Proof.
  repeat split; first [apply same_main_core|apply same_main_peripheral|apply same_main_train|apply same_main_apply|apply same_main_sim|apply same_main_neighbours|idtac];
    intros fs' H; [apply (proj1 (sound_main_core fs args)), same_main_core, H|apply (proj1 (sound_main_peripheral fs args)), same_main_peripheral, H|apply (proj1 (sound_main_train fs args)), same_main_train, H
      |apply (proj1 (sound_main_apply fs args)), same_main_apply, H|apply (proj1 (sound_main_sim fs args)), same_main_sim, H|apply (proj1 (sound_main_neighbours fs args)), same_main_neighbours, H].
Qed.

(** ** build_core_space *)
Theorem C70_core fs in_prefix in_name in_format out_dir out_format ws xs rs ns gz st : file_name in_prefix in_name ->
  stopped fs (t_build_spaces fs in_prefix in_format out_dir out_format ws xs rs ns gz) st ->
  leaves (fun w => exists s c ts s', input_space fs in_prefix gz in_format s /\ combos ws xs rs ns c /\ means c ts /\ applied s ts s' /\ saved_piece s' (core_file out_dir in_name c) out_format w)
         (fun d => exists c, combos ws xs rs ns c /\ leads d (dirname (core_file out_dir in_name c))) fs st.
Proof.
  intros Hn. apply runs_stopped. unfold t_build_spaces. apply runs_pure. intros s Hs. rewrite (base_name_file _ _ Hn). apply runs_combinations.
  - intros c s' w Hc Hr Hw. rewrite out_core in Hw. destruct (result_means _ _ _ Hr) as (ts & M & A). exists s, c, ts, s'. split; [apply load_input_space, Hs|]. auto.
  - intros c d Hc Hd. exists c. split; [exact Hc|]. rewrite <- out_core. exact Hd.
Qed.

(** ** build_peripheral_space *)
Lemma runs_transform (R : string * content -> Prop) (D : string -> Prop) fs raw in_prefix in_name out_dir fmt core_file x : file_name in_prefix in_name -> stem_of core_file x ->
  (forall core s w, space_at fs core_file core -> peripheral_of core raw s -> saved_piece s (per_file out_dir in_name x) fmt w -> R w) -> (forall d, leads d (dirname (per_file out_dir in_name x)) -> D d) ->
  runs R D (t_transform_raw fs raw in_prefix out_dir fmt core_file).
Proof.
  intros Hn Hx HR HD. unfold t_transform_raw. apply runs_pure. intros core Hc. apply runs_pure. intros s Hs. rewrite (base_name_file _ _ Hn), (per_file_eq _ _ _ _ Hx).
  eapply runs_weaken; [| |apply runs_save_export]; [|exact HD]. intros w Hw. apply (HR core s w); [apply load_space_at, Hc|exact Hs|exact Hw].
Qed.
Theorem C70_peripheral fs in_prefix in_name in_format out_dir out_format core_file x gz st : file_name in_prefix in_name -> stem_of core_file x ->
  stopped fs (t_build_per_space fs in_prefix in_format out_dir out_format core_file gz) st ->
  leaves (fun w => exists raw core s, input_space fs in_prefix gz in_format raw /\ space_at fs core_file core /\ peripheral_of core raw s /\ saved_piece s (per_file out_dir in_name x) out_format w)
         (fun d => leads d (dirname (per_file out_dir in_name x))) fs st.
Proof.
  intros Hn Hx. apply runs_stopped. unfold t_build_per_space. apply runs_pure. intros raw Hr. apply (runs_transform _ _ _ _ _ _ _ _ _ _ Hn Hx); [|auto].
  intros core s w Hc Hs Hw. exists raw, core, s. split; [apply load_input_space, Hr|]. auto.
Qed.
Lemma not_pkl out q : In q [(out ++ ".dm")%string; (out ++ ".sm")%string; (out ++ ".rows")%string; (out ++ ".cols")%string] -> forall x, q <> (x ++ ".pkl")%string.
Proof. intros H x ->. destruct H as [H|[H|[H|[H|[]]]]]; symmetry in H; apply (last_char _ _ _ _ " "%char) in H; discriminate. Qed.
Lemma piece_file f s out w : exported_piece f s out w -> In (fst w) [(out ++ ".dm")%string; (out ++ ".sm")%string; (out ++ ".rows")%string; (out ++ ".cols")%string].
Proof. intros (t & _ & [(_ & H & _)|[(_ & H & _)|[(H & _)|(H & _)]]]); rewrite H; cbn; auto. Qed.
(** in batch mode, if no output pickle is one of the chosen core spaces *)
Theorem C70_peripheral_batch fs in_prefix in_name in_format out_dir out_format core_dir dir filter_ gz st :
  file_name in_prefix in_name -> dir_slash core_dir dir -> (forall f, In f (listdir fs dir) -> ~ In "/"%char (chars f)) ->
  (forall x f, chosen fs dir filter_ (x ++ ".pkl") -> chosen fs dir filter_ f -> (per_file out_dir in_name x ++ ".pkl")%string <> (dir ++ f)%string) ->
  stopped fs (t_build_per_batch fs in_prefix in_format out_dir out_format core_dir filter_ gz) st ->
  leaves (fun w => exists raw x core s, input_space fs in_prefix gz in_format raw /\ chosen fs dir filter_ (x ++ ".pkl") /\ space_at fs (dir ++ x ++ ".pkl") core /\ peripheral_of core raw s /\
            saved_piece s (per_file out_dir in_name x) out_format w)
         (fun d => exists x, chosen fs dir filter_ (x ++ ".pkl") /\ leads d (dirname (per_file out_dir in_name x))) fs st.
Proof.
  intros Hn Hd Hns Hcl. apply runs_stopped. unfold t_build_per_batch. apply runs_pure. intros raw Hr. apply runs_pure. intros u _. rewrite (proj2 (with_slash_iff _ _) Hd). cbv zeta.
  assert (G : forall a f, In f (listdir fs dir) -> (forall f, chosen fs dir filter_ f -> fs_file a (dir ++ f) = fs_file fs (dir ++ f)) ->
    runs (fun w => exists raw x core s, input_space fs in_prefix gz in_format raw /\ chosen fs dir filter_ (x ++ ".pkl") /\ space_at fs (dir ++ x ++ ".pkl") core /\ peripheral_of core raw s /\
            saved_piece s (per_file out_dir in_name x) out_format w)
         (fun d => exists x, chosen fs dir filter_ (x ++ ".pkl") /\ leads d (dirname (per_file out_dir in_name x)))
      (if contains filter_ f && ends_with f ".pkl" then t_transform_raw a raw in_prefix out_dir out_format (dir ++ f) else lift (Ok a))).
  { intros a f Hf Ha. destruct (contains filter_ f && ends_with f ".pkl")%bool eqn:Ec; [|apply runs_lift].
    apply andb_true_iff in Ec. destruct Ec as (Ec1 & Ec2). apply contains_iff in Ec1. destruct Ec1 as (p & q & Ef). apply ends_with_iff in Ec2. destruct Ec2 as (x & ->).
    assert (Hch : chosen fs dir filter_ (x ++ ".pkl")) by (split; [exact Hf|exists p, q, x; auto]).
    apply (runs_transform _ _ _ _ _ in_name _ _ _ x Hn (dir_stem _ _ _ Hd (Hns _ Hf))).
    - intros core s w Hc Hs Hw. exists raw, x, core, s. split; [apply load_input_space, Hr|]. split; [exact Hch|]. split; [|auto]. unfold space_at, object_at in *. rewrite <- (Ha _ Hch). exact Hc.
    - intros d Hl. exists x. auto. }
  apply (runs_fold_inv (fun a => forall f, chosen fs dir filter_ f -> fs_file a (dir ++ f) = fs_file fs (dir ++ f))); [exact G| |reflexivity].
  intros a f a' Hf Ha H g Hg. assert (Hsd : sound a (if contains filter_ f && ends_with f ".pkl" then t_transform_raw a raw in_prefix out_dir out_format (dir ++ f) else lift (Ok a))) by (destruct (_ && _)%bool; [apply sound_transform|apply sound_lift]).
  destruct (runs_end _ _ _ _ _ Hsd (G a f Hf Ha) H) as (L & _). destruct (L (dir ++ g)%string) as [K|(c & Hc & _)]; [rewrite K; apply Ha, Hg|]. exfalso.
  destruct Hc as (raw' & x & core & s & _ & Hx & _ & _ & [K|(ff & _ & K)]); [injection K as K _; symmetry in K; revert K; apply Hcl; assumption|].
  apply piece_file in K. destruct Hg as (_ & _ & _ & y & _ & ->). cbn [fst] in K. refine (not_pkl _ _ K (dir ++ y)%string _). rewrite sapp_assoc. reflexivity.
Qed.

(** ** train_composition *)
Theorem C70_train fs in_file nm out_dir model files phrase reg cv icpt lambda range ex st : file_name in_file nm ->
  stopped fs (t_train_model fs in_file out_dir model files phrase reg cv icpt (option_map LNum lambda) range ex) st ->
  leaves (fun w => exists arg arg2 phr t o o', spaces_at fs files arg arg2 /\ space_at fs phrase phr /\ text_at fs in_file t /\ three_fields t /\
            model_for cv icpt lambda range reg model o /\ trained_as o (triples t) arg arg2 phr o' /\
            (w = ((model_file out_dir model nm ++ ".pkl")%string, Pickle o') \/ (ex = true /\ params_piece o' (model_file out_dir model nm ++ ".params") w)))
         (fun d => leads d (dirname (model_file out_dir model nm ++ ".pkl"))) fs st.
Proof.
  intros Hn. apply runs_stopped. unfold t_train_model. apply runs_pure. intros f1 H1. apply runs_pure. intros arg Ha. apply runs_pure. intros arg2 Ha2. apply runs_pure. intros phr Hp. apply runs_pure. intros o Ho. apply runs_pure. intros data Hd. apply runs_pure. intros o' Ho'.
  cbv zeta. rewrite (model_file_eq _ _ _ _ Hn). destruct (read_tuples_ok _ _ _ Hd) as (t & T1 & T3 & ->).
  assert (Hsp : spaces_at fs files arg arg2) by (apply spaces_at_ok; rewrite H1; cbn [bind]; rewrite Ha; cbn [bind]; rewrite Ha2; reflexivity). apply load_space_at in Hp. apply make_model_for in Ho. apply train_obj_as in Ho'.
  apply runs_bind.
  - apply runs_save. exists arg, arg2, phr, t, o, o'. repeat (split; [assumption|]). left. reflexivity.
  - intros x _. destruct ex; [|apply runs_lift]. eapply runs_weaken; [| |apply runs_export_model].
    + intros w Hw. exists arg, arg2, phr, t, o, o'. repeat (split; [assumption|]). right. auto.
    + intros d. rewrite dirname_pkl. replace (dirname (model_file out_dir model nm ++ ".params")) with (dirname (model_file out_dir model nm)); [auto|]. symmetry. apply dirname_app. cbn. intros K; repeat (destruct K as [K|K]; [discriminate|]); exact K.
Qed.

(** ** apply_composition *)
Theorem C70_apply fs in_file nm out_dir model trained files alpha beta lambda out_format st : file_name in_file nm ->
  stopped fs (t_apply_model fs in_file out_dir model trained files alpha beta lambda out_format) st ->
  leaves (fun w => exists arg arg2 t o c s, spaces_at fs files arg arg2 /\ text_at fs in_file t /\ three_fields t /\ model_used fs alpha beta lambda model trained o /\ class_of o c /\
            composed_as o (triples t) arg arg2 s /\ saved_piece s (composed_file out_dir c nm) out_format w)
         (fun d => exists o c, model_used fs alpha beta lambda model trained o /\ class_of o c /\ leads d (dirname (composed_file out_dir c nm))) fs st.
Proof.
  intros Hn. apply runs_stopped. unfold t_apply_model. apply runs_pure. intros o Ho. apply runs_pure. intros f1 H1. apply runs_pure. intros arg Ha. apply runs_pure. intros arg2 Ha2. apply runs_pure. intros data Hd. apply runs_pure. intros s Hs.
  apply model_used_iff in Ho. pose proof (class_of_ex o (model_not_space _ _ _ _ _ _ _ Ho)) as Hc. rewrite (composed_file_eq _ _ _ _ _ Hn Hc). destruct (read_tuples_ok _ _ _ Hd) as (t & T1 & T3 & ->).
  assert (Hsp : spaces_at fs files arg arg2) by (apply spaces_at_ok; rewrite H1; cbn [bind]; rewrite Ha; cbn [bind]; rewrite Ha2; reflexivity). apply composed_iff in Hs.
  eapply runs_weaken; [| |apply runs_save_export].
  - intros w Hw. exists arg, arg2, t, o, (class_name o), s. auto 8.
  - intros d Hl. exists o, (class_name o). auto.
Qed.

(** ** compute_similarities *)
Definition sims_piece (fs : fsys) (in_file nm : string) (columns : list string) (out_dir : string) (measures files : list string) (d : string) (w : string * content) : Prop :=
  exists a0 a1 c0 c1 s s2 t m sim out, columns = [a0; a1] /\ iparse a0 = Some c0 /\ iparse a1 = Some c1 /\ spaces_at fs files s s2 /\ text_at fs in_file t /\ In m measures /\ measure_named m sim /\
    first_sim_lines s s2 sim c0 c1 t out /\ w = (result_file out_dir "SIMS" nm d m, Text out).
Definition sims_dir (nm out_dir : string) (measures : list string) (d dir : string) : Prop :=
  exists m sim, In m measures /\ measure_named m sim /\ leads dir (dirname (result_file out_dir "SIMS" nm d m)).
Lemma sims_noslash : ~ In "/"%char (chars "SIMS").
Proof. cbn. intros K; repeat (destruct K as [K|K]; [discriminate|]); exact K. Qed.
Lemma runs_compute_sim fs in_file nm columns out_dir measures files d : file_name in_file nm -> described files d ->
  runs (sims_piece fs in_file nm columns out_dir measures files d) (sims_dir nm out_dir measures d) (t_compute_sim fs in_file columns out_dir measures files).
Proof.
  intros Hn Hd. unfold t_compute_sim. destruct columns as [|a0 [|a1 [|]]]; try apply runs_lift. apply runs_pure. intros c0 E0. apply runs_pure. intros c1 E1. apply runs_pure. intros f1 H1. destruct (load_space fs f1) as [s|e] eqn:El; [|destruct e; apply runs_lift].
  apply runs_pure. intros s2 H2. rewrite (described_eq "SIMS" _ _ _ _ Hn Hd). apply runs_pure. intros dd K. injection K as <-.
  assert (Hsp : spaces_at fs files s s2) by (apply spaces_at_ok; rewrite H1; cbn [bind]; rewrite El; cbn [bind]; rewrite H2; reflexivity).
  unfold parse_int in E0, E1. destruct (iparse a0) as [z0|] eqn:F0; [|discriminate]. injection E0 as ->. destruct (iparse a1) as [z1|] eqn:F1; [|discriminate]. injection E1 as ->.
  assert (G : forall a m, In m measures -> fs_file a in_file = fs_file fs in_file ->
    runs (sims_piece fs in_file nm [a0; a1] out_dir measures files d) (sims_dir nm out_dir measures d) (t_sim_measure in_file out_dir ("SIMS" ++ "." ++ nm ++ "." ++ d) s s2 (c0 - 1) (c1 - 1) a m)).
  { intros a m Hm Ha. unfold t_sim_measure. destruct (measure m) as [sim|] eqn:Em; [|apply runs_lift]. apply measure_iff in Em. cbv zeta.
    replace (out_dir ++ "/" ++ ("SIMS" ++ "." ++ nm ++ "." ++ d) ++ "." ++ m)%string with (result_file out_dir "SIMS" nm d m) by (unfold result_file; rewrite !sapp_assoc; reflexivity).
    apply runs_bind; [eapply runs_weaken; [| |apply (runs_parents (fun _ => False))]; [intros w []|]|].
    - intros dir Hl. exists m, sim. auto.
    - intros b Hb. apply same_parents in Hb. apply runs_pure. intros t Ht. apply read_text_at in Ht. unfold text_at in Ht. rewrite (parents_files _ _ _ Hb), Ha in Ht. apply runs_write.
      exists a0, a1, c0, c1, s, s2, t, m, sim. eexists. do 7 (split; [first [reflexivity|assumption]|]). split; [apply first_sims|reflexivity]. }
  apply (runs_fold_inv (fun a => fs_file a in_file = fs_file fs in_file)); [exact G| |reflexivity].
  intros a m a' Hm Ha H. destruct (runs_end _ _ _ _ _ (sound_sim_measure _ _ _ _ _ _ _ _ _) (G a m Hm Ha) H) as (L & _). destruct (L in_file) as [K|(c & Hc & _)]; [rewrite K; exact Ha|]. exfalso.
  destruct Hc as (? & ? & ? & ? & ? & ? & ? & m' & sim & out & _ & _ & _ & _ & _ & _ & Hm' & _ & K). injection K as K _. symmetry in K. revert K. apply result_name; [exact Hn|exact sims_noslash|exact (described_noslash _ _ Hd)|exact (measure_noslash _ _ Hm')|discriminate].
Qed.
Theorem C70_similarities fs in_file nm columns out_dir measures files d st : file_name in_file nm -> described files d ->
  stopped fs (t_compute_sim fs in_file columns out_dir measures files) st ->
  leaves (sims_piece fs in_file nm columns out_dir measures files d) (sims_dir nm out_dir measures d) fs st.
Proof. intros Hn Hd. apply runs_stopped, runs_compute_sim; assumption. Qed.
Theorem C70_similarities_batch fs in_file nm columns out_dir measures in_dir dir st :
  file_name in_file nm -> dir_slash in_dir dir -> (forall f, In f (listdir fs dir) -> ~ In "/"%char (chars f)) ->
  stopped fs (t_compute_sim_batch fs in_file columns out_dir measures in_dir) st ->
  leaves (fun w => exists x, In (x ++ ".pkl")%string (listdir fs dir) /\ sims_piece fs in_file nm columns out_dir measures [(dir ++ x ++ ".pkl")%string] x w)
         (fun d => exists x, In (x ++ ".pkl")%string (listdir fs dir) /\ sims_dir nm out_dir measures x d) fs st.
Proof.
  intros Hn Hd Hns. apply runs_stopped. unfold t_compute_sim_batch. apply runs_pure. intros u _. rewrite (proj2 (with_slash_iff _ _) Hd). cbv zeta.
  set (I := fun a => fs_file a in_file = fs_file fs in_file /\ forall p, fs_file a (p ++ ".pkl") = fs_file fs (p ++ ".pkl")).
  assert (T : forall a x w, I a -> sims_piece a in_file nm columns out_dir measures [(dir ++ x ++ ".pkl")%string] x w -> sims_piece fs in_file nm columns out_dir measures [(dir ++ x ++ ".pkl")%string] x w).
  { intros a x w (I1 & I2) (a0 & a1 & c0 & c1 & s & s2 & t & m & sim & out & K1 & K2 & K3 & K4 & K5 & K6). exists a0, a1, c0, c1, s, s2, t, m, sim, out. split; [exact K1|]. split; [exact K2|]. split; [exact K3|]. split; [|split; [|exact K6]].
    - inversion K4 as [|? ? ? L1 L2]; subst. apply sp_one; [exact L1|]. unfold space_at, object_at in *. rewrite <- sapp_assoc in *. rewrite <- I2. exact L2.
    - unfold text_at in *. rewrite <- I1. exact K5. }
  assert (G : forall a f, In f (listdir fs dir) -> I a ->
    runs (fun w => exists x, In (x ++ ".pkl")%string (listdir fs dir) /\ sims_piece fs in_file nm columns out_dir measures [(dir ++ x ++ ".pkl")%string] x w)
         (fun d => exists x, In (x ++ ".pkl")%string (listdir fs dir) /\ sims_dir nm out_dir measures x d)
      (if ends_with f ".pkl" then t_compute_sim a in_file columns out_dir measures [(dir ++ f)%string] else lift (Ok a))).
  { intros a f Hf Ha. destruct (ends_with f ".pkl") eqn:Ee; [|apply runs_lift]. apply ends_with_iff in Ee. destruct Ee as (x & ->).
    eapply runs_weaken; [| |apply (runs_compute_sim a in_file nm columns out_dir measures _ x Hn)].
    - intros w Hw. exists x. split; [exact Hf|]. exact (T _ _ _ Ha Hw).
    - intros d0 Hw. exists x. auto.
    - apply ds_one; [discriminate|]. exact (dir_stem _ _ _ Hd (Hns _ Hf)). }
  apply (runs_fold_inv I); [exact G| |split; reflexivity].
  intros a f a' Hf Ha H. assert (Hsd : sound a (if ends_with f ".pkl" then t_compute_sim a in_file columns out_dir measures [(dir ++ f)%string] else lift (Ok a))) by (destruct (ends_with f ".pkl"); [apply sound_compute_sim|apply sound_lift]).
  destruct (runs_end _ _ _ _ _ Hsd (G a f Hf Ha) H) as (L & _).
  split; [|intros p]; (match goal with |- fs_file _ ?q = _ => destruct (L q) as [K|(c & Hc & _)] end; [rewrite K; apply Ha|]); exfalso;
    destruct Hc as (x & Hx & ? & ? & ? & ? & ? & ? & ? & m' & sim & out & _ & _ & _ & _ & _ & _ & Hm' & _ & K); injection K as K _; symmetry in K; revert K.
  - apply result_name; [exact Hn|exact sims_noslash| |exact (measure_noslash _ _ Hm')|discriminate]. specialize (Hns _ Hx). rewrite chars_app, in_app_iff in Hns. tauto.
  - intros K. unfold result_file in K. destruct Hm'; apply (f_equal (fun s => rev (chars s))) in K; rewrite !chars_app, !rev_app_distr in K; cbn in K; discriminate.
Qed.

(** ** compute_neighbours *)
Theorem C70_neighbours fs in_file nm k out_dir m files d st : file_name in_file nm -> described files d ->
  stopped fs (t_compute_neighbours fs in_file k out_dir m files) st ->
  leaves (fun w => exists s s2 sim t out, measure_named m sim /\ spaces_at fs files s s2 /\ text_at fs in_file t /\ first_neighbour_lines s s2 sim k t out /\ w = (result_file out_dir "NEIGHBOURS" nm d m, Text out))
         (fun dir => leads dir (dirname (result_file out_dir "NEIGHBOURS" nm d m))) fs st.
Proof.
  intros Hn Hd. apply runs_stopped. unfold t_compute_neighbours. destruct (measure m) as [sim|] eqn:Em; [|apply runs_lift]. apply measure_iff in Em. apply runs_pure. intros f1 H1. apply runs_pure. intros s Hs. apply runs_pure. intros s2 H2.
  rewrite (described_eq "NEIGHBOURS" _ _ _ _ Hn Hd). apply runs_pure. intros dd K. apply (f_equal (fun r => match r with Ok x => x | Err _ => "" end)) in K. cbv beta iota in K. subst dd. cbv zeta.
  replace (out_dir ++ "/" ++ ("NEIGHBOURS" ++ "." ++ nm ++ "." ++ d) ++ "." ++ m)%string with (result_file out_dir "NEIGHBOURS" nm d m) by (unfold result_file; rewrite !sapp_assoc; reflexivity).
  apply runs_bind; [apply runs_parents|]. intros b Hb. apply same_parents in Hb. apply runs_pure. intros t Ht. apply read_text_at in Ht. unfold text_at in Ht. rewrite (parents_files _ _ _ Hb) in Ht.
  rewrite C58_list_lines. apply runs_pure. intros l K. injection K as <-. apply runs_write. exists s, s2, sim, t. eexists. split; [exact Em|]. split; [|split; [exact Ht|]]; [|split; [apply first_neighbours|reflexivity]].
  apply spaces_at_ok. rewrite H1. cbn [bind]. rewrite Hs. cbn [bind]. rewrite H2. reflexivity.
Qed.
End PropCrash.
