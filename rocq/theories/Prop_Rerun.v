(** Prop_Rerun.v -- C71: running a tool again after it was killed. *)
From Coq Require Import Ascii FunctionalExtensionality.
From Verif Require Import Base PyList Dict Num Dense Sparse Matrix Scaling Linalg Operation Similarity Space Peripheral SpecSpace Learner Composition Utils LexFun Str PStr IO SpecIO PIO Prop_IO PExport Prop_Export Pipe SpecPipe SpecPipe2 PFiles PPipe PPipe2 PSave SpecPipe3 PPipe3 SpecCore PCore Prop_Core Prop_Sims Prop_Batch Prop_TrainPipe Crash SpecCrash PCrash PCrash2 PCrash3 PCrash4 PCrash5 Prop_Crash.
Local Open Scope string_scope.
Local Open Scope list_scope.
Local Open Scope nat_scope.

Section Rerun.
Context {N : Num} {E : Ext} {FI : FloatIO} {PI : PipeIO} {KI : PickleIO}.
Lemma good_dep {V} (I J : string -> Prop) (r : fsys -> V) k : (forall a st, agree I J st a -> r st = r a) -> (forall v, good I J (k v)) -> good I J (fun fs => k (r fs) fs).
Proof.
  intros H G. split; [intros fs; apply (proj1 (G (r fs)))|]. split; [intros fs; apply (proj1 (proj2 (G (r fs))))|].
  intros a st b a' K Ga Gb Ss Sb Gab Ag. rewrite (H a st Ag). exact (proj2 (proj2 (G (r a))) a st b a' K Ga Gb Ss Sb Gab Ag).
Qed.
Lemma good_read {A} (I J : string -> Prop) (r : fsys -> res A) k : (forall a st, agree I J st a -> r st = r a) -> (forall v, good I J (k v)) -> good I J (fun fs => tbind (lift (r fs)) (fun v => k v fs)).
Proof. intros H G. apply (good_dep I J r (fun v fs => tbind (lift v) (fun v => k v fs)) H). intros v. apply good_const. intros x _. apply G. Qed.

(** ** reading *)
Lemma load_space_agree (I J : string -> Prop) p a st : I p -> agree I J st a -> load_space st p = load_space a p.
Proof. intros Hp (H & _). unfold load_space. rewrite (H p Hp). reflexivity. Qed.
Lemma read_text_agree (I J : string -> Prop) p a st : I p -> agree I J st a -> read_text st p = read_text a p.
Proof. intros Hp (H & _). unfold read_text. rewrite (H p Hp). reflexivity. Qed.
Lemma read_tuples_agree (I J : string -> Prop) p a st : I p -> agree I J st a -> read_tuples st p = read_tuples a p.
Proof. intros Hp H. unfold read_tuples. rewrite (read_text_agree I J p a st Hp H). reflexivity. Qed.
Lemma load_second_agree (I J : string -> Prop) files a st : (forall f, In f files -> I f) -> agree I J st a -> load_second st files = load_second a files.
Proof. intros Hp H. unfold load_second. destruct files as [|f [|g [|]]]; try reflexivity. rewrite (load_space_agree I J g a st); [reflexivity| |exact H]. apply Hp. cbn. auto. Qed.
Lemma load_model_agree (I J : string -> Prop) p a st : I p -> agree I J st a -> load_model st p = load_model a p.
Proof. intros Hp (H & _). unfold load_model. rewrite (H p Hp). reflexivity. Qed.
(** the files of an input *)
Definition input_files (prefix fmt : string) (gz : bool) : list string :=
  if String.eqb fmt "pkl" then [(prefix ++ ".pkl")%string]
  else [(prefix ++ "." ++ fmt ++ (if gz then ".gz" else ""))%string; (prefix ++ ".rows")%string; (prefix ++ ".cols")%string].
Lemma build_agree (I J : string -> Prop) data fmt rows cols a st : I data -> (forall p, rows = Some p -> I p) -> (forall p, cols = Some p -> I p) -> agree I J st a -> build st (Some data) (Some fmt) rows cols = build a (Some data) (Some fmt) rows cols.
Proof.
  intros Hd Hr Hc H.
  assert (X : forall p, I p -> read_index st p = read_index a p) by (intros p Hp; unfold read_index; rewrite (read_text_agree I J p a st Hp H); reflexivity).
  unfold build. destruct rows as [r|]; [rewrite (X r (Hr r eq_refl))|]; (destruct cols as [c|]; [rewrite (X c (Hc c eq_refl))|]); rewrite ?(X data Hd), (read_text_agree I J data a st Hd H); reflexivity.
Qed.
Lemma load_input_agree (I J : string -> Prop) prefix fmt gz a st : (forall q, In q (input_files prefix fmt gz) -> I q) -> J (prefix ++ ".rows")%string -> J (prefix ++ ".cols")%string -> agree I J st a ->
  load_input st prefix fmt gz = load_input a prefix fmt gz.
Proof.
  intros Hi Jr Jc H. unfold load_input. destruct (check _ _); [|reflexivity]. cbn [bind]. unfold input_files in Hi. destruct (String.eqb_spec fmt "pkl") as [-> |Hf]; [apply (load_space_agree I J); [apply Hi; left; reflexivity|exact H]|].
  assert (X : forall q, In q [(prefix ++ ".rows")%string; (prefix ++ ".cols")%string] -> exists_ st q = exists_ a q).
  { intros q Hq. unfold exists_. rewrite (proj1 H q), (proj2 H q); [reflexivity| |].
    - destruct Hq as [<-|[<-|[]]]; assumption.
    - apply Hi. right. exact Hq. }
  rewrite (X _ (or_introl eq_refl)), (X _ (or_intror (or_introl eq_refl))). cbv zeta.
  destruct (if exists_ a (prefix ++ ".cols") then _ else _) as [cols|] eqn:Ec; [|reflexivity]. cbn [bind]. apply (build_agree I J); [| | |exact H].
  - apply Hi. left. destruct gz; rewrite ?sapp_assoc; [reflexivity|]. rewrite sapp_nil. reflexivity.
  - intros p Hp. destruct (exists_ a (prefix ++ ".rows")); [|discriminate]. injection Hp as <-. apply Hi. right. left. reflexivity.
  - intros p ->. destruct (exists_ a (prefix ++ ".cols")); [|destruct (String.eqb fmt "sm"); discriminate]. injection Ec as <-. apply Hi. right. right. left. reflexivity.
Qed.

(** a tool whose output is apart from its input can be repeated: if it ends normally on a disk, it gives the same on any disk that
    interrupted runs of it leave there *)
Lemma again (tool : fsys -> res fsys) (run : fsys -> tr fsys) I J fs fs' st : (forall x, same (run x) (tool x)) -> good I J run -> sane fs -> tool fs = Ok fs' -> interrupted run fs st -> tool st = Ok fs'.
Proof. intros S G Hs H K. apply S. apply S in H. exact (proj2 (rerun_many I J run fs fs' st G Hs H K)). Qed.
Lemma target_off (I J : string -> Prop) out : (forall q, saved_target out q -> ~ I q) -> (forall d, J d -> ~ leads d out) -> off I J out.
Proof. intros H K. split; [|exact K]. intros ext He. apply H. unfold saved_target, export_target. cbn in He. repeat destruct He as [<-|He]; auto 6. destruct He. Qed.

(** ** build_core_space *)
Theorem C71_core fs in_prefix in_name in_format out_dir out_format ws xs rs ns gz fs' st : file_name in_prefix in_name -> sane fs ->
  (forall c q, combos ws xs rs ns c -> saved_target (core_file out_dir in_name c) q -> ~ In q (input_files in_prefix in_format gz)) ->
  (forall c, combos ws xs rs ns c -> ~ leads (in_prefix ++ ".rows") (core_file out_dir in_name c) /\ ~ leads (in_prefix ++ ".cols") (core_file out_dir in_name c)) ->
  build_spaces fs in_prefix in_format out_dir out_format ws xs rs ns gz = Ok fs' ->
  interrupted (fun fs => t_build_spaces fs in_prefix in_format out_dir out_format ws xs rs ns gz) fs st ->
  build_spaces st in_prefix in_format out_dir out_format ws xs rs ns gz = Ok fs'.
Proof.
  intros Hn Hs Ho Hd H K. set (I := fun q => In q (input_files in_prefix in_format gz)). set (J := fun d => d = (in_prefix ++ ".rows")%string \/ d = (in_prefix ++ ".cols")%string).
  refine (again (fun fs => build_spaces fs in_prefix in_format out_dir out_format ws xs rs ns gz) _ I J fs fs' st (fun x => same_build_spaces x _ _ _ _ _ _ _ _ _) _ Hs H K).
  unfold t_build_spaces. apply (good_read I J (fun fs => load_input fs in_prefix in_format gz) (fun s fs => t_combinations fs s out_dir ("CORE_SS." ++ base_name in_prefix) out_format ws xs rs ns)).
  - intros a b Hab. apply (load_input_agree I J); [auto|left; reflexivity|right; reflexivity|exact Hab].
  - intros s. apply good_combinations. intros w x r n Hw Hx Hr Hq. rewrite (base_name_file _ _ Hn).
    change (out_dir ++ "/" ++ space_descr [Some ("CORE_SS." ++ in_name)%string; w; x; r; n])%string with (out_of out_dir ("CORE_SS." ++ in_name) (w, x, r, n)). rewrite out_core.
    assert (Hc : combos ws xs rs ns (w, x, r, n)) by (repeat split; assumption). apply target_off; [intros q Hq1; exact (Ho _ q Hc Hq1)|]. destruct (Hd _ Hc) as (D1 & D2). intros d [-> | ->]; assumption.
Qed.

(** ** build_peripheral_space, one core space *)
Theorem C71_peripheral fs in_prefix in_name in_format out_dir out_format core_file x gz fs' st : file_name in_prefix in_name -> stem_of core_file x -> sane fs ->
  (forall q, saved_target (per_file out_dir in_name x) q -> ~ In q (core_file :: input_files in_prefix in_format gz)) ->
  ~ leads (in_prefix ++ ".rows") (per_file out_dir in_name x) -> ~ leads (in_prefix ++ ".cols") (per_file out_dir in_name x) ->
  build_per_space fs in_prefix in_format out_dir out_format core_file gz = Ok fs' ->
  interrupted (fun fs => t_build_per_space fs in_prefix in_format out_dir out_format core_file gz) fs st ->
  build_per_space st in_prefix in_format out_dir out_format core_file gz = Ok fs'.
Proof.
  intros Hn Hx Hs Ho D1 D2 H K. set (I := fun q => In q (core_file :: input_files in_prefix in_format gz)). set (J := fun d => d = (in_prefix ++ ".rows")%string \/ d = (in_prefix ++ ".cols")%string).
  refine (again (fun fs => build_per_space fs in_prefix in_format out_dir out_format core_file gz) _ I J fs fs' st (fun x => same_per_space x _ _ _ _ _ _) _ Hs H K).
  unfold t_build_per_space. apply (good_read I J (fun fs => load_input fs in_prefix in_format gz) (fun raw fs => t_transform_raw fs raw in_prefix out_dir out_format core_file)).
  - intros a b Hab. apply (load_input_agree I J); [intros q Hq; right; exact Hq|left; reflexivity|right; reflexivity|exact Hab].
  - intros raw. unfold t_transform_raw. apply (good_read I J (fun fs => load_space fs core_file) (fun core fs => tbind (lift (mk_peripheral core (s_mat raw) (s_id2row raw) (Some (s_row2id raw)))) (fun s => t_save_export fs s _ out_format))).
    + intros a b Hab. apply (load_space_agree I J); [left; reflexivity|exact Hab].
    + intros core. apply (good_const I J _ (fun s fs => t_save_export fs s _ out_format)). intros s _. apply good_save_export. rewrite (base_name_file _ _ Hn), (per_file_eq _ _ _ _ Hx).
      apply target_off; [exact Ho|]. intros d [-> | ->]; assumption.
Qed.

(** ** train_composition *)
Theorem C71_train fs in_file nm out_dir model files phrase reg cv icpt param range ex fs' st : file_name in_file nm -> sane fs ->
  (forall q, (q = (model_file out_dir model nm ++ ".pkl")%string \/ q = (model_file out_dir model nm ++ ".params")%string \/ export_target (model_file out_dir model nm ++ ".params") q) -> ~ In q (in_file :: phrase :: files)) ->
  train_model fs in_file out_dir model files phrase reg cv icpt param range ex = Ok fs' ->
  interrupted (fun fs => t_train_model fs in_file out_dir model files phrase reg cv icpt param range ex) fs st ->
  train_model st in_file out_dir model files phrase reg cv icpt param range ex = Ok fs'.
Proof.
  intros Hn Hs Ho H K. set (I := fun q => In q (in_file :: phrase :: files)). set (J := fun _ : string => False).
  refine (again (fun fs => train_model fs in_file out_dir model files phrase reg cv icpt param range ex) _ I J fs fs' st (fun x => same_train_model x _ _ _ _ _ _ _ _ _ _ _) _ Hs H K).
  assert (Lf : forall a b p, In p (in_file :: phrase :: files) -> agree I J b a -> load_space b p = load_space a p) by (intros a b p Hp Hab; exact (load_space_agree I J p a b Hp Hab)).
  assert (L2 : forall a b, agree I J b a -> load_second b files = load_second a files) by (intros a b; apply (load_second_agree I J); intros f Hf; right; right; exact Hf).
  assert (Lt : forall a b, agree I J b a -> read_tuples b in_file = read_tuples a in_file) by (intros a b; apply (read_tuples_agree I J); left; reflexivity).
  unfold t_train_model. destruct files as [|f1 fr]; [apply good_err|]. set (files := f1 :: fr) in *.
  apply (good_const I J (head_file files) (fun f1 fs => tbind (lift (load_space fs f1)) _)). intros f Hf. injection Hf as <-.
  cbv zeta. rewrite (model_file_eq _ _ _ _ Hn).
  apply (good_read I J (fun fs => load_space fs f1) (fun arg fs => tbind (lift (load_second fs files)) _)); [intros a b Hab; apply Lf; [right; right; left; reflexivity|exact Hab]|]. intros arg.
  apply (good_read I J (fun fs => load_second fs files) (fun arg2 fs => tbind (lift (load_space fs phrase)) _)); [exact L2|]. intros arg2.
  apply (good_read I J (fun fs => load_space fs phrase) (fun phr fs => tbind (lift (make_model model reg cv icpt param range)) _)); [intros a b Hab; apply Lf; [right; left; reflexivity|exact Hab]|]. intros phr.
  apply (good_const I J (make_model model reg cv icpt param range) (fun o fs => tbind (lift (read_tuples fs in_file)) _)). intros o _.
  apply (good_read I J (fun fs => read_tuples fs in_file) (fun data fs => tbind (lift (train_obj o data arg arg2 phr)) _)); [exact Lt|]. intros data.
  apply (good_const I J (train_obj o data arg arg2 phr) (fun o fs => tbind (t_save fs o (model_file out_dir model nm ++ ".pkl")) (fun fs => if ex then t_export_model fs o (model_file out_dir model nm ++ ".params") else lift (Ok fs)))). intros o' _.
  apply (good_bind I J (fun fs => t_save fs o' _) (fun fs => if ex then t_export_model fs o' (model_file out_dir model nm ++ ".params") else lift (Ok fs))).
  - apply good_save; [apply Ho; left; reflexivity|intros d []].
  - destruct ex; [|apply good_id]. apply good_export_model; [apply Ho; right; left; reflexivity| |intros d []].
    intros ext He. apply Ho. right. right. unfold export_target. cbn in He. repeat destruct He as [<-|He]; auto. destruct He.
Qed.

(** ** apply_composition *)
Theorem C71_apply fs in_file nm out_dir model trained files alpha beta lambda out_format fs' st : file_name in_file nm -> sane fs ->
  (forall o c q, class_of o c -> saved_target (composed_file out_dir c nm) q -> ~ In q (in_file :: files) /\ Some q <> trained) ->
  apply_model fs in_file out_dir model trained files alpha beta lambda out_format = Ok fs' ->
  interrupted (fun fs => t_apply_model fs in_file out_dir model trained files alpha beta lambda out_format) fs st ->
  apply_model st in_file out_dir model trained files alpha beta lambda out_format = Ok fs'.
Proof.
  intros Hn Hs Ho H K. set (I := fun q => In q (in_file :: files) \/ Some q = trained). set (J := fun _ : string => False).
  refine (again (fun fs => apply_model fs in_file out_dir model trained files alpha beta lambda out_format) _ I J fs fs' st (fun x => same_apply_model x _ _ _ _ _ _ _ _ _) _ Hs H K).
  unfold t_apply_model.
  apply (good_pure I J (fun fs => match model with Some m => create_model m alpha beta lambda | None => let* f := require trained in load_model fs f end) (fun o fs => tbind (lift (head_file files)) _)).
  { intros a b v Hab. destruct model; [auto|]. destruct trained as [p|] eqn:Et; [|auto]. cbn [require bind]. rewrite (load_model_agree I J p a b); [auto|right; congruence|exact Hab]. }
  intros o. destruct files as [|f1 fr]; [apply good_err|]. set (files := f1 :: fr) in *.
  apply (good_const I J (head_file files) (fun f1 fs => tbind (lift (load_space fs f1)) _)). intros f Hf. injection Hf as <-.
  apply (good_read I J (fun fs => load_space fs f1) (fun arg fs => tbind (lift (load_second fs files)) _)); [intros a b Hab; apply (load_space_agree I J); [left; right; left; reflexivity|exact Hab]|]. intros arg.
  apply (good_read I J (fun fs => load_second fs files) (fun arg2 fs => tbind (lift (read_tuples fs in_file)) _)); [intros a b Hab; apply (load_second_agree I J); [intros g Hg; left; right; exact Hg|exact Hab]|]. intros arg2.
  apply (good_read I J (fun fs => read_tuples fs in_file) (fun data fs => tbind (lift (compose_obj o data arg arg2)) _)); [intros a b Hab; apply (read_tuples_agree I J); [left; left; reflexivity|exact Hab]|]. intros data.
  apply (good_const I J (compose_obj o data arg arg2) (fun s fs => t_save_export fs s _ out_format)). intros s Hsp. apply composed_iff in Hsp.
  assert (Hc : class_of o (class_name o)) by (apply class_of_ex; intros s0 ->; inversion Hsp). rewrite (composed_file_eq _ _ _ _ _ Hn Hc).
  apply good_save_export, target_off; [|intros d []]. intros q Hq. destruct (Ho _ _ _ Hc Hq) as (K1 & K2). intros [K3|K3]; contradiction.
Qed.

(** ** compute_similarities *)
Theorem C71_similarities fs in_file nm columns out_dir measures files d fs' st : file_name in_file nm -> described files d -> sane fs ->
  (forall m sim, measure_named m sim -> ~ In (result_file out_dir "SIMS" nm d m) files) ->
  compute_sim fs in_file columns out_dir measures files = Ok fs' ->
  interrupted (fun fs => t_compute_sim fs in_file columns out_dir measures files) fs st ->
  compute_sim st in_file columns out_dir measures files = Ok fs'.
Proof.
  intros Hn Hd Hs Ho H K. set (I := fun q => In q (in_file :: files)). set (J := fun _ : string => False).
  refine (again (fun fs => compute_sim fs in_file columns out_dir measures files) _ I J fs fs' st (fun x => same_compute_sim x _ _ _ _ _) _ Hs H K).
  unfold t_compute_sim. destruct columns as [|a0 [|a1 [|]]]; try apply good_err. destruct files as [|f1 fr]; [inversion Hd|]. set (files := f1 :: fr) in *.
  apply (good_const I J (parse_int a0) (fun i0 fs => tbind (lift (parse_int a1)) _)). intros i0 _.
  apply (good_const I J (parse_int a1) (fun i1 fs => tbind (lift (head_file files)) _)). intros i1 _.
  apply (good_const I J (head_file files) (fun f fs => match load_space fs f with Err TypeError => lift (Ok fs) | Err e => lift (Err e) | Ok s => tbind (lift (load_second fs files)) _ end)). intros f Hf. injection Hf as <-.
  apply (good_dep I J (fun fs => load_space fs f1) (fun r fs => match r with Err TypeError => lift (Ok fs) | Err e => lift (Err e) | Ok s => tbind (lift (load_second fs files)) _ end)); [intros a b Hab; apply (load_space_agree I J); [right; left; reflexivity|exact Hab]|].
  intros [s|e]; [|destruct e; first [apply good_err|apply good_id]].
  apply (good_read I J (fun fs => load_second fs files) (fun s2 fs => tbind (lift (sims_descr "SIMS" in_file files)) _)); [intros a b Hab; apply (load_second_agree I J); [intros g Hg; right; exact Hg|exact Hab]|]. intros s2.
  rewrite (described_eq "SIMS" _ _ _ _ Hn Hd). apply (good_const I J (Ok _) (fun descr fs => foldT (t_sim_measure in_file out_dir descr s s2 (i0 - 1) (i1 - 1)) measures fs)). intros dd Hdd. apply (f_equal (fun r => match r with Ok x => x | Err _ => "" end)) in Hdd. cbv beta iota in Hdd. subst dd.
  apply good_fold. intros m Hm. unfold t_sim_measure. destruct (measure m) as [sim|] eqn:Em; [|apply good_id]. apply measure_iff in Em. cbv zeta.
  replace (out_dir ++ "/" ++ ("SIMS" ++ "." ++ nm ++ "." ++ d) ++ "." ++ m)%string with (result_file out_dir "SIMS" nm d m) by (unfold result_file; rewrite !sapp_assoc; reflexivity).
  apply (good_bind I J (fun fs => t_parents fs _) (fun fs => tbind (lift (read_text fs in_file)) _)); [apply good_parents; intros q []|].
  apply (good_read I J (fun fs => read_text fs in_file) (fun t fs => t_write fs _ (sim_piece s s2 sim (i0 - 1) (i1 - 1)) (flines t) tt)); [intros a b Hab; apply (read_text_agree I J); [left; reflexivity|exact Hab]|].
  intros t. apply good_write. intros [Q|Q]; [|exact (Ho m sim Em Q)]. symmetry in Q. revert Q. apply result_name; [exact Hn|exact sims_noslash|exact (described_noslash _ _ Hd)|exact (measure_noslash _ _ Em)|discriminate].
Qed.

(** ** compute_neighbours *)
Theorem C71_neighbours fs in_file nm k out_dir m files d fs' st : file_name in_file nm -> described files d -> sane fs ->
  ~ In (result_file out_dir "NEIGHBOURS" nm d m) files ->
  compute_neighbours fs in_file k out_dir m files = Ok fs' ->
  interrupted (fun fs => t_compute_neighbours fs in_file k out_dir m files) fs st ->
  compute_neighbours st in_file k out_dir m files = Ok fs'.
Proof.
  intros Hn Hd Hs Ho H K. set (I := fun q => In q (in_file :: files)). set (J := fun _ : string => False).
  refine (again (fun fs => compute_neighbours fs in_file k out_dir m files) _ I J fs fs' st (fun x => same_compute_neighbours x _ _ _ _ _) _ Hs H K).
  unfold t_compute_neighbours. destruct (measure m) as [sim|] eqn:Em; [|apply good_err]. apply measure_iff in Em. destruct files as [|f1 fr]; [inversion Hd|]. set (files := f1 :: fr) in *.
  apply (good_const I J (head_file files) (fun f fs => tbind (lift (load_space fs f)) _)). intros f Hf. injection Hf as <-.
  apply (good_read I J (fun fs => load_space fs f1) (fun s fs => tbind (lift (load_second fs files)) _)); [intros a b Hab; apply (load_space_agree I J); [right; left; reflexivity|exact Hab]|]. intros s.
  apply (good_read I J (fun fs => load_second fs files) (fun s2 fs => tbind (lift (sims_descr "NEIGHBOURS" in_file files)) _)); [intros a b Hab; apply (load_second_agree I J); [intros g Hg; right; exact Hg|exact Hab]|]. intros s2.
  rewrite (described_eq "NEIGHBOURS" _ _ _ _ Hn Hd).
  apply (good_const I J (Ok _) (fun descr fs => tbind (t_parents fs (out_dir ++ "/" ++ descr ++ "." ++ m)%string) _)). intros dd Hdd. apply (f_equal (fun r => match r with Ok x => x | Err _ => "" end)) in Hdd. cbv beta iota in Hdd. subst dd.
  replace (out_dir ++ "/" ++ ("NEIGHBOURS" ++ "." ++ nm ++ "." ++ d) ++ "." ++ m)%string with (result_file out_dir "NEIGHBOURS" nm d m) by (unfold result_file; rewrite !sapp_assoc; reflexivity).
  apply (good_bind I J (fun fs => t_parents fs _) (fun fs => tbind (lift (read_text fs in_file)) _)); [apply good_parents; intros q []|].
  apply (good_read I J (fun fs => read_text fs in_file) (fun t fs => tbind (lift (read_list t None)) _)); [intros a b Hab; apply (read_text_agree I J); [left; reflexivity|exact Hab]|]. intros t.
  apply (good_const I J (read_list t None) (fun data fs => t_write fs _ (neigh_piece s s2 sim k) (flat_map (fun w => [(w, false); (w, true)]) data) tt)). intros data _.
  apply good_write. intros [Q|Q]; [|exact (Ho Q)]. symmetry in Q. revert Q. apply result_name; [exact Hn| |exact (described_noslash _ _ Hd)|exact (measure_noslash _ _ Em)|discriminate].
  cbn. intros L; repeat (destruct L as [L|L]; [discriminate|]); exact L.
Qed.
End Rerun.

(** *** a concrete case over the rationals: build_core_space, killed twice *)
From Verif Require Import Qio Pio Prop_CrashEx.
Section Ex.
#[local] Existing Instance QNum.
#[local] Existing Instance Kio.
Context {E : Ext}.
Definition again_fs : fsys := FS (fun q => if String.eqb q "in/sp.pkl" then Some (Pickle (OSpace exp_sp)) else None) (fun q => String.eqb q "in").
Definition again_tool (fs : fsys) : res fsys := build_spaces fs "in/sp" "pkl" "out" (Some "dm") [None] [None; Some "top_sum_1"] [None] [None] false.
Definition again_run (fs : fsys) : tr fsys := t_build_spaces fs "in/sp" "pkl" "out" (Some "dm") [None] [None; Some "top_sum_1"] [None] [None] false.
Lemma again_sane : sane again_fs.
Proof.
  split.
  - intros q H. unfold exists_, again_fs in H. cbn [fs_file fs_dir] in H. destruct (String.eqb q "in/sp.pkl") eqn:Eq; [right; apply String.eqb_eq in Eq; rewrite Eq; reflexivity|]. cbn in H. rewrite orb_false_r in H. apply andb_true_iff in H. destruct H as (_ & H). apply String.eqb_eq in H. rewrite H. left. reflexivity.
  - intros q H. cbn in H. apply String.eqb_eq in H. rewrite H. reflexivity.
Qed.
Example C71_example : exists st fs', interrupted again_run again_fs st /\ again_tool again_fs = Ok fs' /\ again_tool st = Ok fs' /\
  text_at st "out/CORE_SS.sp.dm" ("car	0.0	4.0" ++ nl ++ "p") /\ fs_file st "out/CORE_SS.sp.rows" = None /\ text_at fs' "out/CORE_SS.sp.rows" ("car" ++ nl ++ "pen" ++ nl ++ "dog" ++ nl) /\ again_tool fs' = Ok fs'.
Proof.
  set (st1 := disk_at again_fs (again_run again_fs) 5). set (st := disk_at st1 (again_run st1) 22).
  assert (K : interrupted again_run again_fs st) by (apply (in_again _ _ st1); [apply (in_again _ _ again_fs); [constructor|exists 5; reflexivity]|exists 22; reflexivity]).
  assert (C : match again_tool again_fs with Ok fs' => fs_file fs' "out/CORE_SS.sp.rows" | Err _ => None end = Some (Text ("car" ++ nl ++ "pen" ++ nl ++ "dog" ++ nl)%string)) by (vm_compute; reflexivity).
  destruct (again_tool again_fs) as [fs'|] eqn:Et; [|discriminate]. exists st, fs'.
  assert (Hnm : file_name "in/sp" "sp") by (split; [cbn; intros Q; repeat (destruct Q as [Q|Q]; [discriminate|]); exact Q|right; exists "in"; reflexivity]).
  assert (T : forall st, interrupted again_run again_fs st -> again_tool st = Ok fs').
  { intros x Hx. refine (C71_core again_fs "in/sp" "sp" "pkl" "out" (Some "dm") _ _ _ _ false fs' x Hnm again_sane _ _ Et Hx).
    - intros [[[w y] r] n] q (Hw & Hy & Hr & Hn) Hq [Hi|[]]. cbn [core_file] in Hq. subst q. destruct Hw as [<-|[]], Hr as [<-|[]], Hn as [<-|[]], Hy as [<-|[<-|[]]]; cbn in Hq;
        unfold saved_target, export_target in Hq; cbn in Hq; repeat destruct Hq as [Hq|Hq]; discriminate.
    - intros [[[w y] r] n] _. split; intros (z & Hz); cbn in Hz; discriminate. }
  split; [exact K|]. split; [reflexivity|]. split; [exact (T st K)|]. split; [vm_compute; reflexivity|]. split; [vm_compute; reflexivity|]. split; [exact C|].
  apply T. apply (in_again _ _ again_fs); [constructor|]. apply stopped_end; [apply sound_build_spaces|]. apply same_build_spaces. exact Et.
Qed.
End Ex.
