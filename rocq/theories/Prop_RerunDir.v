(** Prop_RerunDir.v -- property C107: running the tools that work on a directory again. *)
From Coq Require Import Ascii FunctionalExtensionality.
From Verif Require Import Base PyList Dict Num Dense Sparse Matrix Scaling Linalg Operation Similarity Space Peripheral SpecSpace Learner Composition Utils LexFun Str PStr IO SpecIO PIO Prop_IO PExport Prop_Export Pipe SpecPipe SpecPipe2 PFiles PPipe PPipe2 PSave SpecPipe3 PPipe3 SpecCore PCore Prop_Core Prop_Sims Prop_Batch Prop_TrainPipe Crash SpecCrash PCrash PCrash2 PCrash3 PCrash4 PCrash5 Prop_Crash Prop_Rerun SpecDir.
Local Open Scope string_scope.
Local Open Scope list_scope.
Local Open Scope nat_scope.
(** ** specification (with SpecDir.v) *)
(** the output directory is neither the input directory nor below it *)
Definition outside (dir out_dir : string) : Prop := ~ leads dir (out_dir ++ "/").

(** ** paths *)
Lemma chars_inj a b : chars a = chars b -> a = b.
Proof. revert b. induction a as [|x a IH]; intros [|y b] H; cbn in H; try discriminate; [reflexivity|]. injection H as -> H. f_equal. apply IH, H. Qed.
Lemma beyond e r o g : ((e ++ "/") ++ r)%string = ((o ++ "/") ++ g)%string -> ~ In "/"%char (chars g) -> leads (e ++ "/") (o ++ "/").
Proof.
  intros H Hg. apply (f_equal chars) in H. rewrite !(chars_app (_ ++ "/")%string) in H. apply app_eq_app in H. destruct H as (l & [(H1 & H2)|(H1 & H2)]).
  - destruct l as [|c l _] using rev_ind; [rewrite app_nil_r in H1; apply chars_inj in H1; exists ""; rewrite H1, sapp_nil; reflexivity|]. exfalso.
    rewrite chars_app in H1. change (chars "/") with ["/"%char] in H1. rewrite app_assoc in H1. apply app_inj_tail in H1. destruct H1 as (_ & <-). apply Hg. rewrite H2, !in_app_iff. left. right. left. reflexivity.
  - exists (string_of_list_ascii l). apply chars_inj. rewrite (chars_app (e ++ "/")%string), H1. f_equal. symmetry. apply list_ascii_of_string_of_list_ascii.
Qed.
Section RerunDir.
Context {N : Num} {E : Ext} {FI : FloatIO} {PI : PipeIO} {KI : PickleIO}.
(** ** steps that read the disk *)
Lemma good_exists (I J : string -> Prop) p k : good I J k -> good I J (fun fs => tbind (lift (check (exists_ fs p) ValueError)) (fun _ => k fs)).
Proof.
  intros (H1 & H2 & H3). split; [intros fs; apply sound_pure; intros v; apply H1|]. split; [intros fs; apply runs_bind; [apply runs_lift|intros v _; apply H2]|].
  intros a st b a' H Ga Gb Ss Sb Gab Ag. rewrite tbind_lift in H. rewrite !tbind_lift. unfold check in *. destruct (exists_ a p) eqn:Ex; [|discriminate].
  assert (Es : exists_ st p = true).
  { unfold exists_ in *. apply andb_true_iff in Ex. destruct Ex as (-> & Ex). cbn [andb]. destruct Ga as (G1 & G2). destruct (fs_dir a p) eqn:Ed; [rewrite (G1 p Ed); reflexivity|]. cbn [orb] in Ex.
    destruct (fs_file a p) eqn:Ef; [|discriminate]. destruct (fs_file st p) eqn:Eg; [apply orb_true_r|]. exfalso. apply (G2 p); [congruence|exact Eg]. }
  rewrite Es. cbn in *. exact (H3 a st b a' H Ga Gb Ss Sb Gab Ag).
Qed.
Lemma good_seen {V} (I J : string -> Prop) (r : fsys -> V) k : (forall a st, agree I J st a -> r st = r a) -> (forall x, good I J (k (r x))) -> good I J (fun fs => k (r fs) fs).
Proof.
  intros H G. split; [intros fs; apply (proj1 (G fs))|]. split; [intros fs; apply (proj1 (proj2 (G fs)))|].
  intros a st b a' K Ga Gb Ss Sb Gab Ag. rewrite (H a st Ag). exact (proj2 (proj2 (G a)) a st b a' K Ga Gb Ss Sb Gab Ag).
Qed.
Lemma entries_agree (I J : string -> Prop) dir a b : (forall f, plain f -> I (dir ++ f)%string) -> (forall f, plain f -> J (dir ++ f)%string) -> agree I J a b -> same_entries dir a b.
Proof. intros HI HJ (H1 & H2) f Hf. unfold exists_. rewrite (H1 _ (HI f Hf)), (H2 _ (HJ f Hf)). reflexivity. Qed.
Lemma dir_ends d d' : dir_slash d d' -> exists e, d' = (e ++ "/")%string.
Proof. intros [(e & H & ->)|(_ & ->)]; [exists e|exists d]; auto. Qed.
(** no entry of the input directory is, or leads to, an output *)
Lemma outside_file core_dir dir out_dir f g : dir_slash core_dir dir -> outside dir out_dir -> ~ In "/"%char (chars g) -> ~ leads (dir ++ f) (out_dir ++ "/" ++ g).
Proof.
  intros Hd Ho Hg (r & H). destruct (dir_ends _ _ Hd) as (e & ->). apply Ho. apply (beyond e (f ++ r) out_dir g); [|exact Hg]. rewrite !sapp_assoc in *. symmetry. exact H.
Qed.
Lemma leads_refl p : leads p p.
Proof. exists "". rewrite sapp_nil. reflexivity. Qed.

(** ** build_peripheral_space over a directory of core spaces *)
Lemma per_file_split out_dir in_name x : per_file out_dir in_name x = (out_dir ++ "/" ++ ("PER_SS." ++ in_name ++ "." ++ x))%string.
Proof. reflexivity. Qed.
Lemma per_plain in_prefix in_name x ext : file_name in_prefix in_name -> ~ In "/"%char (chars x) -> In ext [".pkl"; ".dm"; ".sm"; ".rows"; ".cols"; ""] -> ~ In "/"%char (chars (("PER_SS." ++ in_name ++ "." ++ x) ++ ext)).
Proof.
  intros (Hn & _) Hx He K. rewrite !chars_app, !in_app_iff in K. destruct K as [[K|[K|[K|K]]]|K]; [|exact (Hn K)| |exact (Hx K)|].
  - cbn in K. repeat (destruct K as [K|K]; [discriminate|]). exact K.
  - cbn in K. repeat (destruct K as [K|K]; [discriminate|]). exact K.
  - cbn in He. repeat (destruct He as [<-|He]; [cbn in K; repeat (destruct K as [K|K]; [discriminate|]); exact K|]). exact He.
Qed.
Theorem C107_peripheral fs in_prefix in_name in_format out_dir out_format core_dir dir filter_ gz fs' st :
  file_name in_prefix in_name -> dir_slash core_dir dir -> lists_entries dir -> outside dir out_dir -> sane fs ->
  (forall x q, ~ In "/"%char (chars x) -> saved_target (per_file out_dir in_name x) q -> ~ In q (input_files in_prefix in_format gz)) ->
  (forall x, ~ In "/"%char (chars x) -> ~ leads (in_prefix ++ ".rows") (per_file out_dir in_name x) /\ ~ leads (in_prefix ++ ".cols") (per_file out_dir in_name x)) ->
  build_per_batch fs in_prefix in_format out_dir out_format core_dir filter_ gz = Ok fs' ->
  interrupted (fun fs => t_build_per_batch fs in_prefix in_format out_dir out_format core_dir filter_ gz) fs st ->
  build_per_batch st in_prefix in_format out_dir out_format core_dir filter_ gz = Ok fs'.
Proof.
  intros Hn Hd (L1 & L2) Ho Hs Hi Hl H K.
  set (I := fun q => In q (input_files in_prefix in_format gz) \/ exists f, plain f /\ q = (dir ++ f)%string).
  set (J := fun q => (q = (in_prefix ++ ".rows")%string \/ q = (in_prefix ++ ".cols")%string) \/ exists f, plain f /\ q = (dir ++ f)%string).
  refine (again (fun fs => build_per_batch fs in_prefix in_format out_dir out_format core_dir filter_ gz) _ I J fs fs' st (fun x => same_per_batch x _ _ _ _ _ _ _) _ Hs H K).
  unfold t_build_per_batch. rewrite (proj2 (with_slash_iff _ _) Hd). cbv zeta.
  apply (good_read I J (fun fs => load_input fs in_prefix in_format gz) (fun raw fs => tbind (lift (check (exists_ fs core_dir) ValueError)) (fun _ => foldT _ (listdir fs dir) fs))).
  { intros a b Hab. apply (load_input_agree I J); [intros q Hq; left; exact Hq|left; left; reflexivity|left; right; reflexivity|exact Hab]. }
  intros raw. apply (good_exists I J core_dir (fun fs => foldT _ (listdir fs dir) fs)).
  apply (good_seen I J (fun fs => listdir fs dir) (fun l fs => foldT _ l fs)).
  { intros a b Hab. apply L2. apply (entries_agree I J); [intros f Hf; right; exists f; auto|intros f Hf; right; exists f; auto|exact Hab]. }
  intros x0. apply good_fold. intros f Hf. pose proof (L1 _ _ Hf) as (F0 & F1). destruct (contains filter_ f && ends_with f ".pkl")%bool eqn:Ec; [|apply good_id].
  apply andb_true_iff in Ec. destruct Ec as (_ & Ec). apply ends_with_iff in Ec. destruct Ec as (x & ->).
  assert (Hx : ~ In "/"%char (chars x)) by (intros Q; apply F1; rewrite chars_app; apply in_app_iff; left; exact Q).
  unfold t_transform_raw. apply (good_read I J (fun fs => load_space fs (dir ++ x ++ ".pkl")) (fun core fs => tbind (lift (mk_peripheral core (s_mat raw) (s_id2row raw) (Some (s_row2id raw)))) (fun s => t_save_export fs s _ out_format))).
  { intros a b Hab. apply (load_space_agree I J); [right; exists (x ++ ".pkl")%string; split; [split; assumption|reflexivity]|exact Hab]. }
  intros core. apply (good_const I J _ (fun s fs => t_save_export fs s _ out_format)). intros s _. apply good_save_export.
  rewrite (base_name_file _ _ Hn), (per_file_eq _ _ _ _ (dir_stem _ _ _ Hd F1)). split.
  - intros ext He [Q|(g & Hg & Q)].
    + apply (Hi x _ Hx) in Q; [exact Q|]. unfold saved_target, export_target. cbn in He. repeat destruct He as [<-|He]; auto 6. destruct He.
    + apply (outside_file core_dir dir out_dir g (("PER_SS." ++ in_name ++ "." ++ x) ++ ext) Hd Ho).
      * apply (per_plain in_prefix); [exact Hn|exact Hx|]. cbn in He |- *. tauto.
      * rewrite <- Q, per_file_split, !sapp_assoc. apply leads_refl.
  - intros d [[-> | ->]|(g & Hg & ->)]; [apply (Hl x Hx)|apply (Hl x Hx)|]. rewrite per_file_split. apply (outside_file core_dir _ _ _ _ Hd Ho).
    pose proof (per_plain in_prefix in_name x "" Hn Hx ltac:(cbn; tauto)) as Q. rewrite sapp_nil in Q. exact Q.
Qed.

(** ** compute_similarities over a directory of spaces *)
Lemma result_plain in_file nm d m sim : file_name in_file nm -> ~ In "/"%char (chars d) -> measure_named m sim -> ~ In "/"%char (chars ("SIMS" ++ "." ++ nm ++ "." ++ d ++ "." ++ m)).
Proof.
  intros (Hn & _) Hd Hm. pose proof (measure_noslash _ _ Hm) as Hm'. pose proof sims_noslash as Hk. rewrite !chars_app, !in_app_iff. cbn [chars In] in *. cbn. intuition discriminate.
Qed.
Theorem C107_similarities fs in_file nm columns out_dir measures in_dir dir fs' st :
  file_name in_file nm -> dir_slash in_dir dir -> lists_entries dir -> outside dir out_dir -> sane fs ->
  compute_sim_batch fs in_file columns out_dir measures in_dir = Ok fs' ->
  interrupted (fun fs => t_compute_sim_batch fs in_file columns out_dir measures in_dir) fs st ->
  compute_sim_batch st in_file columns out_dir measures in_dir = Ok fs'.
Proof.
  intros Hn Hd (L1 & L2) Ho Hs H K.
  set (I := fun q => q = in_file \/ exists f, plain f /\ q = (dir ++ f)%string). set (J := fun q => exists f, plain f /\ q = (dir ++ f)%string).
  refine (again (fun fs => compute_sim_batch fs in_file columns out_dir measures in_dir) _ I J fs fs' st (fun x => same_sim_batch x _ _ _ _ _) _ Hs H K).
  unfold t_compute_sim_batch. rewrite (proj2 (with_slash_iff _ _) Hd). cbv zeta.
  apply (good_exists I J in_dir (fun fs => foldT _ (listdir fs dir) fs)). apply (good_seen I J (fun fs => listdir fs dir) (fun l fs => foldT _ l fs)).
  { intros a b Hab. apply L2. apply (entries_agree I J); [intros f Hf; right; exists f; auto|intros f Hf; exists f; auto|exact Hab]. }
  intros x0. apply good_fold. intros f Hf. pose proof (L1 _ _ Hf) as (F0 & F1). destruct (ends_with f ".pkl") eqn:Ec; [|apply good_id].
  apply ends_with_iff in Ec. destruct Ec as (x & ->). assert (Hx : ~ In "/"%char (chars x)) by (intros Q; apply F1; rewrite chars_app; apply in_app_iff; left; exact Q).
  set (f1 := (dir ++ x ++ ".pkl")%string). assert (If1 : I f1) by (right; exists (x ++ ".pkl")%string; split; [split; assumption|reflexivity]).
  assert (Hde : described [f1] x) by (apply ds_one; [discriminate|exact (dir_stem _ _ _ Hd F1)]).
  unfold t_compute_sim. destruct columns as [|a0 [|a1 [|]]]; try apply good_err.
  apply (good_const I J (parse_int a0) (fun i0 fs => tbind (lift (parse_int a1)) _)). intros i0 _.
  apply (good_const I J (parse_int a1) (fun i1 fs => tbind (lift (head_file [f1])) _)). intros i1 _.
  apply (good_const I J (head_file [f1]) (fun f fs => match load_space fs f with Err TypeError => lift (Ok fs) | Err e => lift (Err e) | Ok s => tbind (lift (load_second fs [f1])) _ end)). intros f Ef. injection Ef as <-.
  apply (good_dep I J (fun fs => load_space fs f1) (fun r fs => match r with Err TypeError => lift (Ok fs) | Err e => lift (Err e) | Ok s => tbind (lift (load_second fs [f1])) _ end)); [intros a b Hab; apply (load_space_agree I J); [exact If1|exact Hab]|].
  intros [s|e]; [|destruct e; first [apply good_err|apply good_id]].
  apply (good_read I J (fun fs => load_second fs [f1]) (fun s2 fs => tbind (lift (sims_descr "SIMS" in_file [f1])) _)); [reflexivity|]. intros s2.
  rewrite (described_eq "SIMS" _ _ _ _ Hn Hde). apply (good_const I J (Ok _) (fun descr fs => foldT (t_sim_measure in_file out_dir descr s s2 (i0 - 1) (i1 - 1)) measures fs)). intros dd Hdd. apply (f_equal (fun r => match r with Ok x => x | Err _ => "" end)) in Hdd. cbv beta iota in Hdd. subst dd.
  apply good_fold. intros m Hm. unfold t_sim_measure. destruct (measure m) as [sim|] eqn:Em; [|apply good_id]. apply measure_iff in Em. cbv zeta.
  replace (out_dir ++ "/" ++ ("SIMS" ++ "." ++ nm ++ "." ++ x) ++ "." ++ m)%string with (result_file out_dir "SIMS" nm x m) by (unfold result_file; rewrite !sapp_assoc; reflexivity).
  pose proof (result_plain in_file nm x m sim Hn Hx Em) as Rp.
  apply (good_bind I J (fun fs => t_parents fs _) (fun fs => tbind (lift (read_text fs in_file)) _)).
  { apply good_parents. intros d (g & Hg & ->) (r & Q). apply (outside_file in_dir dir out_dir g _ Hd Ho Rp). destruct (dirname_leads (result_file out_dir "SIMS" nm x m)) as (r' & Q'). exists (r ++ r')%string. rewrite <- (sapp_assoc (dir ++ g)%string r), <- Q. exact Q'. }
  apply (good_read I J (fun fs => read_text fs in_file) (fun t fs => t_write fs _ (sim_piece s s2 sim (i0 - 1) (i1 - 1)) (flines t) tt)); [intros a b Hab; apply (read_text_agree I J); [left; reflexivity|exact Hab]|].
  intros t. apply good_write. intros [Q|(g & Hg & Q)].
  - revert Q. apply result_name; [exact Hn|exact sims_noslash|exact Hx|exact (measure_noslash _ _ Em)|discriminate].
  - apply (outside_file in_dir dir out_dir g _ Hd Ho Rp). rewrite <- Q. apply leads_refl.
Qed.
End RerunDir.
