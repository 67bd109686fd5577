(** Prop_RerunDirEx.v -- C107: concrete cases, and the exception: a batch that writes into the directory it reads. *)
From Coq Require Import Ascii.
From Verif Require Import Base PyList Dict Num Dense Sparse Matrix Scaling Linalg Operation Similarity Space Peripheral SpecSpace Learner Composition Utils LexFun Str PStr IO SpecIO PIO Prop_IO PExport Prop_Export Pipe SpecPipe SpecPipe2 PFiles PPipe PPipe2 PSave SpecPipe3 PPipe3 SpecCore PCore Prop_Core Prop_Sims Prop_Batch Prop_TrainPipe Crash SpecCrash PCrash PCrash2 PCrash3 PCrash4 PCrash5 Prop_Crash Prop_Crash2 Qio Prop_CrashEx Prop_Rerun SpecDir Prop_RerunDir.
From Verif Require Pio.
Local Open Scope string_scope.
Local Open Scope list_scope.
Local Open Scope nat_scope.
Section Ex.
#[local] Existing Instance QNum.
#[local] Existing Instance Kio.
Context {E : Ext}.
Ltac no_char := cbn; intros K; repeat (destruct K as [K|K]; [discriminate|]); exact K.
(** os.listdir on disks where no other names than these occur in the directory *)
Definition entry_names : list string := ["a.pkl"; "b.txt"; "PER_SS.sp.a.pkl"; "PER_SS.sp.PER_SS.sp.a.pkl"].
#[local] Instance Dio : PipeIO := {|
  cfg_opt := Pio.cfg_lines; py_eval := Pio.eval_name; listdir := fun fs d => filter (fun f => exists_ fs (d ++ f)) entry_names;
  mat_str := fun _ => "[]"; pearsonr := fun _ _ => Ok f1; spearmanr := fun _ _ => Ok f1 |}.
Lemma names_plain f : In f entry_names -> plain f.
Proof. intros H. cbn [entry_names In] in H. repeat (destruct H as [<-|H]; [split; [discriminate|no_char]|]). destruct H. Qed.
Lemma dio_steady dir : lists_entries dir.
Proof.
  split.
  - intros a f H. apply filter_In in H. apply names_plain, H.
  - intros a b H. change (filter (fun f => exists_ a (dir ++ f)) entry_names = filter (fun f => exists_ b (dir ++ f)) entry_names). apply filter_ext_in. intros f Hf. apply H, names_plain, Hf.
Qed.
(** a core space, raw data, pairs of words *)
Definition dir_fs : fsys := FS (fun q =>
  if String.eqb q "cores/a.pkl" then match space_apply exp_sp (TFS CSum 1) with Ok s => Some (Pickle (OSpace s)) | Err _ => None end
  else if String.eqb q "in/sp.pkl" then Some (Pickle (OSpace exp_sp))
  else if String.eqb q "in/pairs" then Some (Text ("car dog 4.0" ++ nl ++ nl ++ "pen dog 2" ++ nl)%string) else None)
  (fun q => String.eqb q "in" || String.eqb q "cores" || String.eqb q "cores/")%bool.
Lemma dir_sane : sane dir_fs.
Proof.
  split.
  - intros q H. unfold exists_, dir_fs in H. cbn [fs_file fs_dir] in H.
    assert (K : In q ["cores/a.pkl"; "in/sp.pkl"; "in/pairs"; "in"; "cores"; "cores/"]).
    { cbn [In]. repeat match type of H with context [String.eqb q ?s] => destruct (String.eqb_spec q s) as [K|_]; [rewrite K; tauto|] end.
      cbn in H. rewrite andb_false_r in H. discriminate. }
    cbn [In] in K. repeat destruct K as [K|K]; try (rewrite <- K; first [right; reflexivity|left; reflexivity]). destruct K.
  - intros q H. cbn in H. apply orb_true_iff in H. destruct H as [H|H]; [apply orb_true_iff in H; destruct H as [H|H]|]; apply String.eqb_eq in H; rewrite H; reflexivity.
Qed.
Lemma dir_file_name nm : In nm ["sp"; "pairs"] -> file_name ("in/" ++ nm) nm.
Proof. intros H. split; [|right; exists "in"; reflexivity]. repeat (destruct H as [<-|H]; [no_char|]). destruct H. Qed.
Lemma dir_cores : dir_slash "cores" "cores/".
Proof. right. split; [|reflexivity]. intros e H. apply (f_equal chars) in H. rewrite chars_app in H. change (chars "cores") with (["c";"o";"r";"e"] ++ ["s"])%char in H. change (chars "/") with (["/"%char]) in H. apply app_inj_tail in H. destruct H; discriminate. Qed.
Definition ok_res {A} (r : res A) : bool := match r with Ok _ => true | Err _ => false end.
Lemma ok_some {A} (r : res A) : ok_res r = true -> exists x, r = Ok x.
Proof. destruct r as [x|]; [exists x; reflexivity|discriminate]. Qed.
Lemma out_outside : outside "cores/" "out".
Proof. intros (r & H). discriminate. Qed.
(** killed after n effects, run again *)
Example C107_peripheral_example : forall n, exists fs', build_per_batch dir_fs "in/sp" "pkl" "out" (Some "dm") "cores" "a" false = Ok fs' /\ listdir dir_fs "cores/" = ["a.pkl"] /\
  build_per_batch (disk_at dir_fs (t_build_per_batch dir_fs "in/sp" "pkl" "out" (Some "dm") "cores" "a" false) n) "in/sp" "pkl" "out" (Some "dm") "cores" "a" false = Ok fs'.
Proof.
  intros n. destruct (ok_some (build_per_batch dir_fs "in/sp" "pkl" "out" (Some "dm") "cores" "a" false)) as (fs' & R); [vm_compute; reflexivity|].
  exists fs'. split; [exact R|]. split; [vm_compute; reflexivity|].
  refine (C107_peripheral dir_fs "in/sp" "sp" "pkl" "out" (Some "dm") "cores" "cores/" "a" false fs' _ (dir_file_name "sp" ltac:(cbn; tauto)) dir_cores (dio_steady _) out_outside dir_sane _ _ R _).
  - intros x q _ Hq Hi. destruct Hi as [<-|[]]. unfold saved_target, export_target in Hq. repeat destruct Hq as [Hq|Hq]; discriminate.
  - intros x _. split; intros (r & H); discriminate.
  - apply (in_again _ _ dir_fs); [apply in_never|]. exists n. reflexivity.
Qed.
Example C107_similarities_example : forall n, exists fs', compute_sim_batch dir_fs "in/pairs" ["1"; "2"] "out" ["dot_prod"; "none such"] "cores" = Ok fs' /\ fs_file fs' "out/SIMS.pairs.a.dot_prod" <> None /\
  compute_sim_batch (disk_at dir_fs (t_compute_sim_batch dir_fs "in/pairs" ["1"; "2"] "out" ["dot_prod"; "none such"] "cores") n) "in/pairs" ["1"; "2"] "out" ["dot_prod"; "none such"] "cores" = Ok fs'.
Proof.
  intros n. assert (Q : match compute_sim_batch dir_fs "in/pairs" ["1"; "2"] "out" ["dot_prod"; "none such"] "cores" with Ok fs' => match fs_file fs' "out/SIMS.pairs.a.dot_prod" with Some _ => true | None => false end | Err _ => false end = true) by (vm_compute; reflexivity).
  destruct (compute_sim_batch dir_fs "in/pairs" ["1"; "2"] "out" ["dot_prod"; "none such"] "cores") as [fs'|] eqn:R; [|discriminate].
  exists fs'. split; [reflexivity|]. split; [intros Z; rewrite Z in Q; discriminate|].
  refine (C107_similarities dir_fs "in/pairs" "pairs" ["1"; "2"] "out" ["dot_prod"; "none such"] "cores" "cores/" fs' _ (dir_file_name "pairs" ltac:(cbn; tauto)) dir_cores (dio_steady _) out_outside dir_sane R _).
  apply (in_again _ _ dir_fs); [apply in_never|]. exists n. reflexivity.
Qed.
(** when the peripheral spaces go into the directory of the core spaces, the second run takes them for core spaces *)
Definition twice : res fsys :=
  match build_per_batch dir_fs "in/sp" "pkl" "cores" None "cores" "a" false with Ok fs' => build_per_batch fs' "in/sp" "pkl" "cores" None "cores" "a" false | Err e => Err e end.
Theorem C107_own_directory : ~ (forall fs in_prefix in_name in_format out_dir out_format core_dir dir filter_ gz fs' st,
  file_name in_prefix in_name -> dir_slash core_dir dir -> lists_entries dir -> sane fs ->
  (forall x q, ~ In "/"%char (chars x) -> saved_target (per_file out_dir in_name x) q -> ~ In q (input_files in_prefix in_format gz)) ->
  (forall x, ~ In "/"%char (chars x) -> ~ leads (in_prefix ++ ".rows") (per_file out_dir in_name x) /\ ~ leads (in_prefix ++ ".cols") (per_file out_dir in_name x)) ->
  build_per_batch fs in_prefix in_format out_dir out_format core_dir filter_ gz = Ok fs' ->
  interrupted (fun fs => t_build_per_batch fs in_prefix in_format out_dir out_format core_dir filter_ gz) fs st ->
  build_per_batch st in_prefix in_format out_dir out_format core_dir filter_ gz = Ok fs').
Proof.
  intros H.
  assert (Q : match build_per_batch dir_fs "in/sp" "pkl" "cores" None "cores" "a" false with Ok fs' => match fs_file fs' "cores/PER_SS.sp.PER_SS.sp.a.pkl" with None => true | Some _ => false end | Err _ => false end = true) by (vm_compute; reflexivity).
  assert (T : match twice with Ok fs' => match fs_file fs' "cores/PER_SS.sp.PER_SS.sp.a.pkl" with Some _ => true | None => false end | Err _ => false end = true) by (vm_compute; reflexivity).
  unfold twice in T. destruct (build_per_batch dir_fs "in/sp" "pkl" "cores" None "cores" "a" false) as [fs1|] eqn:R; [|discriminate].
  assert (K : build_per_batch fs1 "in/sp" "pkl" "cores" None "cores" "a" false = Ok fs1).
  { refine (H dir_fs "in/sp" "sp" "pkl" "cores" None "cores" "cores/" "a" false fs1 fs1 (dir_file_name "sp" ltac:(cbn; tauto)) dir_cores (dio_steady _) dir_sane _ _ R _).
    - intros x q _ Hq Hi. destruct Hi as [<-|[]]. unfold saved_target, export_target in Hq. repeat destruct Hq as [Hq|Hq]; discriminate.
    - intros x _. split; intros (r & Hr); discriminate.
    - apply (in_again _ _ dir_fs); [apply in_never|]. apply stopped_end; [apply sound_per_batch|]. apply same_per_batch, R. }
  rewrite K in T. destruct (fs_file fs1 "cores/PER_SS.sp.PER_SS.sp.a.pkl"); discriminate.
Qed.
End Ex.
