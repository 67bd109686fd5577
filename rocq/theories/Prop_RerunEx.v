(** Prop_RerunEx.v -- C70, C71: concrete cases of the other tools, over the rationals. *)
From Coq Require Import Ascii.
From Verif Require Import Base PyList Dict Num Dense Sparse Matrix Scaling Linalg Operation Similarity Space Peripheral SpecSpace Learner Composition Utils LexFun Str PStr IO SpecIO PIO Prop_IO PExport Prop_Export Pipe SpecPipe SpecPipe2 PFiles PPipe PPipe2 PSave SpecPipe3 PPipe3 SpecCore PCore Prop_Core Prop_Sims Prop_Batch Prop_TrainPipe Crash SpecCrash PCrash PCrash2 PCrash3 PCrash4 PCrash5 Prop_Crash Prop_Crash2 Qio Pio Prop_CrashEx Prop_Rerun.
Local Open Scope string_scope.
Local Open Scope list_scope.
Local Open Scope nat_scope.
Section Ex.
#[local] Existing Instance QNum.
#[local] Existing Instance Kio.
Context {E : Ext}.
Ltac no_char := cbn; intros K; repeat (destruct K as [K|K]; [discriminate|]); exact K.
(** a space, a core space with one of its columns, word pairs, words and triples *)
Definition tools_fs : fsys := FS (fun q =>
  if String.eqb q "in/a.pkl" then match space_apply exp_sp (TFS CSum 1) with Ok s => Some (Pickle (OSpace s)) | Err _ => None end
  else if String.eqb q "in/sp.pkl" then Some (Pickle (OSpace exp_sp))
  else if String.eqb q "in/tri" then Some (Text ("car dog pen" ++ nl ++ "pen dog car" ++ nl)%string)
  else if String.eqb q "in/pairs" then Some (Text ("car dog 4.0" ++ nl ++ nl ++ "pen dog 2" ++ nl)%string)
  else if String.eqb q "in/words" then Some (Text ("car" ++ nl ++ "dog" ++ nl)%string) else None) (fun q => String.eqb q "in").
Lemma tools_sane : sane tools_fs.
Proof.
  split.
  - intros q H. unfold exists_, tools_fs in H. cbn [fs_file fs_dir] in H.
    assert (K : In q ["in/a.pkl"; "in/sp.pkl"; "in/tri"; "in/pairs"; "in/words"; "in"]).
    { cbn [In]. repeat match type of H with context [String.eqb q ?s] => destruct (String.eqb_spec q s) as [K|_]; [rewrite K; tauto|] end.
      cbn in H. rewrite andb_false_r in H. discriminate. }
    cbn [In] in K. repeat destruct K as [K|K]; try (rewrite <- K; first [right; reflexivity|left; reflexivity]). destruct K.
  - intros q H. cbn in H. apply String.eqb_eq in H. rewrite H. reflexivity.
Qed.
Definition is_done {A} (r : res A) : bool := match r with Ok _ => true | Err _ => false end.
Lemma done_ok {A} (r : res A) : is_done r = true -> exists x, r = Ok x.
Proof. destruct r as [x|]; [exists x; reflexivity|discriminate]. Qed.
Lemma in_name nm : In nm ["sp"; "tri"; "pairs"; "words"] -> file_name ("in/" ++ nm) nm.
Proof. intros H. split; [|right; exists "in"; reflexivity]. repeat (destruct H as [<-|H]; [no_char|]). destruct H. Qed.
(** the outputs are below "out", the inputs below "in" *)
Lemma apart a q files : (exists b, q = ("o" ++ b)%string) -> forallb (fun f => negb (String.eqb (match f with String c _ => String c "" | _ => "" end) "o")) files = true -> In q files -> a = false.
Proof.
  intros (b & ->) H Hi. exfalso. rewrite forallb_forall in H. specialize (H _ Hi). cbn in H. discriminate.
Qed.
Lemma apart_in q files : (exists b, q = ("o" ++ b)%string) -> forallb (fun f => negb (String.eqb (match f with String c _ => String c "" | _ => "" end) "o")) files = true -> ~ In q files.
Proof. intros A B C. pose proof (apart true q files A B C). discriminate. Qed.
Lemma saved_apart out q : saved_target ("o" ++ out) q -> exists b, q = ("o" ++ b)%string.
Proof. unfold saved_target, export_target. intros H. repeat destruct H as [H|H]; rewrite H; eexists; reflexivity. Qed.
(** killed after 20 effects, and after all of them *)
Example C71_peripheral_example : forall n, exists fs', build_per_space tools_fs "in/sp" "pkl" "out" (Some "dm") "in/a.pkl" false = Ok fs' /\
  build_per_space (disk_at tools_fs (t_build_per_space tools_fs "in/sp" "pkl" "out" (Some "dm") "in/a.pkl" false) n) "in/sp" "pkl" "out" (Some "dm") "in/a.pkl" false = Ok fs'.
Proof.
  intros n. destruct (done_ok (build_per_space tools_fs "in/sp" "pkl" "out" (Some "dm") "in/a.pkl" false)) as (fs' & R); [vm_compute; reflexivity|]. exists fs'. split; [exact R|].
  refine (C71_peripheral tools_fs "in/sp" "sp" "pkl" "out" (Some "dm") "in/a.pkl" "a" false fs' _ (in_name "sp" ltac:(cbn; tauto)) _ tools_sane _ _ _ R _).
  - apply (stem_ext _ "a" "pkl"); [split; [no_char|right; exists "in"; reflexivity]|no_char].
  - intros q Hq. apply apart_in; [|reflexivity]. exact (saved_apart _ _ Hq).
  - intros (z & Hz). cbn in Hz. discriminate.
  - intros (z & Hz). cbn in Hz. discriminate.
  - eapply in_again; [constructor|]. exists n. reflexivity.
Qed.
Example C71_apply_example : forall n, exists fs', apply_model tools_fs "in/tri" "out" (Some "weighted_add") None ["in/sp.pkl"] (Some (fofZ 1)) (Some (fofZ 1)) None (Some "dm") = Ok fs' /\
  apply_model (disk_at tools_fs (t_apply_model tools_fs "in/tri" "out" (Some "weighted_add") None ["in/sp.pkl"] (Some (fofZ 1)) (Some (fofZ 1)) None (Some "dm")) n)
    "in/tri" "out" (Some "weighted_add") None ["in/sp.pkl"] (Some (fofZ 1)) (Some (fofZ 1)) None (Some "dm") = Ok fs'.
Proof.
  intros n. destruct (done_ok (apply_model tools_fs "in/tri" "out" (Some "weighted_add") None ["in/sp.pkl"] (Some (fofZ 1)) (Some (fofZ 1)) None (Some "dm"))) as (fs' & R); [vm_compute; reflexivity|]. exists fs'. split; [exact R|].
  refine (C71_apply tools_fs "in/tri" "tri" "out" (Some "weighted_add") None ["in/sp.pkl"] _ _ None (Some "dm") fs' _ (in_name "tri" ltac:(cbn; tauto)) tools_sane _ R _).
  - intros o c q _ Hq. destruct (saved_apart _ _ Hq) as (b & ->). split; [apply apart_in; [exists b; reflexivity|reflexivity]|discriminate].
  - eapply in_again; [constructor|]. exists n. reflexivity.
Qed.
Lemma sp_described : described ["in/sp.pkl"] "sp".
Proof. apply ds_one; [discriminate|]. apply (stem_ext _ "sp" "pkl"); [split; [no_char|right; exists "in"; reflexivity]|no_char]. Qed.
Example C71_similarities_example : forall n, exists fs', compute_sim tools_fs "in/pairs" ["1"; "2"] "out" ["dot_prod"; "none such"] ["in/sp.pkl"] = Ok fs' /\
  compute_sim (disk_at tools_fs (t_compute_sim tools_fs "in/pairs" ["1"; "2"] "out" ["dot_prod"; "none such"] ["in/sp.pkl"]) n) "in/pairs" ["1"; "2"] "out" ["dot_prod"; "none such"] ["in/sp.pkl"] = Ok fs'.
Proof.
  intros n. destruct (done_ok (compute_sim tools_fs "in/pairs" ["1"; "2"] "out" ["dot_prod"; "none such"] ["in/sp.pkl"])) as (fs' & R); [vm_compute; reflexivity|]. exists fs'. split; [exact R|].
  refine (C71_similarities tools_fs "in/pairs" "pairs" ["1"; "2"] "out" ["dot_prod"; "none such"] ["in/sp.pkl"] "sp" fs' _ (in_name "pairs" ltac:(cbn; tauto)) sp_described tools_sane _ R _).
  - intros m sim _. apply apart_in; [eexists; reflexivity|reflexivity].
  - eapply in_again; [constructor|]. exists n. reflexivity.
Qed.
Example C71_neighbours_example : forall n, exists fs', compute_neighbours tools_fs "in/words" 2 "out" "dot_prod" ["in/sp.pkl"] = Ok fs' /\
  compute_neighbours (disk_at tools_fs (t_compute_neighbours tools_fs "in/words" 2 "out" "dot_prod" ["in/sp.pkl"]) n) "in/words" 2 "out" "dot_prod" ["in/sp.pkl"] = Ok fs'.
Proof.
  intros n. destruct (done_ok (compute_neighbours tools_fs "in/words" 2 "out" "dot_prod" ["in/sp.pkl"])) as (fs' & R); [vm_compute; reflexivity|]. exists fs'. split; [exact R|].
  refine (C71_neighbours tools_fs "in/words" "words" 2 "out" "dot_prod" ["in/sp.pkl"] "sp" fs' _ (in_name "words" ltac:(cbn; tauto)) sp_described tools_sane _ R _).
  - apply apart_in; [eexists; reflexivity|reflexivity].
  - eapply in_again; [constructor|]. exists n. reflexivity.
Qed.
Example C71_train_example : forall n, exists fs', train_model tools_fs "in/tri" "out" "dilation" ["in/sp.pkl"] "in/sp.pkl" None false true None None true = Ok fs' /\
  train_model (disk_at tools_fs (t_train_model tools_fs "in/tri" "out" "dilation" ["in/sp.pkl"] "in/sp.pkl" None false true None None true) n) "in/tri" "out" "dilation" ["in/sp.pkl"] "in/sp.pkl" None false true None None true = Ok fs'.
Proof.
  intros n. destruct (done_ok (train_model tools_fs "in/tri" "out" "dilation" ["in/sp.pkl"] "in/sp.pkl" None false true None None true)) as (fs' & R); [vm_compute; reflexivity|]. exists fs'. split; [exact R|].
  refine (C71_train tools_fs "in/tri" "tri" "out" "dilation" ["in/sp.pkl"] "in/sp.pkl" None false true None None true fs' _ (in_name "tri" ltac:(cbn; tauto)) tools_sane _ R _).
  - intros q Hq. apply apart_in; [|reflexivity]. unfold export_target in Hq. repeat destruct Hq as [Hq|Hq]; rewrite Hq; eexists; reflexivity.
  - eapply in_again; [constructor|]. exists n. reflexivity.
Qed.
End Ex.
