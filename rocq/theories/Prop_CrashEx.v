(** Prop_CrashEx.v -- C70: concrete runs over the rationals that raise or are killed. *)
From Coq Require Import Ascii.
From Verif Require Import Base PyList Dict Num Dense Sparse Matrix Scaling Linalg Operation Similarity Space Peripheral SpecSpace Learner Composition Utils LexFun Str PStr IO SpecIO PIO Prop_IO PExport Prop_Export Pipe SpecPipe SpecPipe2 PFiles PPipe PPipe2 PSave SpecCore PCore Prop_Core SpecPipe3 PPipe3 Prop_Sims Prop_Batch Prop_TrainPipe Qio Pio Prop_PipeEx Crash SpecCrash PCrash PCrash5 Prop_Crash Prop_Crash2.
Local Open Scope string_scope.
Local Open Scope list_scope.
Local Open Scope nat_scope.
#[local] Existing Instance QNum.
Section Ex.
Context {E : Ext}.
#[local] Instance Kio : PickleIO := {| dump_bytes := fun _ => "PICKLE" |}.
Ltac no_char := cbn; intros K; repeat (destruct K as [K|K]; [discriminate|]); exact K.
(** the space of C47_example, an input whose second line lacks a column, and the output of an earlier run *)
Definition crash_fs : fsys := FS (fun q =>
  if String.eqb q "in/sp.pkl" then Some (Pickle (OSpace exp_sp))
  else if String.eqb q "in/pairs" then Some (Text ("car dog" ++ nl ++ "car" ++ nl ++ "pen dog" ++ nl)%string)
  else if String.eqb q "out/SIMS.pairs.sp.dot_prod" then Some (Text ("a good result" ++ nl)%string) else None) (fun q => String.eqb q "in" || String.eqb q "out")%bool.
Definition sims_run : tr fsys := t_compute_sim crash_fs "in/pairs" ["1"; "2"] "out" ["dot_prod"] ["in/sp.pkl"].
(** compute_similarities raises, and the output of the earlier run is gone: its file holds the first line of the new result *)
Example C70_result_lost_refuted : exists st e, stopped crash_fs sims_run st /\ snd sims_run = Err e /\ (forall fs', compute_sim crash_fs "in/pairs" ["1"; "2"] "out" ["dot_prod"] ["in/sp.pkl"] <> Ok fs') /\
  text_at crash_fs "out/SIMS.pairs.sp.dot_prod" ("a good result" ++ nl) /\ text_at st "out/SIMS.pairs.sp.dot_prod" ("car dog 0.0" ++ nl).
Proof.
  exists (disk_at crash_fs sims_run 1000), IndexError. split; [exists 1000; reflexivity|]. split; [vm_compute; reflexivity|]. split; [|split; [reflexivity|vm_compute; reflexivity]].
  intros fs' H. assert (K : is_ok (compute_sim crash_fs "in/pairs" ["1"; "2"] "out" ["dot_prod"] ["in/sp.pkl"]) = false) by (vm_compute; reflexivity). rewrite H in K. discriminate.
Qed.
(** the theorem applies to it *)
Example C70_similarities_example : exists st, stopped crash_fs sims_run st /\ fs_file st "out/SIMS.pairs.sp.dot_prod" <> fs_file crash_fs "out/SIMS.pairs.sp.dot_prod" /\
  leaves (sims_piece crash_fs "in/pairs" "pairs" ["1"; "2"] "out" ["dot_prod"] ["in/sp.pkl"] "sp") (sims_dir "pairs" "out" ["dot_prod"] "sp") crash_fs st.
Proof.
  exists (disk_at crash_fs sims_run 5). split; [exists 5; reflexivity|]. split; [vm_compute; discriminate|]. apply C70_similarities; [| |exists 5; reflexivity].
  - split; [no_char|right; exists "in"; reflexivity].
  - apply ds_one; [discriminate|]. apply (stem_ext _ "sp" "pkl"); [split; [no_char|right; exists "in"; reflexivity]|no_char].
Qed.
(** build_core_space, killed while it writes the matrix: the export looks like that of a smaller space *)
Definition export_run : tr fsys := t_build_spaces core_fs "in/sp" "pkl" "out" (Some "dm") [None] [None] [None] [None] false.
Example C70_partial_export_refuted : exists n t, stopped core_fs export_run (disk_at core_fs export_run n) /\ text_at (disk_at core_fs export_run n) "out/CORE_SS.sp.dm" t /\
  space_at (disk_at core_fs export_run n) "out/CORE_SS.sp.pkl" exp_sp /\ exists s, build (disk_at core_fs export_run n) (Some "out/CORE_SS.sp.dm") (Some "dm") None None = Ok s /\ s_id2row s <> s_id2row exp_sp.
Proof.
  exists 22, ("car	0.0	4.0" ++ nl)%string. split; [exists 22; reflexivity|]. split; [vm_compute; reflexivity|]. split; [vm_compute; reflexivity|].
  assert (K : match build (disk_at core_fs export_run 22) (Some "out/CORE_SS.sp.dm") (Some "dm") None None with Ok s => s_id2row s | Err _ => [] end = ["car"]) by (vm_compute; reflexivity).
  destruct (build _ _ _ _ _) as [s|e]; [|discriminate]. exists s. split; [reflexivity|]. rewrite K. vm_compute. discriminate.
Qed.
End Ex.
