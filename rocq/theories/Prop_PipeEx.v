(** Prop_PipeEx.v -- concrete cases of C61, C63, C65 and of the batch mode of C57, over the rationals: the hypotheses of the theorems are met. *)
From Coq Require Import Ascii.
From Verif Require Import Base PyList Dict Num Dense Sparse Matrix Scaling Linalg Operation Similarity Space Peripheral SpecSpace Learner Composition Utils LexFun Str PStr IO SpecIO PIO Prop_IO PExport Prop_Export Pipe SpecPipe SpecPipe2 PFiles PPipe PPipe2 PSave SpecCore PCore Prop_Core SpecPipe3 PPipe3 Prop_Sims Prop_Batch Qio Pio.
Local Open Scope string_scope.
Local Open Scope list_scope.
Local Open Scope nat_scope.
#[local] Existing Instance QNum.
Section Ex.
Context {E : Ext}.
Ltac no_char := cbn; intros K; repeat (destruct K as [K|K]; [discriminate|]); exact K.
(** a core space (weighted columns kept), raw data, pairs of words and triples *)
Definition pipe_fs : fsys := FS (fun q =>
  if String.eqb q "cores/a.pkl" then match space_apply exp_sp (TFS CSum 1) with Ok s => Some (Pickle (OSpace s)) | Err _ => None end
  else if String.eqb q "in/sp.pkl" then Some (Pickle (OSpace exp_sp))
  else if String.eqb q "in/tri" then Some (Text ("car dog a" ++ nl ++ "pen dog b" ++ nl)%string)
  else if String.eqb q "in/pairs" then Some (Text ("car dog 4.0" ++ nl ++ nl ++ "pen dog 2" ++ nl)%string)
  else if String.eqb q "in/short" then Some (Text "car dog") else None) (fun q => String.eqb q "cores" || String.eqb q "cores/")%bool.
Definition out_of (r : res fsys) (p : string) : option content := match r with Ok fs => fs_file fs p | Err _ => None end.
Lemma out_of_some r p c : out_of r p = Some c -> exists fs', r = Ok fs' /\ fs_file fs' p = Some c.
Proof. destruct r as [fs'|]; [exists fs'; auto|discriminate]. Qed.
Lemma fn_in nm : In nm ["sp"; "tri"; "pairs"] -> file_name ("in/" ++ nm) nm.
Proof. intros H. split; [|right; exists "in"; reflexivity]. repeat (destruct H as [<-|H]; [no_char|]). destruct H. Qed.
Lemma core_stem : stem_of "cores/a.pkl" "a".
Proof. apply (stem_ext _ "a" "pkl"); [split; [no_char|right; exists "cores"; reflexivity]|no_char]. Qed.
Definition per_run : res fsys := build_per_space pipe_fs "in/sp" "pkl" "out" (Some "dm") "cores/a.pkl" false.
(** the core space keeps the column with the largest sum, so the peripheral space of the same rows has that column only *)
Example C61_example : exists fs', per_run = Ok fs' /\ text_at fs' "out/PER_SS.sp.a.dm" ("car	0.0" ++ nl ++ "pen	0.0" ++ nl ++ "dog	7.0" ++ nl)%string /\
  exists raw core s, input_space pipe_fs "in/sp" false "pkl" raw /\ space_at pipe_fs "cores/a.pkl" core /\ peripheral_of core raw s /\ space_at fs' "out/PER_SS.sp.a.pkl" s.
Proof.
  destruct (out_of_some per_run "out/PER_SS.sp.a.dm" (Text ("car	0.0" ++ nl ++ "pen	0.0" ++ nl ++ "dog	7.0" ++ nl)%string)) as (fs' & R & T); [vm_compute; reflexivity|].
  exists fs'. split; [exact R|]. split; [exact T|]. unfold per_run in R.
  destruct (C61_built pipe_fs "in/sp" "sp" "pkl" "out" (Some "dm") "cores/a.pkl" "a" false fs' (fn_in "sp" (or_introl eq_refl)) core_stem R) as (raw & core & s & K1 & K2 & K3 & K4 & _). exists raw, core, s. auto.
Qed.
Definition per_batch_run : res fsys := build_per_batch pipe_fs "in/sp" "pkl" "out" (Some "dm") "cores" "a" false.
Lemma cores_dir : dir_slash "cores" "cores/".
Proof. right. split; [|reflexivity]. intros e H. apply (f_equal chars) in H. rewrite chars_app in H. change (chars "cores") with (["c";"o";"r";"e"] ++ ["s"])%char in H. change (chars "/") with (["/"%char]) in H. apply app_inj_tail in H. destruct H; discriminate. Qed.
Lemma listed_plain f : In f (listdir pipe_fs "cores/") -> ~ In "/"%char (chars f).
Proof. intros [<-|[<-|[]]]; no_char. Qed.
Example C61_batch_example : exists fs', per_batch_run = Ok fs' /\ chosen pipe_fs "cores/" "a" "a.pkl" /\ exists s, space_at fs' "out/PER_SS.sp.a.pkl" s.
Proof.
  destruct (out_of_some per_batch_run "out/PER_SS.sp.a.dm" (Text ("car	0.0" ++ nl ++ "pen	0.0" ++ nl ++ "dog	7.0" ++ nl)%string)) as (fs' & R & T); [vm_compute; reflexivity|].
  assert (C : chosen pipe_fs "cores/" "a" "a.pkl") by (split; [left; reflexivity|exists "", ".pkl", "a"; auto]).
  exists fs'. split; [exact R|]. split; [exact C|]. unfold per_batch_run in R.
  destruct (C61_batch pipe_fs "in/sp" "sp" "pkl" "out" (Some "dm") "cores" "cores/" "a" false fs' (fn_in "sp" (or_introl eq_refl)) cores_dir listed_plain) as (raw & _ & K & _); [|exact R|].
  - intros x f _ _ H. discriminate.
  - destruct (K "a" C) as (core & s & _ & _ & K1 & _). exists s. exact K1.
Qed.
Definition comp_run : res fsys := apply_model pipe_fs "in/tri" "out" (Some "weighted_add") None ["in/sp.pkl"] (Some (fofZ 1)) (Some (fofZ 1)) None (Some "dm").
Example C63_example : exists fs', comp_run = Ok fs' /\ text_at fs' "out/COMPOSED_SS.WeightedAdditive.tri.dm" ("a	7.0	4.0" ++ nl ++ "b	7.0	0.0" ++ nl)%string /\
  exists o c s, model_used pipe_fs (Some (fofZ 1)) (Some (fofZ 1)) None (Some "weighted_add") None o /\ class_of o c /\ composed_as o [("car", "dog", "a"); ("pen", "dog", "b")] exp_sp None s /\ space_at fs' (composed_file "out" c "tri" ++ ".pkl") s.
Proof.
  destruct (out_of_some comp_run "out/COMPOSED_SS.WeightedAdditive.tri.dm" (Text ("a	7.0	4.0" ++ nl ++ "b	7.0	0.0" ++ nl)%string)) as (fs' & R & T); [vm_compute; reflexivity|].
  exists fs'. split; [exact R|]. split; [exact T|]. unfold comp_run in R.
  destruct (C63_composed pipe_fs "in/tri" "tri" "out" (Some "weighted_add") None ["in/sp.pkl"] (Some (fofZ 1)) (Some (fofZ 1)) None (Some "dm") fs' exp_sp None ("car dog a" ++ nl ++ "pen dog b" ++ nl)%string) as (o & c & s & K1 & K2 & K3 & K4 & _).
  - exact (fn_in "tri" (or_intror (or_introl eq_refl))).
  - apply sp_one; [discriminate|reflexivity].
  - reflexivity.
  - repeat constructor.
  - exact R.
  - exists o, c, s. auto.
Qed.
Example C63_short_example : ~ three_fields "car dog" /\ forall fs', apply_model pipe_fs "in/short" "out" (Some "mult") None ["in/sp.pkl"] None None None None <> Ok fs'.
Proof.
  assert (K : ~ three_fields "car dog") by (intros H; inversion H as [|r l H1 _]; cbn in H1; lia).
  split; [exact K|]. exact (C63_short_line pipe_fs "in/short" "out" (Some "mult") None ["in/sp.pkl"] None None None None "car dog" eq_refl K).
Qed.
Definition batch_run : res fsys := compute_sim_batch pipe_fs "in/pairs" ["1"; "2"] "out" ["dot_prod"; "cosine"] "cores".
Example C57_batch_example : exists fs' s, batch_run = Ok fs' /\ space_at pipe_fs "cores/a.pkl" s /\ exists out, text_at fs' "out/SIMS.pairs.a.dot_prod" out /\
  sim_lines s None Dot 1 2 ("car dog 4.0" ++ nl ++ nl ++ "pen dog 2" ++ nl)%string out.
Proof.
  destruct (out_of_some batch_run "out/SIMS.pairs.a.dot_prod" (Text ("car dog 4.0 0.0" ++ nl ++ "pen dog 2 0.0" ++ nl)%string)) as (fs' & R & T); [vm_compute; reflexivity|].
  assert (S : exists s, fs_file pipe_fs "cores/a.pkl" = Some (Pickle (OSpace s))).
  { assert (C : match space_apply exp_sp (TFS CSum 1) with Ok _ => true | Err _ => false end = true) by (vm_compute; reflexivity). change (fs_file pipe_fs "cores/a.pkl") with (match space_apply exp_sp (TFS CSum 1) with Ok s => Some (Pickle (OSpace s)) | Err _ => None end).
    destruct (space_apply exp_sp (TFS CSum 1)) as [s|]; [exists s; reflexivity|discriminate]. }
  destruct S as (s & S). exists fs', s. split; [exact R|]. split; [exact S|]. unfold batch_run in R.
  destruct (C57_batch pipe_fs "in/pairs" "pairs" "1" "2" 1 2 "out" ["dot_prod"; "cosine"] "cores" "cores/" ("car dog 4.0" ++ nl ++ nl ++ "pen dog 2" ++ nl)%string fs') as (K & _).
  - apply fn_in. do 2 right. left. reflexivity.
  - exact cores_dir.
  - exact listed_plain.
  - reflexivity.
  - reflexivity.
  - reflexivity.
  - exact R.
  - destruct (K "a" s "dot_prod" Dot) as (out & O1 & O2); [left; reflexivity|exact S|left; reflexivity|constructor|]. exists out. auto.
Qed.
Example C65_example : evaluate_sim pipe_fs "in/pairs" ["3"; "3"] ["pearson"] = Ok ("CORRELATION:pearson" ++ nl ++ "	1.000000" ++ nl)%string /\
  column_numbers 3 ("car dog 4.0" ++ nl ++ nl ++ "pen dog 2" ++ nl)%string [fofZ 4; fofZ 2] /\ forall out, evaluate_sim pipe_fs "in/pairs" ["1"; "3"] ["pearson"] <> Ok out.
Proof.
  split; [vm_compute; reflexivity|]. split.
  - constructor; [exists "4.0"; split; [exists 2; split; [reflexivity|left; reflexivity]|reflexivity]|]. constructor; [exists "2"; split; [exists 2; split; [reflexivity|left; reflexivity]|reflexivity]|]. constructor.
  - intros out H. assert (I1 : iparse "1" = Some 1%Z) by reflexivity. assert (I3 : iparse "3" = Some 3%Z) by reflexivity. apply (proj1 (C65_evaluate pipe_fs "in/pairs" "1" "3" 1 3 ["pearson"] _ out I1 I3 eq_refl)) in H. destruct H as (gold & prediction & H & _). inversion H as [|? ? ? ? (w & (p & Hp & Hc) & Hw) _].
    assert (p = 0) as -> by lia. cbn in Hp. injection Hp as <-. discriminate.
Qed.
End Ex.
