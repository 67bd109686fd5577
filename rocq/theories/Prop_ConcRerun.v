(** Prop_ConcRerun.v -- C108: tools that run at the same time are killed and started again. *)
From Coq Require Import Ascii FunctionalExtensionality Permutation.
From Verif Require Import Base PyList Dict Num Dense Sparse Matrix Scaling Linalg Operation Similarity Space Peripheral SpecSpace Learner Composition Utils LexFun Str PStr IO SpecIO PIO Prop_IO PExport Prop_Export Pipe SpecPipe SpecPipe2 PFiles PPipe PPipe2 PSave SpecPipe3 PPipe3 SpecCore PCore Prop_Core Prop_Sims Prop_Batch Prop_TrainPipe Crash SpecCrash PCrash PCrash2 PCrash3 PCrash4 PCrash5 Prop_Crash Prop_Rerun SpecDir Conc PConc PConc2 SpecConc Prop_Conc.
Local Open Scope string_scope.
Local Open Scope list_scope.
Local Open Scope nat_scope.

Section Rounds.
Context {N : Num} {E : Ext} {FI : FloatIO} {PI : PipeIO} {KI : PickleIO}.
(** ** specification *)
(** the jobs [js] are run in rounds, the first of them on the disk [fs].  A round starts some of the jobs, [l], each once, and not the others, [rest]; it lets them run at
    the same time by some schedule, and breaks off at some moment: whatever has not ended by then is killed.  [rounds js fs fin st]: [st] is the disk after some rounds, and
    [fin] holds of the jobs that ended in the last round in which they took part *)
Inductive rounds (js : list job) (fs : fsys) : (job -> Prop) -> fsys -> Prop :=
| no_round : rounds js fs (fun _ => False) fs
| one_round : forall fin st l rest sched, rounds js fs fin st -> Permutation js (l ++ rest) ->
    rounds js fs (fun j => (exists i r, nth_error l i = Some j /\ ended_with (together l sched st) i r) \/ (In j rest /\ fin j)) (snd (together l sched st)).
(** no job reads what it writes *)
Definition tidy (j : job) : Prop := forall q, writes j q -> ~ reads j q.

(** ** what a run writes, it writes from the beginning *)
Definition yes {A} : A -> Prop := fun _ => True.
Lemma w_any {A} R D (t : tr A) : runs R D t -> runs yes yes t.
Proof. apply runs_weaken; intros; exact Logic.I. Qed.
Ltac wpures := repeat (lazymatch goal with |- runs _ _ (tbind (lift _) _) => apply runs_pure; intros ? ? end).
Lemma w_parents fs p : runs yes yes (t_parents fs p).
Proof. eapply w_any, (runs_parents yes). Qed.
Lemma w_save_export fs s out fmt : runs yes yes (t_save_export fs s out fmt).
Proof. eapply w_any. exact (proj1 (proj2 (good_save_export no no s out fmt (off_no out))) fs). Qed.
Lemma w_combinations fs s out_dir descr fmt ws xs rs ns : runs yes yes (t_combinations fs s out_dir descr fmt ws xs rs ns).
Proof. eapply w_any. refine (proj1 (proj2 (good_combinations no no s out_dir descr fmt ws xs rs ns _)) fs). intros; apply off_no. Qed.
Lemma w_build_spaces fs a b c d ws xs rs ns gz : runs yes yes (t_build_spaces fs a b c d ws xs rs ns gz).
Proof. apply runs_pure. intros s _. apply w_combinations. Qed.
Lemma w_transform fs raw a b c d : runs yes yes (t_transform_raw fs raw a b c d).
Proof. unfold t_transform_raw. wpures. apply w_save_export. Qed.
Lemma w_per_space fs a b c d e f : runs yes yes (t_build_per_space fs a b c d e f).
Proof. unfold t_build_per_space. wpures. apply w_transform. Qed.
Lemma w_per_batch fs a b c d e f g : runs yes yes (t_build_per_batch fs a b c d e f g).
Proof. unfold t_build_per_batch. wpures. cbv zeta. apply runs_fold. intros xx yy _. destruct (_ && _)%bool; [apply w_transform|apply runs_lift]. Qed.
Lemma w_export_model fs o p : runs yes yes (t_export_model fs o p).
Proof. eapply w_any. apply runs_export_model. Qed.
Lemma w_save fs o p : runs yes yes (t_save fs o p).
Proof. eapply w_any. apply (runs_save yes). exact Logic.I. Qed.
Lemma w_train_model fs a b c d e f g h i j k : runs yes yes (t_train_model fs a b c d e f g h i j k).
Proof. unfold t_train_model. wpures. cbv zeta. apply runs_bind; [apply w_save|]. intros xx _. destruct k; [apply w_export_model|apply runs_lift]. Qed.
Lemma w_apply_model fs a b c d e f g h i : runs yes yes (t_apply_model fs a b c d e f g h i).
Proof. unfold t_apply_model. wpures. apply w_save_export. Qed.
Lemma w_sim_measure i o d s s2 c0 c1 fs m : runs yes yes (t_sim_measure i o d s s2 c0 c1 fs m).
Proof. unfold t_sim_measure. destruct (measure m); [|apply runs_lift]. cbv zeta. apply runs_bind; [apply w_parents|]. intros xx _. wpures. apply runs_write. exact Logic.I. Qed.
Lemma w_compute_sim fs i cs o ms fls : runs yes yes (t_compute_sim fs i cs o ms fls).
Proof.
  unfold t_compute_sim. destruct cs as [|c0 [|c1 [|]]]; try apply runs_lift. wpures. destruct (load_space fs _) as [s|[]]; try apply runs_lift. wpures. apply runs_fold. intros; apply w_sim_measure.
Qed.
Lemma w_sim_batch fs i cs o ms d : runs yes yes (t_compute_sim_batch fs i cs o ms d).
Proof. unfold t_compute_sim_batch. wpures. cbv zeta. apply runs_fold. intros xx yy _. destruct (ends_with yy ".pkl"); [apply w_compute_sim|apply runs_lift]. Qed.
Lemma w_compute_neighbours fs i k o m fls : runs yes yes (t_compute_neighbours fs i k o m fls).
Proof. unfold t_compute_neighbours. destruct (measure m); [|apply runs_lift]. wpures. cbv zeta. apply runs_bind; [apply w_parents|]. intros yy _. wpures. apply runs_write. exact Logic.I. Qed.
Lemma w_core j fs : unlogged j -> runs yes yes (solo j fs).
Proof.
  intros U. destruct j; [apply w_build_spaces|apply w_per_space|apply w_train_model|apply w_apply_model|apply w_compute_sim|apply w_compute_neighbours|apply w_per_batch|apply w_sim_batch|destruct U].
Qed.
Definition hit (l : list event) (q : string) : bool := existsb (fun e => touches e q) l.
(** such effects leave the same file whatever was there *)
Lemma whole_file {A} (t : tr A) q a b : runs yes yes t -> hit (fst t) q = true -> fs_file (replay a (fst t)) q = fs_file (replay b (fst t)) q.
Proof.
  intros (W & Hn & _ & _) Hh. rewrite (file_nf (fst t) a a eq_refl), (file_nf (fst t) b b eq_refl), Hn, !jobs_all, !fold_latest.
  destruct (latest q W) eqn:El; [reflexivity|]. exfalso.
  assert (Hit : hit (flat_map PCrash.job W) q = true).
  { rewrite <- Hn. unfold hit in *. apply existsb_exists in Hh. destruct Hh as (e & He & Ht). apply existsb_exists. exists e. split; [|exact Ht]. unfold nf. apply filter_In. split; [exact He|]. destruct e; [discriminate Ht|reflexivity..]. }
  assert (J : forall w, hit (PCrash.job w) q = true -> q = fst w).
  { intros [p c] Hj. unfold hit in Hj. apply existsb_exists in Hj. destruct Hj as (e & He & Ht). unfold PCrash.job in He. cbn [fst snd] in *.
    assert (Pt : forall s, In e (puts p s) -> q = p). { intros s Hs. unfold puts in Hs. apply in_map_iff in Hs. destruct Hs as (c0 & <- & _). apply String.eqb_eq in Ht. exact Ht. }
    destruct He as [<-|He]; [apply String.eqb_eq in Ht; exact Ht|]. destruct c as [s|o]; [exact (Pt _ He)|]. apply in_app_iff in He. destruct He as [He|[<-|[]]]; [exact (Pt _ He)|]. apply String.eqb_eq in Ht. exact Ht. }
  clear Hn Hh. unfold hit in Hit. apply existsb_exists in Hit. destruct Hit as (e & He & Ht). apply in_flat_map in He. destruct He as ([p c] & Hw & He).
  assert (q = p) by (apply (J (p, c)); unfold hit; apply existsb_exists; exists e; auto). subst p. exact (latest_in q W c Hw El).
Qed.

(** ** a job, without and with its log files *)
Fixpoint core_of (j : job) : job := match j with JLog _ j => core_of j | _ => j end.
Fixpoint logs (j : job) : list string := match j with JLog l j => l :: logs j | _ => [] end.
Fixpoint log_events (j : job) (fs : fsys) : list event :=
  match j with JLog l j => let e := match fs_file fs l with Some _ => [] | None => [Eopen l] end in e ++ log_events j (replay fs e) | _ => [] end.
Lemma core_unlogged j : unlogged (core_of j).
Proof. induction j; cbn; auto. Qed.
Lemma core_reads j q : reads (core_of j) q <-> reads j q.
Proof. induction j; cbn; try tauto. Qed.
Lemma core_writes j q : writes (core_of j) q -> writes j q.
Proof. induction j; cbn; auto. Qed.
Lemma log_writes j q : In q (logs j) -> writes j q.
Proof. induction j as [| | | | | | | |l j IH]; cbn; try tauto. intros [->|H]; auto. Qed.
Lemma ready_core fs j : ready fs j -> ready fs (core_of j).
Proof. intros (L & D). split; [clear D; induction j; cbn in *; auto|]. intros q Hq. apply D, core_writes, Hq. Qed.
Lemma log_event_files j : forall fs q, fs_file (replay fs (log_events j fs)) q = if existsb (String.eqb q) (logs j) then match fs_file fs q with Some c => Some c | None => Some (Text "") end else fs_file fs q.
Proof.
  induction j as [| | | | | | | |l j IH]; intros fs q; try reflexivity. cbn [log_events logs existsb]. cbv zeta. rewrite replay_app, IH.
  destruct (fs_file fs l) as [c|] eqn:El; cbn [replay fold_left effect fs_file]; destruct (String.eqb_spec q l) as [->|Hq]; cbn [orb].
  - rewrite El. destruct (existsb _ _); reflexivity.
  - reflexivity.
  - rewrite El. destruct (existsb _ _); reflexivity.
  - reflexivity.
Qed.
Lemma log_event_dirs j : forall fs, fs_dir (replay fs (log_events j fs)) = fs_dir fs.
Proof.
  induction j as [| | | | | | | |l j IH]; intros fs; try reflexivity. cbn [log_events]. cbv zeta. rewrite replay_app, IH. destruct (fs_file fs l); reflexivity.
Qed.
Lemma log_prefix j n : forall fs q, fs_file (replay fs (firstn n (log_events j fs))) q = fs_file fs q \/
  (In q (logs j) /\ fs_file fs q = None /\ fs_file (replay fs (firstn n (log_events j fs))) q = Some (Text "")).
Proof.
  revert n. induction j as [| | | | | | | |l j IH]; intros n fs q; try (left; cbn [log_events]; rewrite firstn_nil; reflexivity).
  cbn [log_events logs]. cbv zeta. destruct (fs_file fs l) as [c|] eqn:El.
  - cbn [app]. change (replay fs []) with fs. destruct (IH n fs q) as [H|(H1 & H2)]; [left; exact H|right]. split; [right; exact H1|exact H2].
  - cbn [app]. destruct n as [|n]; [left; reflexivity|]. cbn [firstn]. change (replay fs (Eopen l :: ?x)) with (replay (replay fs [Eopen l]) x).
    destruct (IH n (replay fs [Eopen l]) q) as [H|(H1 & H2 & H3)].
    + rewrite H. cbn [replay fold_left effect fs_file]. destruct (String.eqb_spec q l) as [->|Hq]; [|left; reflexivity]. right. split; [left; reflexivity|]. split; [exact El|reflexivity].
    + right. cbn [replay fold_left effect fs_file] in H2. destruct (String.eqb_spec q l) as [->|Hq]; [discriminate|]. split; [right; exact H1|]. split; [exact H2|exact H3].
Qed.
(** opening the log *)
Lemma alone_log l fs : has_dir (fs_dir fs) l -> alone (p_log l) fs = match fs_file fs l with Some _ => ([], Ok tt) | None => match write_file fs l (Text "") with Ok _ => ([Eopen l], Ok tt) | Err e => ([], Err e) end end.
Proof.
  intros (H1 & H2). assert (X : exists_ fs (dirname l) = true) by (unfold exists_; rewrite H2; destruct (String.eqb_spec (dirname l) ""); [contradiction|reflexivity]).
  unfold p_log, p_parents, p_exists, look, act. cbv zeta. cbn [pbind alone]. rewrite X. cbn [pbind alone]. destruct (fs_file fs l); [reflexivity|]. cbn [bind]. destruct (write_file fs l (Text "")); reflexivity.
Qed.
(** the run of a job is the opening of its logs and the run of its core *)
Lemma alone_split j : forall fs, ready fs j -> (forall l, In l (logs j) -> fs_file fs l = None -> exists x, write_file fs l (Text "") = Ok x) ->
  alone (program j) fs = (log_events j fs ++ fst (alone (program (core_of j)) (replay fs (log_events j fs))), snd (alone (program (core_of j)) (replay fs (log_events j fs)))).
Proof.
  induction j as [| | | | | | | |l j IH]; intros fs R W; try (cbn [log_events core_of app]; change (replay fs []) with fs; apply surjective_pairing).
  destruct R as (L & D). cbn [program log_events core_of]. cbv zeta. set (e := match fs_file fs l with Some _ => [] | None => [Eopen l] end).
  assert (A : alone (p_log l) fs = (e, Ok tt)).
  { rewrite (alone_log l fs (D l (or_introl eq_refl))). unfold e. destruct (fs_file fs l) eqn:El; [reflexivity|]. destruct (W l (or_introl eq_refl) El) as (x & ->). reflexivity. }
  assert (De : fs_dir (replay fs e) = fs_dir fs) by (unfold e; destruct (fs_file fs l); reflexivity).
  rewrite alone_bind, A. cbn [fst snd]. rewrite (IH (replay fs e)).
  - cbn [fst snd]. rewrite replay_app, app_assoc. reflexivity.
  - split; [exact L|]. intros q Hq. rewrite De. apply D. right. exact Hq.
  - intros l' Hl' Hn. assert (Hn' : fs_file fs l' = None).
    { unfold e in Hn. destruct (fs_file fs l) eqn:El; [exact Hn|]. cbn [replay fold_left effect fs_file] in Hn. destruct (String.eqb_spec l' l) as [->|]; [discriminate|exact Hn]. }
    destruct (W l' (or_intror Hl') Hn') as (x & Hx). unfold write_file in Hx |- *. rewrite De. destruct (_ || _)%bool; [discriminate|eexists; reflexivity].
Qed.
Lemma logs_open j : forall fs fs', ready fs j -> tool j fs = Ok fs' -> forall l, In l (logs j) -> fs_file fs l = None -> exists x, write_file fs l (Text "") = Ok x.
Proof.
  induction j as [| | | | | | | |l0 j IH]; intros fs fs' R T l Hl Hn; try (destruct Hl; fail). apply tool_ok in T. destruct T as (T & _). cbn [program] in T. rewrite alone_bind in T.
  destruct R as (L & D). rewrite (alone_log l0 fs (D l0 (or_introl eq_refl))) in T.
  destruct (fs_file fs l0) as [c|] eqn:E0; cbn [fst snd] in T.
  - destruct Hl as [->|Hl]; [congruence|]. change (replay fs []) with fs in T. apply (IH fs (replay fs (fst (alone (program j) fs)))); [split; [exact L|intros q Hq; apply D; right; exact Hq]|apply tool_ok; split; [exact T|reflexivity]|exact Hl|exact Hn].
  - destruct (write_file fs l0 (Text "")) as [x|e] eqn:Ew; cbn [fst snd] in T; [|discriminate]. destruct Hl as [->|Hl]; [exists x; exact Ew|].
    destruct (String.eqb_spec l l0) as [->|Hne]; [exists x; exact Ew|].
    destruct (IH (replay fs [Eopen l0]) (replay (replay fs [Eopen l0]) (fst (alone (program j) (replay fs [Eopen l0])))) ltac:(split; [exact L|intros q Hq; apply (D q); right; exact Hq]) ltac:(apply tool_ok; split; [exact T|reflexivity]) l Hl) as (y & Hy).
    + cbn [replay fold_left effect fs_file]. destruct (String.eqb_spec l l0); [contradiction|exact Hn].
    + unfold write_file in Hy |- *. change (fs_dir (replay fs [Eopen l0])) with (fs_dir fs) in Hy. destruct (_ || _)%bool; [discriminate|eexists; reflexivity].
Qed.

(** ** after some rounds *)
Lemma hit_app a b q : hit (a ++ b) q = (hit a q || hit b q)%bool.
Proof. apply existsb_app. Qed.
Lemma hit_firstn n l q : hit l q = false -> hit (firstn n l) q = false.
Proof.
  intros H. destruct (hit (firstn n l) q) eqn:E0; [|reflexivity]. rewrite <- (firstn_skipn n l), hit_app, E0 in H. discriminate.
Qed.
Lemma hit_logs j q : forall fs, hit (log_events j fs) q = (existsb (String.eqb q) (logs j) && match fs_file fs q with None => true | Some _ => false end)%bool.
Proof.
  induction j as [| | | | | | | |l j IH]; intros fs; try reflexivity. cbn [log_events logs existsb]. cbv zeta. rewrite hit_app, IH. destruct (fs_file fs l) as [c|] eqn:El; cbn [replay fold_left effect fs_file hit existsb touches]; destruct (String.eqb_spec q l) as [->|Hq]; cbn [orb andb]; rewrite ?El; try reflexivity.
  - apply andb_false_r.
Qed.
Lemma never_gone l q : forall fs, fs_file fs q <> None -> fs_file (replay fs l) q <> None.
Proof.
  induction l as [|e l IH]; intros fs H; [exact H|]. cbn [replay fold_left]. change (fs_file (replay (effect fs e) l) q <> None). apply IH. destruct e as [p|p|p c|p o]; cbn [effect fs_file]; [exact H| | |]; destruct (String.eqb q p); try exact H; [intros Q; discriminate Q| |intros Q; discriminate Q].
  destruct (fs_file fs q) as [[]|]; [intros Q; discriminate Q..|contradiction].
Qed.
Lemma apart_app a b : apart (a ++ b) -> apart a.
Proof.
  intros H i k x y q Hx Hy. apply (H i k x y q); rewrite nth_error_app1; try assumption; apply nth_error_Some; congruence.
Qed.
Lemma apart_two a b x y q : apart (a ++ b) -> In x a -> In y b -> writes x q -> writes y q -> False.
Proof.
  intros H Hx Hy Wx Wy. apply In_nth_error in Hx, Hy. destruct Hx as (i & Hi), Hy as (k & Hk). assert (Li : i < length a) by (apply nth_error_Some; congruence).
  destruct (H i (length a + k) x y q) as (_ & K); [rewrite nth_error_app1; assumption|rewrite nth_error_app2 by lia; replace (length a + k - length a) with k by lia; exact Hk|lia|exact Wx|contradiction].
Qed.
Section Started.
Context (js : list job) (fs : fsys).
Context (R : forall j, In j js -> ready fs j) (T : forall j, In j js -> tidy j) (O : forall j, In j js -> exists fs', tool j fs = Ok fs') (A : apart js).
Definition core_events (j : job) : list event := fst (alone (program (core_of j)) fs).
Record intact (st : fsys) : Prop := {
  i_dirs : fs_dir st = fs_dir fs;
  i_rest : forall q, (forall j, In j js -> touched fs j q = false) -> fs_file st q = fs_file fs q;
  i_file : forall j q, In j js -> writes j q -> fs_file st q = fs_file fs q \/ hit (core_events j) q = true \/ (In q (logs j) /\ fs_file fs q = None /\ fs_file st q = Some (Text ""));
  i_there : forall q, fs_file fs q <> None -> fs_file st q <> None }.
Lemma not_read j q : In j js -> reads j q -> forall k, In k js -> ~ writes k q.
Proof.
  intros Hj Hr k Hk Hw. pose proof (In_nth_error _ _ Hj) as (i & Hi). pose proof (In_nth_error _ _ Hk) as (m & Hm). destruct (Nat.eq_dec m i) as [->|Hne]; [|destruct (A m i k j q Hm Hi Hne Hw); contradiction].
  assert (k = j) by congruence. subst k. exact (T j Hj q Hw Hr).
Qed.
Lemma intact_reads st j : intact st -> In j js -> same_on (reads j) st fs.
Proof.
  intros I0 Hj q Hq. apply (i_rest _ I0). intros k Hk. destruct (touched fs k q) eqn:Et; [|reflexivity]. exfalso. exact (not_read j q Hj Hq k Hk (touched_writes fs k q (R k Hk) Et)).
Qed.
Lemma core_same st j : In j js -> fs_dir st = fs_dir fs -> same_on (reads j) st fs -> alone (program (core_of j)) st = alone (program (core_of j)) fs.
Proof.
  intros Hj D S. refine (alone_same _ _ _ _ st fs (core_confined fs (core_of j) (core_unlogged j) (ready_core fs j (R j Hj))) D eq_refl _). intros q Hq. apply S, core_reads, Hq.
Qed.
Lemma ready_there st j : fs_dir st = fs_dir fs -> In j js -> ready st j.
Proof. intros D Hj. destruct (R j Hj) as (L & K). split; [exact L|]. rewrite D. exact K. Qed.
Lemma run_there st j : intact st -> In j js -> fst (alone (program j) st) = log_events j st ++ core_events j /\ snd (alone (program j) st) = Ok tt.
Proof.
  intros I0 Hj. destruct (O j Hj) as (fs' & Ho). pose proof (i_dirs _ I0) as D.
  assert (G : forall v, fs_dir v = fs_dir fs -> same_on (reads j) v fs -> (forall l, In l (logs j) -> fs_file v l = None -> fs_file fs l = None) -> alone (program j) v = (log_events j v ++ core_events j, snd (alone (program (core_of j)) fs))).
  { intros v Dv Sv Lv. rewrite (alone_split j v (ready_there v j Dv Hj)).
    - rewrite (core_same (replay v (log_events j v)) j Hj); [reflexivity|rewrite log_event_dirs; exact Dv|]. intros q Hq. rewrite log_event_files. destruct (existsb (String.eqb q) (logs j)) eqn:Ex; [|exact (Sv q Hq)].
      exfalso. apply existsb_exists in Ex. destruct Ex as (l & Hl & El). apply String.eqb_eq in El. subst l. exact (T j Hj q (log_writes j q Hl) Hq).
    - intros l Hl Hn. destruct (logs_open j fs fs' (R j Hj) Ho l Hl (Lv l Hl Hn)) as (x & Hx). unfold write_file in Hx |- *. rewrite Dv. destruct (_ || _)%bool; [discriminate|eexists; reflexivity]. }
  pose proof (G fs eq_refl (fun q _ => eq_refl) (fun l _ H => H)) as Gf. apply tool_ok in Ho. destruct Ho as (Ho & _). rewrite Gf in Ho. cbn [snd] in Ho.
  rewrite (G st D (intact_reads st j I0 Hj)); [split; [reflexivity|exact Ho]|]. intros l _ Hn. destruct (fs_file fs l) eqn:El; [|reflexivity]. exfalso. exact (i_there _ I0 l ltac:(congruence) Hn).
Qed.
Lemma intact_start : intact fs.
Proof. constructor; auto. Qed.
Lemma run_fs j : In j js -> fst (alone (program j) fs) = log_events j fs ++ core_events j.
Proof. intros Hj. exact (proj1 (run_there fs j intact_start Hj)). Qed.
Lemma untouched_there st j q : intact st -> In j js -> touched fs j q = false -> existsb (fun e => touches e q) (fst (alone (program j) st)) = false.
Proof.
  intros I0 Hj Ht. unfold touched in Ht. rewrite (run_fs j Hj) in Ht. rewrite (proj1 (run_there st j I0 Hj)). change (hit (log_events j fs ++ core_events j) q = false) in Ht. change (hit (log_events j st ++ core_events j) q = false).
  rewrite hit_app in Ht |- *. apply orb_false_iff in Ht. destruct Ht as (H1 & ->). rewrite orb_false_r. rewrite hit_logs in H1 |- *. destruct (existsb _ _); [|reflexivity]. cbn [andb] in *.
  destruct (fs_file st q) eqn:Es; [reflexivity|]. destruct (fs_file fs q) eqn:Ef; [|discriminate]. exfalso. exact (i_there _ I0 q ltac:(congruence) Es).
Qed.
(** a finished run leaves the same files on every such disk *)
Lemma finished_there st j q : intact st -> In j js -> writes j q -> fs_file (replay st (fst (alone (program j) st))) q = fs_file (replay fs (fst (alone (program j) fs))) q.
Proof.
  intros I0 Hj Hw. rewrite (run_fs j Hj), (proj1 (run_there st j I0 Hj)), !replay_app. destruct (hit (core_events j) q) eqn:Eh.
  - pose proof (w_core (core_of j) fs (core_unlogged j)) as W. pose proof (job_refines (core_of j) fs) as Rf. unfold core_events in *.
    assert (E0 : fst (solo (core_of j) fs) = fst (alone (program (core_of j)) fs)) by (rewrite Rf; reflexivity). rewrite <- E0 in *. exact (whole_file _ q _ _ W Eh).
  - rewrite (replay_else (core_events j) q (replay st (log_events j st)) Eh), (replay_else (core_events j) q (replay fs (log_events j fs)) Eh), !log_event_files. destruct (i_file _ I0 j q Hj Hw) as [H|[H|(H1 & H2 & H3)]]; [rewrite H; reflexivity|congruence|].
    assert (Ex : existsb (String.eqb q) (logs j) = true) by (apply existsb_exists; exists q; split; [exact H1|apply String.eqb_refl]). rewrite Ex, H2, H3. reflexivity.
Qed.
Section Round.
Context (st : fsys) (I0 : intact st) (l rest : list job) (sched : list nat) (HP : Permutation js (l ++ rest)).
Let st' := snd (together l sched st).
Lemma in_l j : In j l -> In j js.
Proof. intros H. apply (Permutation_in j (Permutation_sym HP)), in_app_iff. left. exact H. Qed.
Lemma in_rest j : In j rest -> In j js.
Proof. intros H. apply (Permutation_in j (Permutation_sym HP)), in_app_iff. right. exact H. Qed.
Lemma apart_both : apart (l ++ rest).
Proof. exact (apart_permutation _ _ HP A). Qed.
Lemma apart_l : apart l.
Proof. exact (apart_app _ _ apart_both). Qed.
Lemma ready_l j : In j l -> ready st j.
Proof. intros H. exact (ready_there st j (i_dirs _ I0) (in_l j H)). Qed.
Lemma round_any : (forall i j, nth_error l i = Some j -> exists n, forall q, writes j q -> fs_file st' q = fs_file (replay st (firstn n (fst (alone (program j) st)))) q) /\
  (forall q, (forall j, In j l -> ~ writes j q) -> fs_file st' q = fs_file st q) /\ fs_dir st' = fs_dir st.
Proof.
  destruct (C97_any_moment l st sched ready_l apart_l) as (H1 & H2 & H3). split; [|split; assumption]. intros i j Hj. destruct (H1 i j Hj) as (n & Hn). exists n. intros q Hq. unfold st'. rewrite (Hn q Hq). unfold disk_at. rewrite (job_refines j st). reflexivity.
Qed.
Lemma rest_kept j q : In j rest -> writes j q -> fs_file st' q = fs_file st q.
Proof. intros Hj Hw. apply (proj1 (proj2 round_any)). intros k Hk Wk. exact (apart_two l rest k j q apart_both Hk Hj Wk Hw). Qed.
Lemma round_untouched q : (forall j, In j js -> touched fs j q = false) -> fs_file st' q = fs_file st q.
Proof.
  intros H. destruct (together_kept l st sched ready_l apart_l) as [_ _ _ K4]. apply K4. intros i P Hi. rewrite nth_error_map in Hi. destruct (nth_error l i) as [j|] eqn:Ej; [|discriminate]. cbn in Hi. assert (P = program j) by congruence. subst P.
  pose proof (in_l j (nth_error_In _ _ Ej)) as Hj. exact (untouched_there st j q I0 Hj (H j Hj)).
Qed.
Lemma l_file j q : In j l -> writes j q -> (hit (core_events j) q = true) \/ fs_file st' q = fs_file st q \/ (In q (logs j) /\ fs_file st q = None /\ fs_file st' q = Some (Text "")).
Proof.
  intros Hj Hw. destruct (In_nth_error _ _ Hj) as (i & Hi). destruct (proj1 round_any i j Hi) as (n & Hn). rewrite (Hn q Hw), (proj1 (run_there st j I0 (in_l j Hj))). destruct (hit (core_events j) q) eqn:Eh; [left; reflexivity|right].
  rewrite firstn_app, replay_app, (replay_else (firstn _ (core_events j)) q) by (apply hit_firstn; exact Eh). apply log_prefix.
Qed.
Lemma intact_round : intact st'.
Proof.
  destruct round_any as (H1 & H2 & H3). constructor.
  - rewrite H3. apply (i_dirs _ I0).
  - intros q Hq. rewrite (round_untouched q Hq). apply (i_rest _ I0), Hq.
  - intros j q Hj Hw. apply (Permutation_in j HP), in_app_iff in Hj. destruct Hj as [Hj|Hj].
    + destruct (l_file j q Hj Hw) as [H|[H|(K1 & K2 & K3)]]; [right; left; exact H|rewrite H; exact (i_file _ I0 j q (in_l j Hj) Hw)|]. right. right. split; [exact K1|]. split; [|exact K3].
      destruct (fs_file fs q) eqn:Ef; [|reflexivity]. exfalso. exact (i_there _ I0 q ltac:(congruence) K2).
    + rewrite (rest_kept j q Hj Hw). exact (i_file _ I0 j q (in_rest j Hj) Hw).
  - intros q Hq. destruct (existsb (fun j => touched fs j q) js) eqn:Ex.
    + apply existsb_exists in Ex. destruct Ex as (j & Hj & Ht). pose proof (touched_writes fs j q (R j Hj) Ht) as Hw. apply (Permutation_in j HP), in_app_iff in Hj. destruct Hj as [Hj|Hj].
      * destruct (In_nth_error _ _ Hj) as (i & Hi). destruct (H1 i j Hi) as (n & Hn). rewrite (Hn q Hw). apply never_gone, (i_there _ I0), Hq.
      * rewrite (rest_kept j q Hj Hw). apply (i_there _ I0), Hq.
    + rewrite round_untouched; [apply (i_there _ I0), Hq|]. intros j Hj. destruct (touched fs j q) eqn:Et; [|reflexivity]. assert (existsb (fun j => touched fs j q) js = true) by (apply existsb_exists; exists j; auto). congruence.
Qed.
Lemma round_result i j r : nth_error l i = Some j -> ended_with (together l sched st) i r -> r = Ok tt /\ forall q, writes j q -> fs_file st' q = fs_file (replay fs (fst (alone (program j) fs))) q.
Proof.
  intros Hi He. pose proof (in_l j (nth_error_In _ _ Hi)) as Hj. pose proof (run_there st j I0 Hj) as (_ & Ok0). pose proof (C97_result l st sched i j r ready_l apart_l Hi He) as Q. destruct r as [[]|e].
  - split; [reflexivity|]. destruct Q as (fs'' & T1 & T2). intros q Hq. unfold st'. rewrite (T2 q Hq). apply tool_ok in T1. destruct T1 as (_ & ->). exact (finished_there st j q I0 Hj Hq).
  - destruct Q as (Q & _). rewrite (job_refines j st) in Q. unfold finish in Q. cbn [snd] in Q. rewrite Ok0 in Q. discriminate.
Qed.
End Round.
Lemma rounds_inv fin st : rounds js fs fin st -> intact st /\ forall j, In j js -> fin j -> forall q, writes j q -> fs_file st q = fs_file (replay fs (fst (alone (program j) fs))) q.
Proof.
  induction 1 as [|fin st l rest sched _ (I0 & Dn) HP]; [split; [exact intact_start|intros j _ []]|]. split; [exact (intact_round st I0 l rest sched HP)|]. intros j Hj [(i & r & Hi & He)|(Hr & Hf)] q Hw.
  - exact (proj2 (round_result st I0 l rest sched HP i j r Hi He) q Hw).
  - rewrite (rest_kept st I0 l rest sched HP j q Hr Hw). exact (Dn j Hj Hf q Hw).
Qed.
End Started.

(** ** C108 *)
Definition startable (js : list job) (fs : fsys) : Prop := apart js /\ forall j, In j js -> ready fs j /\ tidy j /\ exists fs', tool j fs = Ok fs'.
(** after any rounds, in the next one too: a job that ends, ends without an exception *)
Theorem C108_results js fs fin st l rest sched i j r : startable js fs -> rounds js fs fin st -> Permutation js (l ++ rest) -> nth_error l i = Some j -> ended_with (together l sched st) i r -> r = Ok tt.
Proof.
  intros (A & H) Hr HP Hi He. destruct (rounds_inv js fs (fun j Hj => proj1 (H j Hj)) (fun j Hj => proj1 (proj2 (H j Hj))) (fun j Hj => proj2 (proj2 (H j Hj))) A fin st Hr) as (I0 & _).
  exact (proj1 (round_result js fs (fun j Hj => proj1 (H j Hj)) (fun j Hj => proj1 (proj2 (H j Hj))) (fun j Hj => proj2 (proj2 (H j Hj))) A st I0 l rest sched HP i j r Hi He)).
Qed.
(** and it ends if it is given enough steps, whatever the others do *)
Theorem C108_ends js fs fin st l rest i j : startable js fs -> rounds js fs fin st -> Permutation js (l ++ rest) -> nth_error l i = Some j ->
  exists n, forall sched, n <= count_occ Nat.eq_dec sched i -> ended_with (together l sched st) i (Ok tt).
Proof.
  intros S Hr HP Hi. pose proof S as (A & H). destruct (rounds_inv js fs (fun j Hj => proj1 (H j Hj)) (fun j Hj => proj1 (proj2 (H j Hj))) (fun j Hj => proj2 (proj2 (H j Hj))) A fin st Hr) as (I0 & _).
  destruct (C97_ends l st i j) as (n & Hn); [|exact (apart_l js A l rest HP)|exact Hi|].
  - intros k Hk. exact (ready_there js fs (fun j Hj => proj1 (H j Hj)) st k (i_dirs _ _ _ I0) (in_l js l rest HP k Hk)).
  - exists n. intros sched Hs. destruct (Hn sched Hs) as (r & He). rewrite (C108_results js fs fin st l rest sched i j r S Hr HP Hi He) in He. exact He.
Qed.
(** a job that has ended has left the files it leaves alone; the files that no job writes are as before, and the directories *)
Theorem C108_files js fs fin st : startable js fs -> rounds js fs fin st ->
  (forall j, In j js -> fin j -> exists fs', tool j fs = Ok fs' /\ forall q, writes j q -> fs_file st q = fs_file fs' q) /\
  (forall q, (forall j, In j js -> ~ writes j q) -> fs_file st q = fs_file fs q) /\ fs_dir st = fs_dir fs.
Proof.
  intros (A & H) Hr. destruct (rounds_inv js fs (fun j Hj => proj1 (H j Hj)) (fun j Hj => proj1 (proj2 (H j Hj))) (fun j Hj => proj2 (proj2 (H j Hj))) A fin st Hr) as (I0 & Dn). split; [|split].
  - intros j Hj Hf. destruct (H j Hj) as (_ & _ & fs' & T). exists fs'. split; [exact T|]. intros q Hq. apply tool_ok in T. destruct T as (_ & ->). exact (Dn j Hj Hf q Hq).
  - intros q Hq. apply (i_rest _ _ _ I0). intros j Hj. destruct (touched fs j q) eqn:Et; [|reflexivity]. exfalso. exact (Hq j Hj (touched_writes fs j q (proj1 (H j Hj)) Et)).
  - exact (i_dirs _ _ _ I0).
Qed.
(** once all jobs have ended, the disk is what running them one after the other leaves, in whatever order: nothing of the runs that were killed is left *)
Theorem C108_finished js fs fin st js' : startable js fs -> rounds js fs fin st -> (forall j, In j js -> fin j) -> Permutation js js' -> one_by_one js' fs = Ok st.
Proof.
  intros (A & H) Hr Hf HP. destruct (rounds_inv js fs (fun j Hj => proj1 (H j Hj)) (fun j Hj => proj1 (proj2 (H j Hj))) (fun j Hj => proj2 (proj2 (H j Hj))) A fin st Hr) as (I0 & Dn).
  assert (HI : forall j, In j js' -> In j js) by (intros j; apply Permutation_in, Permutation_sym, HP). assert (HI' : forall j, In j js -> In j js') by (intros j; apply Permutation_in, HP).
  destruct (serial fs js' fs (apart_permutation _ _ HP A) eq_refl) as (g' & S1 & S2 & S3 & S4); [intros j Hj; destruct (H j (HI j Hj)) as (R1 & _ & R3); split; [exact R1|split; [intros q _; reflexivity|exact R3]]|].
  rewrite S1. f_equal. assert (Files : fs_file g' = fs_file st).
  { apply functional_extensionality. intros q. destruct (existsb (fun j => touched fs j q) js) eqn:Ex.
    - apply existsb_exists in Ex. destruct Ex as (j & Hj & Ht). rewrite (S3 j q (HI' j Hj) Ht). symmetry. exact (Dn j Hj (Hf j Hj) q (touched_writes fs j q (proj1 (H j Hj)) Ht)).
    - assert (Nt : forall j, In j js -> touched fs j q = false). { intros j Hj. destruct (touched fs j q) eqn:Et; [|reflexivity]. exfalso. assert (existsb (fun j => touched fs j q) js = true) by (apply existsb_exists; exists j; auto). congruence. }
      rewrite S4 by (intros j Hj; apply Nt, HI, Hj). symmetry. exact (i_rest _ _ _ I0 q Nt). }
  pose proof (i_dirs _ _ _ I0) as D. destruct g' as [f1 d1], st as [f2 d2]. cbn [fs_file fs_dir] in *. congruence.
Qed.
End Rounds.
