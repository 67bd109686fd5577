(** Prop_Race.v -- C98: tools started at the same time although their output directory is not there yet. *)
From Coq Require Import Ascii Permutation FunctionalExtensionality.
From Verif Require Import Base PyList Dict Num Dense Sparse Matrix Scaling Linalg Operation Similarity Space Peripheral SpecSpace Learner Composition Utils LexFun Str PStr IO SpecIO PIO Prop_IO PExport Prop_Export Pipe SpecPipe SpecPipe2 PFiles PPipe PPipe2 PSave SpecPipe3 PPipe3 SpecCore PCore Prop_Core Prop_Sims Prop_Batch Prop_TrainPipe Crash SpecCrash PCrash PCrash2 PCrash3 PCrash4 PCrash5 Prop_Crash Prop_Crash2 Qio Pio Prop_CrashEx Prop_Rerun Prop_RerunEx SpecDir Conc PConc PConc2 SpecConc Prop_Conc Prop_ConcEx PRace PRace2.
Local Open Scope string_scope.
Local Open Scope list_scope.
Local Open Scope nat_scope.
(** ** vocabulary *)
(** the directory d is not there, nothing else has its name, and the directory it is in is there *)
Definition new_dir `{Num} (fs : fsys) (d : string) : Prop := exists root names c, good_root root /\ Forall name names /\ name c /\ d = path root (names ++ [c]) /\
  (path root names = "" \/ fs_dir fs (path root names) = true) /\ fs_dir fs d = false /\ fs_file fs d = None.
(** all files the jobs may write are in d, none of them reads d (and os.listdir works) *)
Definition into `{PI : PipeIO} (d : string) (js : list job) : Prop := forall j, In j js -> (forall q, writes j q -> dirname q = d) /\ ~ reads j d /\ listing j.

Section Race.
Context {N : Num} {E : Ext} {FI : FloatIO} {PI : PipeIO} {KI : PickleIO}.
Lemma new_split fs d : new_dir fs d -> exists h, fs_dir fs d = false /\ fs_file fs d = None /\ d <> "" /\ (exists t, path_split d = (h, t) /\ t <> "" /\ t <> ".") /\ (h = "" \/ fs_dir fs h = true) /\ dirname d <> d.
Proof.
  intros (root & names & c & H1 & H2 & H3 & -> & H5 & H6 & H7). exists (path root names). split; [exact H6|]. split; [exact H7|]. pose proof H3 as (C1 & C2 & C3).
  assert (Ne : path root (names ++ [c]) <> "").
  { intros Q. apply C1. destruct names as [|x names]; [unfold path, join in Q; cbn in Q|rewrite path_snoc in Q by discriminate]; apply (f_equal chars) in Q; rewrite ?chars_app in Q; cbn [chars list_ascii_of_string] in Q; repeat (apply app_eq_nil in Q; destruct Q as (? & Q)); [|discriminate]. destruct c; [reflexivity|discriminate]. }
  split; [exact Ne|]. split; [exists c; split; [apply path_split_snoc; assumption|split; assumption]|]. split; [exact H5|]. unfold dirname. rewrite path_split_snoc by assumption. cbn [fst]. intros Q.
  destruct names as [|x names].
  - unfold path, join in Q. cbn in Q. apply (f_equal chars) in Q. rewrite !chars_app in Q. apply (f_equal (@length _)) in Q. rewrite !app_length in Q. cbn in Q. apply C1. destruct c; [reflexivity|cbn in Q; lia].
  - rewrite path_snoc in Q by discriminate. apply (f_equal chars) in Q. rewrite !chars_app in Q. apply (f_equal (@length _)) in Q. rewrite !app_length in Q. cbn in Q. lia.
Qed.
Lemma race js fs d : new_dir fs d -> into d js -> apart js -> exists h, (forall sched, raced d h fs js (count_occ Nat.eq_dec sched) (together js sched fs)) /\
  (forall j, In j js -> snd (alone (program j) (with_dir d fs)) = snd (alone (program j) fs) /\
     forall q, fs_file (replay (with_dir d fs) (fst (alone (program j) (with_dir d fs)))) q = fs_file (replay fs (fst (alone (program j) fs))) q) /\
  (forall j, In j js -> confined (dirs1 d (fs_dir fs)) (uses j) (writes j) (program j)).
Proof.
  intros Hn Hi Ha. destruct (new_split fs d Hn) as (h & N1 & N2 & N3 & N4 & N5 & N6). exists h. split; [|split].
  - intros sched. apply raced_all; try assumption; [intros j q Hj; apply (Hi j Hj)|intros j Hj; apply (Hi j Hj)].
  - intros j Hj. apply (alone_with d h fs N1 N2 N3 N4 N5 (uses j) (writes j)). apply (job_both d (fs_dir fs) j N3); apply (Hi j Hj).
  - intros j Hj. apply (job_both d (fs_dir fs) j N3); apply (Hi j Hj).
Qed.
(** ** what can happen *)
(** A job that has ended has ended as it does alone, with the files it leaves alone; or it has lost the race for the directory: then it has ended with OSError and has written nothing,
    the directory is there, and running the job again gives the files it would have left alone.  No file changes that no job writes. *)
Theorem C98_partial js fs d sched : new_dir fs d -> into d js -> apart js ->
  (forall i j r, nth_error js i = Some j -> ended_with (together js sched fs) i r ->
     match r with
     | Ok _ => exists fs', tool j fs = Ok fs' /\ forall q, writes j q -> fs_file (snd (together js sched fs)) q = fs_file fs' q
     | Err e => snd (solo j fs) = Err e /\ forall q, writes j q -> fs_file (snd (together js sched fs)) q = fs_file (replay fs (fst (solo j fs))) q
     end \/
     (r = Err OSError /\ fs_dir (snd (together js sched fs)) d = true /\ (forall q, writes j q -> fs_file (snd (together js sched fs)) q = fs_file fs q) /\
      forall fs', tool j fs = Ok fs' -> exists fs2, tool j (snd (together js sched fs)) = Ok fs2 /\ (forall q, writes j q -> fs_file fs2 q = fs_file fs' q) /\
        forall q, ~ writes j q -> fs_file fs2 q = fs_file (snd (together js sched fs)) q)) /\
  (forall q, (forall j, In j js -> ~ writes j q) -> fs_file (snd (together js sched fs)) q = fs_file fs q).
Proof.
  intros Hn Hi Ha. destruct (race js fs d Hn Hi Ha) as (h & R & S & C). specialize (R sched). destruct R as [R1 R2 R3 R4 R5]. split; [|exact R5].
  intros i j r Hj (P & HP & HE). destruct (R1 i j Hj) as (Q & HQ & HR). assert (Q = P) by congruence. subst Q. pose proof (nth_error_In _ _ Hj) as Hin. destruct (S j Hin) as (S1 & S2). specialize (C j Hin).
  pose proof (job_refines j fs) as Rf. unfold finish in Rf.
  destruct (rel_end _ _ _ _ _ _ _ _ _ _ _ HR HE) as [(Er & Ef)|(Er & Ed & Ef)].
  - left. rewrite S1 in Er. rewrite <- Er in Rf.
    assert (F : forall q, writes j q -> fs_file (snd (together js sched fs)) q = fs_file (replay fs (fst (alone (program j) fs))) q) by (intros q Hq; rewrite (Ef q (or_intror Hq)); apply S2).
    destruct r as [u|e].
    + exists (replay fs (fst (alone (program j) fs))). split; [|exact F]. apply tool_ok. split; [destruct u; symmetry; exact Er|reflexivity].
    + rewrite Rf. cbn [fst snd]. split; [reflexivity|exact F].
  - right. split; [exact Er|]. split; [rewrite Ed; apply d1|]. split; [intros q Hq; exact (Ef q (or_intror Hq))|]. intros fs' Ht. apply tool_ok in Ht. destruct Ht as (T1 & ->).
    pose proof (alone_same _ _ _ _ (snd (together js sched fs)) (with_dir d fs) C Ed eq_refl Ef) as Ea. set (g := snd (together js sched fs)) in *. set (l := fst (alone (program j) (with_dir d fs))) in *.
    exists (replay g l). split; [apply tool_ok; rewrite Ea; split; [rewrite S1; exact T1|reflexivity]|]. split.
    + intros q Hq. rewrite <- S2. fold l. apply (replay_same (uses j) l g (with_dir d fs) Ef). right. exact Hq.
    + intros q Hq. apply (events_else (writes j)); [apply (alone_events _ _ _ _ (with_dir d fs) C eq_refl)|exact Hq].
Qed.
(** every job ends, after a number of its own steps that does not depend on the others *)
Theorem C98_ends js fs d i j : new_dir fs d -> into d js -> apart js -> nth_error js i = Some j ->
  exists n, forall sched, n <= count_occ Nat.eq_dec sched i -> exists r, ended_with (together js sched fs) i r.
Proof.
  intros Hn Hi Ha Hj. destruct (race js fs d Hn Hi Ha) as (h & R & _). exists (S (4 * steps (program j) (with_dir d fs))). intros sched Hs. destruct (R sched) as [R1 _ _ _ _]. destruct (R1 i j Hj) as (P & HP & HR).
  destruct (rel_ends _ _ _ _ _ _ _ _ _ _ HR) as (r & Hr); [unfold lt; exact Hs|]. exists r, P. split; assumption.
Qed.
(** when all jobs have ended and each would succeed alone, one of them has succeeded *)
Theorem C98_one_wins js fs d sched : new_dir fs d -> into d js -> apart js -> js <> [] -> (forall j, In j js -> exists fs', tool j fs = Ok fs') ->
  (forall i j, nth_error js i = Some j -> exists r, ended_with (together js sched fs) i r) -> exists i, ended_with (together js sched fs) i (Ok tt).
Proof.
  intros Hn Hi Ha Hne Ht He. destruct (race js fs d Hn Hi Ha) as (h & R & S & _). destruct (R sched) as [R1 _ R3 R4 _].
  assert (Al : forall j, In j js -> snd (alone (program j) (with_dir d fs)) = Ok tt) by (intros j Hj; destruct (Ht j Hj) as (fs' & T); apply tool_ok in T; destruct T as (T & _); destruct (S j Hj) as (-> & _); exact T).
  assert (Fst : exists j, nth_error js 0 = Some j) by (destruct js as [|j js']; [congruence|exists j; reflexivity]). destruct Fst as (j & Hj).
  destruct (He 0 j Hj) as (r & P & HP & HE). destruct (R1 0 j Hj) as (Q & HQ & HR). assert (Q = P) by congruence. subst Q.
  destruct (rel_end _ _ _ _ _ _ _ _ _ _ _ HR HE) as [(Er & _)|(_ & Ed & _)].
  - exists 0, P. split; [exact HP|]. rewrite HE, Er, (Al j (nth_error_In _ _ Hj)). reflexivity.
  - destruct (R4 Ed) as (k & b & Pk & Hb & HPk & Pa). destruct (He k b Hb) as (rk & Q & HQ' & HEk). assert (Q = Pk) by congruence. subst Q. exists k, Pk. split; [exact HPk|].
    rewrite HEk, (past_end _ _ _ _ _ _ _ _ _ Pa HEk), (Al b (nth_error_In _ _ Hb)). reflexivity.
Qed.
End Race.

(** ** concrete cases *)
Section Ex.
#[local] Existing Instance QNum.
#[local] Existing Instance Kio.
Context {E : Ext}.
Lemma tools_new : new_dir tools_fs "out".
Proof.
  exists "", [], "out". split; [left; reflexivity|]. split; [constructor|]. split; [|repeat split; left; reflexivity].
  split; [discriminate|]. split; [discriminate|]. cbn. intros Q. repeat (destruct Q as [Q|Q]; [discriminate|]). exact Q.
Qed.
Lemma busy_into : into "out" busy_jobs.
Proof.
  intros j Hj. apply In_nth_error in Hj. destruct Hj as (i & Hi). split.
  - intros q Hq. destruct (busy_writes i j q Hi Hq) as ((r & -> & Hr) & Hl). replace ("out/" ++ String (mark i) r)%string with ("out/" ++ (String (mark i) r))%string by reflexivity.
    rewrite dirname_app; [reflexivity|]. cbn [chars list_ascii_of_string]. intros [Q|Q]; [|exact (Hr Q)]. destruct i as [|[|i]]; discriminate.
  - split; [intros K; destruct (busy_reads i j _ Hi K) as (r & Hr); discriminate|]. apply nth_error_In in Hi. destruct Hi as [<-|[<-|[<-|[]]]]; exact Logic.I.
Qed.
(** the first job loads its space and finds no directory; before it makes one, the third job runs to its end; then the first job cannot make it *)
Definition lost_race : list nat := [0; 0] ++ List.repeat 2 100 ++ [0] ++ List.repeat 1 300.
Example C98_example : new_dir tools_fs "out" /\ into "out" busy_jobs /\ apart busy_jobs /\ (forall j, In j busy_jobs -> exists fs', tool j tools_fs = Ok fs') /\
  ended_with (together busy_jobs lost_race tools_fs) 0 (Err OSError) /\ ended_with (together busy_jobs lost_race tools_fs) 1 (Ok tt) /\ ended_with (together busy_jobs lost_race tools_fs) 2 (Ok tt).
Proof.
  split; [exact tools_new|]. split; [exact busy_into|]. split; [exact busy_apart|]. split; [|split; [|split]].
  - intros j Hj. apply done_ok. destruct Hj as [<-|[<-|[<-|[]]]]; vm_compute; reflexivity.
  - apply result_ended. vm_compute. reflexivity.
  - apply result_ended. vm_compute. reflexivity.
  - apply result_ended. vm_compute. reflexivity.
Qed.
(** so it is not true that jobs that succeed alone, and one after the other, succeed when they are started at the same time *)
Theorem C98_refuted : ~ (forall js fs d sched i r, new_dir fs d -> into d js -> apart js -> (forall j, In j js -> exists fs', tool j fs = Ok fs') ->
  ended_with (together js sched fs) i r -> r = Ok tt).
Proof.
  intros H. destruct C98_example as (H1 & H2 & H3 & H4 & H5 & _). specialize (H busy_jobs tools_fs "out" lost_race 0 (Err OSError) H1 H2 H3 H4 H5). discriminate.
Qed.
End Ex.
