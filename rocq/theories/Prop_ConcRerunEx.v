(** Prop_ConcRerunEx.v -- C108: a concrete case. *)
From Coq Require Import Ascii Permutation.
From Verif Require Import Base PyList Dict Num Dense Sparse Matrix Scaling Linalg Operation Similarity Space Peripheral SpecSpace Learner Composition Utils LexFun Str PStr IO SpecIO PIO Prop_IO PExport Prop_Export Pipe SpecPipe SpecPipe2 PFiles PPipe PPipe2 PSave SpecPipe3 PPipe3 SpecCore PCore Prop_Core Prop_Sims Prop_Batch Prop_TrainPipe Crash SpecCrash PCrash PCrash2 PCrash3 PCrash4 PCrash5 Prop_Crash Prop_Crash2 Qio Prop_CrashEx Prop_Rerun SpecDir Conc PConc PConc2 SpecConc Prop_Conc Prop_RerunDir Prop_RerunDirEx Prop_ConcDirEx Prop_ConcRerun.
Local Open Scope string_scope.
Local Open Scope list_scope.
Local Open Scope nat_scope.
Section Ex.
#[local] Existing Instance QNum.
#[local] Existing Instance Kio.
#[local] Existing Instance Dio.
Context {E : Ext}.
Lemma both_tidy j : In j both_jobs -> tidy j.
Proof.
  intros Hj q Hw Hr. apply In_nth_error in Hj. destruct Hj as (i & Hi). destruct (both_writes i j q Hi Hw) as ([(r & -> & _)|(_ & ->)] & _); destruct (both_reads i j _ Hi Hr) as [(r' & Hr')|(r' & Hr')]; discriminate.
Qed.
Lemma both_startable : startable both_jobs both_fs.
Proof.
  split; [exact both_apart|]. intros j Hj. split; [exact (both_ready j Hj)|]. split; [exact (both_tidy j Hj)|]. apply ok_some. destruct Hj as [<-|[<-|[]]]; vm_compute; reflexivity.
Qed.
Definition job1 := nth 0 both_jobs (JNeigh "" 0 "" "" []).
Definition job2 := nth 1 both_jobs (JNeigh "" 0 "" "" []).
(** both are killed; then only the second is started, and ends; then the first *)
Lemma both_two : both_jobs = [job1; job2].
Proof. reflexivity. Qed.
Definition disk1 : fsys := snd (together [job1; job2] (by_turns 12) both_fs).
Definition disk2 : fsys := snd (together [job2] (List.repeat 0 250) disk1).
Definition disk3 : fsys := snd (together [job1] (List.repeat 0 250) disk2).
Definition missing {A} (o : option A) : bool := match o with Some _ => false | None => true end.
Definition same_text (a b : fsys) (q : string) : bool := match fs_file a q, fs_file b q with Some (Text s), Some (Text t) => String.eqb s t | _, _ => false end.
Lemma three_rounds (a b : job) fs s1 s2 s3 d1 d2 d3 : d1 = snd (together [a; b] s1 fs) -> d2 = snd (together [b] s2 d1) -> d3 = snd (together [a] s3 d2) ->
  (exists r, ended_with (together [b] s2 d1) 0 r) -> (exists r, ended_with (together [a] s3 d2) 0 r) -> exists fin, rounds [a; b] fs fin d3 /\ forall j, In j [a; b] -> fin j.
Proof.
  intros -> -> -> (r & Hb) (r' & Ha). eexists. split.
  - eapply (one_round [a; b] fs _ _ [a] [b]); [|apply Permutation_refl]. eapply (one_round [a; b] fs _ _ [b] [a]); [|apply perm_swap]. apply (one_round [a; b] fs _ _ [a; b] [] s1 (no_round _ _)). apply Permutation_refl.
  - intros j [<-|[<-|[]]]; cbv beta; [left; exists 0, r'; split; [reflexivity|exact Ha]|right]. split; [left; reflexivity|]. left. exists 0, r. split; [reflexivity|exact Hb].
Qed.
Example C108_example : startable [job1; job2] both_fs /\
  (outcome (together [job1; job2] (by_turns 12) both_fs) 0 = None /\ outcome (together [job1; job2] (by_turns 12) both_fs) 1 = None /\
   (exists s, fs_file disk1 "out/PER_SS.sp.a.pkl" = Some (Text s)) /\ same_text disk1 disk2 "out/SIMS.pairs.a.dot_prod" = false) /\
  exists fin, rounds [job1; job2] both_fs fin disk3 /\ (forall j, In j [job1; job2] -> fin j) /\ one_by_one [job1; job2] both_fs = Ok disk3.
Proof.
  pose proof both_startable as S0. rewrite both_two in S0.
  split; [exact S0|]. split.
  - split; [vm_compute; reflexivity|]. split; [vm_compute; reflexivity|]. split; [|vm_compute; reflexivity].
    assert (Q : match fs_file disk1 "out/PER_SS.sp.a.pkl" with Some (Text _) => true | _ => false end = true) by (vm_compute; reflexivity).
    destruct (fs_file disk1 "out/PER_SS.sp.a.pkl") as [[s|o]|]; [exists s; reflexivity|discriminate Q..].
  - assert (E1 : disk1 = snd (together [job1; job2] (by_turns 12) both_fs)) by (unfold disk1; reflexivity).
    assert (E2 : disk2 = snd (together [job2] (List.repeat 0 250) disk1)) by (unfold disk2; reflexivity).
    assert (E3 : disk3 = snd (together [job1] (List.repeat 0 250) disk2)) by (unfold disk3; reflexivity).
    destruct (three_rounds job1 job2 both_fs (by_turns 12) (List.repeat 0 250) (List.repeat 0 250) disk1 disk2 disk3 E1 E2 E3) as (fin & R1 & Fin).
    + exists (Ok tt). apply outcome_ended. vm_compute. reflexivity.
    + exists (Ok tt). apply outcome_ended. vm_compute. reflexivity.
    + exists fin. split; [exact R1|]. split; [exact Fin|]. exact (C108_finished [job1; job2] both_fs fin disk3 [job1; job2] S0 R1 Fin (Permutation_refl _)).
Qed.
End Ex.
