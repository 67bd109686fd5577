(** Prop_Race2.v -- C98, continued: after a lost race, running the jobs that failed once more, in any order, leaves the files that running all jobs one after the other leaves. *)
From Coq Require Import Ascii Permutation FunctionalExtensionality.
From Verif Require Import Base PyList Dict Num Dense Sparse Matrix Scaling Linalg Operation Similarity Space Peripheral SpecSpace Learner Composition Utils LexFun Str PStr IO SpecIO PIO Prop_IO PExport Prop_Export Pipe SpecPipe SpecPipe2 PFiles PPipe PPipe2 PSave SpecPipe3 PPipe3 SpecCore PCore Prop_Core Prop_Sims Prop_Batch Prop_TrainPipe Crash SpecCrash PCrash PCrash2 PCrash3 PCrash4 PCrash5 Prop_Crash Prop_Crash2 Qio Pio Prop_CrashEx Prop_Rerun Prop_RerunEx SpecDir Conc PConc PConc2 SpecConc Prop_Conc Prop_ConcEx PRace PRace2 Prop_Race.
Local Open Scope string_scope.
Local Open Scope list_scope.
Local Open Scope nat_scope.
Section Race2.
Context {N : Num} {E : Ext} {FI : FloatIO} {PI : PipeIO} {KI : PickleIO}.
(** jobs that are confined to their files on the disk [v], one after the other *)
Lemma serial1 v : forall js g, apart js -> fs_dir g = fs_dir v ->
  (forall j, In j js -> confined (fs_dir v) (uses j) (writes j) (program j) /\ same_on (uses j) g v /\ snd (alone (program j) v) = Ok tt) ->
  exists g', one_by_one js g = Ok g' /\
    (forall j q, In j js -> writes j q -> fs_file g' q = fs_file (replay v (fst (alone (program j) v))) q) /\
    (forall q, (forall j, In j js -> ~ writes j q) -> fs_file g' q = fs_file g q).
Proof.
  induction js as [|a js IH]; intros g A D H.
  - exists g. split; [reflexivity|]. split; [intros j q []|reflexivity].
  - destruct (H a (or_introl eq_refl)) as (Ca & Sa & T1).
    pose proof (alone_same _ _ _ _ g v Ca D eq_refl Sa) as Eg. set (l := fst (alone (program a) v)) in *.
    assert (Tg : tool a g = Ok (replay g l)) by (apply tool_ok; rewrite Eg; split; [exact T1|reflexivity]).
    assert (Fl : Forall (event_in (writes a)) l) by (apply (alone_events _ _ _ _ v Ca eq_refl)).
    destruct (IH (replay g l)) as (g' & I1 & I3 & I4).
    + exact (apart_tail _ _ A).
    + rewrite (events_dirs (writes a)) by exact Fl. exact D.
    + intros j Hj. destruct (H j (or_intror Hj)) as (R1 & R2 & R3). split; [exact R1|]. split; [|exact R3]. intros q Hq. rewrite (events_else (writes a)); [apply R2, Hq|exact Fl|].
      intros Hw. apply In_nth_error in Hj. destruct Hj as (k & Hk). destruct (A 0 (S k) a j q eq_refl Hk (Nat.neq_0_succ k) Hw) as (N1 & N2). destruct Hq; contradiction.
    + exists g'. split; [|split].
      * unfold one_by_one in *. cbn [foldM]. rewrite Tg. exact I1.
      * intros j q [<-|Hj] Hw; [|exact (I3 j q Hj Hw)]. rewrite I4.
        { apply (replay_same (uses a) l g v Sa q). right. exact Hw. }
        intros j Hj Hw'. apply In_nth_error in Hj. destruct Hj as (k & Hk). destruct (A 0 (S k) a j q eq_refl Hk (Nat.neq_0_succ k) Hw) as (_ & N2). contradiction.
      * intros q Hq. rewrite I4 by (intros j Hj; apply Hq; right; exact Hj). apply (events_else (writes a)); [exact Fl|]. apply Hq. left. reflexivity.
Qed.
(** the same on a disk without the directory *)
Lemma serial0 js fs d : new_dir fs d -> into d js -> apart js -> (forall j, In j js -> exists fs', tool j fs = Ok fs') ->
  exists g', one_by_one js fs = Ok g' /\
    (forall j q fs', In j js -> writes j q -> tool j fs = Ok fs' -> fs_file g' q = fs_file fs' q) /\
    (forall q, (forall j, In j js -> ~ writes j q) -> fs_file g' q = fs_file fs q).
Proof.
  intros Hn Hi Ha Ht. destruct (new_split fs d Hn) as (h & N1 & N2 & N3 & N4 & N5 & _).
  assert (B : forall j, In j js -> both d (fs_dir fs) (uses j) (writes j) (program j)) by (intros j Hj; apply (job_both d (fs_dir fs) j N3); apply (Hi j Hj)).
  assert (Al : forall j, In j js -> snd (alone (program j) fs) = Ok tt) by (intros j Hj; destruct (Ht j Hj) as (fs' & T); apply tool_ok in T; apply T).
  assert (Fi : forall j fs', In j js -> tool j fs = Ok fs' -> fs' = replay fs (fst (alone (program j) fs))) by (intros j fs' Hj T; apply tool_ok in T; apply T).
  clear Ht. induction js as [|a js IH].
  - exists fs. split; [reflexivity|]. split; [intros j q fs' []|reflexivity].
  - assert (Ba := B a (or_introl eq_refl)). assert (Ala := Al a (or_introl eq_refl)).
    assert (Ea : early d (fs_dir fs) (uses a) (writes a) (program a)) by apply Ba. assert (Ca : confined (dirs1 d (fs_dir fs)) (uses a) (writes a) (program a)) by apply Ba.
    pose proof (Fi a) as Fa.
    assert (Tools : forall j, In j js -> snd (alone (program j) (with_dir d fs)) = Ok tt /\ forall q, fs_file (replay (with_dir d fs) (fst (alone (program j) (with_dir d fs)))) q = fs_file (replay fs (fst (alone (program j) fs))) q).
    { intros j Hj. destruct (alone_with d h fs N1 N2 N3 N4 N5 (uses j) (writes j) (program j)) as (S1 & S2); [apply (B j (or_intror Hj))|]. split; [rewrite S1; apply (Al j (or_intror Hj))|exact S2]. }
    destruct (alone_early d h fs N1 N2 N3 N4 N5 _ _ _ Ea) as [(H1 & H2)|H1].
    + (* it writes nothing *)
      assert (Tg : tool a fs = Ok fs) by (apply tool_ok; split; [exact Ala|rewrite H2; reflexivity]).
      destruct IH as (g' & I1 & I2 & I3).
      * intros j Hj. apply Hi. right. exact Hj.
      * exact (apart_tail _ _ Ha).
      * intros j Hj. apply B. right. exact Hj.
      * intros j Hj. apply Al. right. exact Hj.
      * intros j fs' Hj. apply Fi. right. exact Hj.
      * exists g'. split; [|split].
        { unfold one_by_one in *. cbn [foldM]. rewrite Tg. exact I1. }
        { intros j q fs' [<-|Hj] Hw T; [|exact (I2 j q fs' Hj Hw T)]. assert (fs' = fs) by congruence. subst fs'. apply I3. intros j Hj Hw'. apply In_nth_error in Hj. destruct Hj as (k & Hk). destruct (Ha 0 (S k) a j q eq_refl Hk (Nat.neq_0_succ k) Hw) as (_ & NN). contradiction. }
        { intros q Hq. apply I3. intros j Hj. apply Hq. right. exact Hj. }
    + (* it makes the directory *)
      set (v := with_dir d fs) in *. set (l := fst (alone (program a) v)) in *.
      assert (Tg : tool a fs = Ok (replay v l)) by (apply tool_ok; split; [exact Ala|rewrite H1; reflexivity]).
      assert (Fl : Forall (event_in (writes a)) l) by (apply (alone_events _ _ _ _ v Ca eq_refl)).
      destruct (serial1 v js (replay v l)) as (g' & I1 & I2 & I3).
      * exact (apart_tail _ _ Ha).
      * apply (events_dirs (writes a)), Fl.
      * intros j Hj. split; [apply (B j (or_intror Hj))|]. split; [|apply Tools, Hj]. intros q Hq. apply (events_else (writes a)); [exact Fl|]. intros Hw. apply In_nth_error in Hj. destruct Hj as (k & Hk). destruct (Ha 0 (S k) a j q eq_refl Hk (Nat.neq_0_succ k) Hw) as (M1 & M2). destruct Hq; contradiction.
      * exists g'. split; [|split].
        { unfold one_by_one in *. cbn [foldM]. rewrite Tg. exact I1. }
        { intros j q fs' [<-|Hj] Hw T.
          - assert (fs' = replay v l) by congruence. subst fs'. apply I3. intros j Hj Hw'. apply In_nth_error in Hj. destruct Hj as (k & Hk). destruct (Ha 0 (S k) a j q eq_refl Hk (Nat.neq_0_succ k) Hw) as (_ & NN). contradiction.
          - rewrite (Fi j fs' (or_intror Hj) T), (I2 j q Hj Hw). apply Tools, Hj. }
        { intros q Hq. rewrite I3 by (intros j Hj; apply Hq; right; exact Hj). rewrite (events_else (writes a)); [reflexivity|exact Fl|]. apply Hq. left. reflexivity. }
Qed.
(** ** running the losers again *)
(** [again] are the jobs that have ended with an error, [idx] being their numbers: each is run once more, in this order *)
Theorem C98_repair js fs d sched idx again : new_dir fs d -> into d js -> apart js -> (forall j, In j js -> exists fs', tool j fs = Ok fs') ->
  (forall i j, nth_error js i = Some j -> exists r, ended_with (together js sched fs) i r) ->
  NoDup idx -> (forall i, In i idx <-> exists e, ended_with (together js sched fs) i (Err e)) -> Forall2 (fun i j => nth_error js i = Some j) idx again ->
  exists fs1 fs2, one_by_one js fs = Ok fs1 /\ one_by_one again (snd (together js sched fs)) = Ok fs2 /\
    (forall j q, In j js -> writes j q -> fs_file fs2 q = fs_file fs1 q) /\ (forall q, (forall j, In j js -> ~ writes j q) -> fs_file fs2 q = fs_file fs1 q).
Proof.
  intros Hn Hi Ha Ht He Hd Hx Hf. destruct (serial0 js fs d Hn Hi Ha Ht) as (fs1 & O1 & O2 & O3). exists fs1.
  pose proof (C98_partial js fs d sched Hn Hi Ha) as (P1 & P2). destruct (race js fs d Hn Hi Ha) as (h & R & S & C). destruct (R sched) as [R1 R2 _ _ _]. set (g := snd (together js sched fs)) in *.
  assert (Nth : forall k i, nth_error idx k = Some i -> exists j, nth_error again k = Some j /\ nth_error js i = Some j).
  { clear - Hf. induction Hf as [|i j idx again H Hf IH]; intros k i' Hk; [destruct k; discriminate|]. destruct k as [|k]; cbn in Hk |- *; [exists j; split; [reflexivity|congruence]|apply IH, Hk]. }
  assert (Nth' : forall k j, nth_error again k = Some j -> exists i, nth_error idx k = Some i /\ nth_error js i = Some j).
  { clear - Hf. induction Hf as [|i j idx again H Hf IH]; intros k j' Hk; [destruct k; discriminate|]. destruct k as [|k]; cbn in Hk |- *; [exists i; split; [reflexivity|congruence]|apply IH, Hk]. }
  assert (Loser : forall i j, In i idx -> nth_error js i = Some j -> fs_dir g = dirs1 d (fs_dir fs) /\ same_on (uses j) g (with_dir d fs) /\ snd (alone (program j) (with_dir d fs)) = Ok tt).
  { intros i j Hin Hj. apply Hx in Hin. destruct Hin as (e & P & HP & HE). destruct (R1 i j Hj) as (Q & HQ & HR). assert (Q = P) by congruence. subst Q. pose proof (nth_error_In _ _ Hj) as Hjn. destruct (S j Hjn) as (S1 & _). destruct (Ht j Hjn) as (fs' & T). apply tool_ok in T. destruct T as (T & _).
    destruct (rel_end _ _ _ _ _ _ _ _ _ _ _ HR HE) as [(Er & _)|(_ & Ed & Es)]; [rewrite S1, T in Er; discriminate|]. split; [exact Ed|]. split; [exact Es|]. rewrite S1. exact T. }
  assert (Again : exists g', one_by_one again g = Ok g' /\ (forall j q, In j again -> writes j q -> fs_file g' q = fs_file (replay (with_dir d fs) (fst (alone (program j) (with_dir d fs)))) q) /\ (forall q, (forall j, In j again -> ~ writes j q) -> fs_file g' q = fs_file g q)).
  { destruct again as [|a0 again'] eqn:Ea; [exists g; split; [reflexivity|split; [intros j q []|reflexivity]]|]. rewrite <- Ea in *. apply serial1.
    - intros k k' a b q Hka Hkb Hne. destruct (Nth' k a Hka) as (i & Hii & Hja). destruct (Nth' k' b Hkb) as (i' & Hii' & Hjb). apply (Ha i i' a b q Hja Hjb). intros ->. apply Hne. apply (proj1 (NoDup_nth_error idx) Hd); [apply nth_error_Some; congruence|congruence].
    - destruct (Nth' 0 a0) as (i & Hii & Hja); [rewrite Ea; reflexivity|]. apply (Loser i a0 (nth_error_In _ _ Hii) Hja).
    - intros j Hj. apply In_nth_error in Hj. destruct Hj as (k & Hk). destruct (Nth' k j Hk) as (i & Hii & Hja). destruct (Loser i j (nth_error_In _ _ Hii) Hja) as (L1 & L2 & L3). split; [apply C; exact (nth_error_In _ _ Hja)|]. split; assumption. }
  destruct Again as (fs2 & A1 & A2 & A3). exists fs2. split; [exact O1|]. split; [exact A1|].
  assert (Sub : forall j, In j again -> In j js) by (intros j Hj; apply In_nth_error in Hj; destruct Hj as (k & Hk); destruct (Nth' k j Hk) as (i & _ & Hja); exact (nth_error_In _ _ Hja)).
  split.
  - intros j q Hj Hw. destruct (Ht j Hj) as (fs' & T). rewrite (O2 j q fs' Hj Hw T). destruct (In_nth_error _ _ Hj) as (i & Hij). destruct (He i j Hij) as (r & Hr). destruct r as [u|e].
    + rewrite A3.
      * destruct (P1 i j (Ok u) Hij Hr) as [(fs'' & T' & F)|(Q & _)]; [|discriminate]. assert (fs'' = fs') by congruence. subst fs''. exact (F q Hw).
      * intros b Hb Hwb. apply In_nth_error in Hb. destruct Hb as (k & Hk). destruct (Nth' k b Hk) as (i' & Hii' & Hib). destruct (Nat.eq_dec i i') as [<-|Hne].
        -- destruct (proj1 (Hx i) (nth_error_In _ _ Hii')) as (e & P & HP & HE). destruct Hr as (P' & HP' & HE'). congruence.
        -- destruct (Ha i i' j b q Hij Hib Hne Hw) as (_ & K). contradiction.
    + assert (Hin : In i idx) by (apply Hx; exists e; exact Hr). apply In_nth_error in Hin. destruct Hin as (k & Hk). destruct (Nth k i Hk) as (j' & Hk' & Hij'). assert (j' = j) by congruence. subst j'.
      rewrite (A2 j q (nth_error_In _ _ Hk') Hw). apply tool_ok in T. destruct T as (_ & ->). apply S, Hj.
  - intros q Hq. rewrite (O3 q Hq), A3 by (intros j Hj; apply Hq, Sub, Hj). apply P2, Hq.
Qed.
End Race2.
(** the schedule of C98_example: the first job is run again *)
Section Ex.
#[local] Existing Instance QNum.
#[local] Existing Instance Kio.
Context {E : Ext}.
Example C98_repair_example : exists fs1 fs2 j, nth_error busy_jobs 0 = Some j /\ one_by_one busy_jobs tools_fs = Ok fs1 /\ one_by_one [j] (snd (together busy_jobs lost_race tools_fs)) = Ok fs2 /\
  (forall j q, In j busy_jobs -> writes j q -> fs_file fs2 q = fs_file fs1 q).
Proof.
  destruct C98_example as (H1 & H2 & H3 & H4 & H5 & H6 & H7). destruct (nth_error busy_jobs 0) as [j|] eqn:Ej; [|discriminate].
  destruct (C98_repair busy_jobs tools_fs "out" lost_race [0] [j] H1 H2 H3 H4) as (fs1 & fs2 & A & B & C & _).
  - intros [|[|[|i]]] b Hb; [exists (Err OSError)|exists (Ok tt)|exists (Ok tt)|destruct i; discriminate]; assumption.
  - constructor; [intros []|constructor].
  - intros i. split; [intros [<-|[]]; exists OSError; exact H5|]. intros (e & P & HP & HE). destruct i as [|[|[|i]]]; [left; reflexivity| | |].
    + destruct H6 as (P' & HP' & HE'). congruence.
    + destruct H7 as (P' & HP' & HE'). congruence.
    + exfalso. destruct (race busy_jobs tools_fs "out" H1 H2 H3) as (h & R & _). destruct (R lost_race) as [_ R2 _ _ _]. rewrite (R2 (S (S (S i)))) in HP; [discriminate|]. destruct i; reflexivity.
  - constructor; [exact Ej|constructor].
  - exists fs1, fs2, j. split; [reflexivity|]. split; [exact A|]. split; [exact B|exact C].
Qed.
End Ex.
