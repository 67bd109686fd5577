(** Prop_ConcEx.v -- C97: concrete cases over the rationals, and what happens when the output directory is not there. *)
From Coq Require Import Ascii Permutation.
From Verif Require Import Base PyList Dict Num Dense Sparse Matrix Scaling Linalg Operation Similarity Space Peripheral SpecSpace Learner Composition Utils LexFun Str PStr IO SpecIO PIO Prop_IO PExport Prop_Export Pipe SpecPipe SpecPipe2 PFiles PPipe PPipe2 PSave SpecPipe3 PPipe3 SpecCore PCore Prop_Core Prop_Sims Prop_Batch Prop_TrainPipe Crash SpecCrash PCrash PCrash2 PCrash3 PCrash4 PCrash5 Prop_Crash Prop_Crash2 Qio Pio Prop_CrashEx Prop_Rerun Prop_RerunEx SpecDir Conc PConc PConc2 SpecConc Prop_Conc.
Local Open Scope string_scope.
Local Open Scope list_scope.
Local Open Scope nat_scope.
Section Ex.
#[local] Existing Instance QNum.
#[local] Existing Instance Kio.
Context {E : Ext}.
(** a core space, similarities and neighbours at the same time; the directory "out" is there *)
Definition busy_fs : fsys := FS (fs_file tools_fs) (fun q => String.eqb q "in" || String.eqb q "out").
Definition busy_jobs : list job :=
  [JCore "in/sp" "pkl" "out" (Some "dm") [None] [None; Some "top_sum_1"] [None] [None] false;
   JSim "in/pairs" ["1"; "2"] "out" ["cos"; "dot_prod"] ["in/sp.pkl"];
   JNeigh "in/words" 2 "out" "cos" ["in/sp.pkl"]].
Definition kind (c : ascii) (q : string) : Prop := exists r, q = ("out/" ++ String c r)%string /\ ~ In "/"%char (chars r).
Lemma saved_kind c r q : ~ In "/"%char (chars r) -> saved_target ("out/" ++ String c r) q -> kind c q.
Proof.
  intros H K. unfold saved_target, export_target in K. repeat destruct K as [K|K]; rewrite K; eexists; (split; [cbn; reflexivity|]); rewrite chars_app; intros Q; apply in_app_iff in Q; destruct Q as [Q|Q]; try contradiction; revert Q; apply no_slash_ext; cbn; auto 8.
Qed.
Ltac no_slash := cbn; intros Q; repeat (destruct Q as [Q|Q]; [discriminate|]); exact Q.
Lemma name_in nm x : file_name ("in/" ++ nm) x -> ~ In "/"%char (chars nm) -> x = nm.
Proof.
  intros H K. rewrite <- (base_name_file _ _ H). apply base_name_file. split; [exact K|]. right. exists "in". reflexivity.
Qed.
Lemma busy_core q : writes (nth 0 busy_jobs (JNeigh "" 0 "" "" [])) q -> kind "C" q.
Proof.
  cbn [nth busy_jobs writes]. intros (nm & [[[w x] r] n] & H1 & (Hw & Hx & Hr & Hn) & H2). apply (name_in "sp") in H1; [|no_slash]. subst nm. cbn in Hw, Hx, Hr, Hn.
  destruct Hw as [<-|[]], Hr as [<-|[]], Hn as [<-|[]], Hx as [<-|[<-|[]]]; cbn [core_file shown] in H2.
  - refine (saved_kind "C" "ORE_SS.sp" q _ H2). no_slash.
  - refine (saved_kind "C" "ORE_SS.sp.top_sum_1" q _ H2). no_slash.
Qed.
Lemma stem_sp x : stem_of "in/sp.pkl" x -> x = "sp".
Proof. intros H. rewrite <- (stem_eq _ _ H). reflexivity. Qed.
Lemma described_sp d : described ["in/sp.pkl"] d -> d = "sp".
Proof. intros H. inversion H; subst; apply stem_sp; assumption. Qed.
Lemma busy_sim q : writes (nth 1 busy_jobs (JNeigh "" 0 "" "" [])) q -> kind "S" q.
Proof.
  cbn [nth busy_jobs writes]. intros (nm & d & m & sim & H1 & H2 & H3 & _ & ->). apply (name_in "pairs") in H1; [|no_slash]. apply described_sp in H2. subst. destruct H3 as [<-|[<-|[]]]; eexists; (split; [reflexivity|no_slash]).
Qed.
Lemma busy_neigh q : writes (nth 2 busy_jobs (JNeigh "" 0 "" "" [])) q -> kind "N" q.
Proof.
  cbn [nth busy_jobs writes]. intros (nm & d & H1 & H2 & ->). apply (name_in "words") in H1; [|no_slash]. apply described_sp in H2. subst. eexists. split; [reflexivity|no_slash].
Qed.
Definition mark (i : nat) : ascii := match i with 0 => "C" | 1 => "S" | _ => "N" end%char.
Lemma busy_writes i j q : nth_error busy_jobs i = Some j -> writes j q -> kind (mark i) q /\ i < 3.
Proof.
  intros H K. destruct i as [|[|[|i]]]; [| | |destruct i; discriminate]; cbn [busy_jobs nth_error] in H; assert (L := f_equal (fun x => match x with Some y => y | None => j end) H); cbv beta iota in L; subst j; (split; [|lia]); [exact (busy_core q K)|exact (busy_sim q K)|exact (busy_neigh q K)].
Qed.
Lemma busy_reads i j q : nth_error busy_jobs i = Some j -> reads j q -> exists r, q = ("in" ++ r)%string.
Proof.
  intros H K. destruct i as [|[|[|i]]]; [| | |destruct i; discriminate]; cbn [busy_jobs nth_error] in H; assert (L := f_equal (fun x => match x with Some y => y | None => j end) H); cbv beta iota in L; subst j; cbn in K; repeat destruct K as [K|K]; try contradiction; subst q; eexists; reflexivity.
Qed.
Lemma busy_ready j : In j busy_jobs -> ready busy_fs j.
Proof.
  intros Hj. split; [destruct Hj as [<-|[<-|[<-|[]]]]; exact Logic.I|]. intros q Hq. apply In_nth_error in Hj. destruct Hj as (i & Hi). destruct (busy_writes i j q Hi Hq) as ((r & -> & Hr) & Hl).
  replace ("out/" ++ String (mark i) r)%string with ("out/" ++ (String (mark i) r))%string by reflexivity.
  rewrite dirname_app; [split; [discriminate|reflexivity]|]. cbn [chars list_ascii_of_string]. intros [Q|Q]; [|exact (Hr Q)]. destruct i as [|[|i]]; discriminate.
Qed.
Lemma busy_apart : apart busy_jobs.
Proof.
  intros i k a b q Ha Hb Hik Hw. destruct (busy_writes i a q Ha Hw) as ((r & -> & _) & Li). split.
  - intros K. destruct (busy_reads k b _ Hb K) as (r' & Hr'). discriminate.
  - intros K. destruct (busy_writes k b _ Hb K) as ((r' & Hr' & _) & Lk). destruct i as [|[|[|i]]], k as [|[|[|k]]]; try lia; discriminate.
Qed.
(** the jobs succeed alone; under a schedule that takes turns, all end, with the files each makes alone *)
Definition taking_turns (n : nat) : list nat := List.concat (List.repeat [0; 1; 2] n).
Definition result_at (st : list (prog unit) * fsys) (i : nat) : option (res unit) := match nth_error (fst st) i with Some P => ended P | None => None end.
Lemma result_ended st i r : result_at st i = Some r -> ended_with st i r.
Proof. unfold result_at. destruct (nth_error (fst st) i) as [P|] eqn:Ep; [|discriminate]. intros H. exists P. auto. Qed.
Example C97_example : (forall j, In j busy_jobs -> ready busy_fs j) /\ apart busy_jobs /\ (forall j, In j busy_jobs -> exists fs', tool j busy_fs = Ok fs') /\
  (forall i, i < 3 -> ended_with (together busy_jobs (taking_turns 250) busy_fs) i (Ok tt)) /\
  text_at (snd (together busy_jobs (taking_turns 250) busy_fs)) "out/SIMS.pairs.sp.dot_prod" ("car dog 4.0 0.0" ++ nl ++ "pen dog 2 0.0" ++ nl).
Proof.
  split; [exact busy_ready|]. split; [exact busy_apart|]. split; [|split].
  - intros j Hj. apply done_ok. destruct Hj as [<-|[<-|[<-|[]]]]; vm_compute; reflexivity.
  - intros i Hi. apply result_ended. destruct i as [|[|[|i]]]; [vm_compute; reflexivity..|lia].
  - vm_compute. reflexivity.
Qed.
End Ex.
