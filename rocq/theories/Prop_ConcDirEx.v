(** Prop_ConcDirEx.v -- C97, C98: concrete cases with tools that work on a directory, and what happens when another tool writes into that directory. *)
From Coq Require Import Ascii Permutation.
From Verif Require Import Base PyList Dict Num Dense Sparse Matrix Scaling Linalg Operation Similarity Space Peripheral SpecSpace Learner Composition Utils LexFun Str PStr IO SpecIO PIO Prop_IO PExport Prop_Export Pipe SpecPipe SpecPipe2 PFiles PPipe PPipe2 PSave SpecPipe3 PPipe3 SpecCore PCore Prop_Core Prop_Sims Prop_Batch Prop_TrainPipe Crash SpecCrash PCrash PCrash2 PCrash3 PCrash4 PCrash5 Prop_Crash Prop_Crash2 Qio Prop_CrashEx Prop_Rerun SpecDir Conc PConc PConc2 SpecConc Prop_Conc Prop_RerunDir Prop_RerunDirEx.
Local Open Scope string_scope.
Local Open Scope list_scope.
Local Open Scope nat_scope.
Section Ex.
#[local] Existing Instance QNum.
#[local] Existing Instance Kio.
#[local] Existing Instance Dio.
Context {E : Ext}.
Ltac no_char := cbn; intros K; repeat (destruct K as [K|K]; [discriminate|]); exact K.
(** peripheral spaces and similarities from the same directory at the same time; the first with a log; the directories "out" and "logs" are there *)
Definition both_fs : fsys := FS (fs_file dir_fs) (fun q => fs_dir dir_fs q || String.eqb q "out" || String.eqb q "logs").
Definition both_jobs : list job :=
  [JLog "logs/per" (JPerDir "in/sp" "pkl" "out" (Some "dm") "cores" "a" false); JSimDir "in/pairs" ["1"; "2"] "out" ["dot_prod"; "none such"] "cores"].
Definition sort (c : ascii) (q : string) : Prop := exists r, q = ("out/" ++ String c r)%string /\ ~ In "/"%char (chars r).
Lemma sort_saved c r q : ~ In "/"%char (chars r) -> saved_target ("out/" ++ String c r) q -> sort c q.
Proof.
  intros H K. unfold saved_target, export_target in K. repeat destruct K as [K|K]; rewrite K; eexists; (split; [cbn; reflexivity|]); rewrite chars_app; intros Q; apply in_app_iff in Q; destruct Q as [Q|Q]; try contradiction; revert Q; apply no_slash_ext; cbn; auto 8.
Qed.
Lemma in_name nm x : file_name ("in/" ++ nm) x -> ~ In "/"%char (chars nm) -> x = nm.
Proof. intros H K. rewrite <- (base_name_file _ _ H). apply base_name_file. split; [exact K|]. right. exists "in". reflexivity. Qed.
Definition sort0 (c : ascii) (q : string) : Prop := sort c q \/ (c = "P"%char /\ q = "logs/per").
Lemma both_per q : writes (nth 0 both_jobs (JNeigh "" 0 "" "" [])) q -> sort0 "P" q.
Proof.
  cbn [nth both_jobs writes]. intros [-> |(nm & x & H1 & H2 & H3)]; [right; auto|left]. apply (in_name "sp") in H1; [|no_char]. subst nm. refine (sort_saved "P" ("ER_SS.sp." ++ x) q _ H3).
  rewrite chars_app. intros Q. apply in_app_iff in Q. destruct Q as [Q|Q]; [|exact (H2 Q)]. revert Q. no_char.
Qed.
Lemma both_sim q : writes (nth 1 both_jobs (JNeigh "" 0 "" "" [])) q -> sort0 "S" q.
Proof.
  cbn [nth both_jobs writes]. intros (nm & x & m & sim & H1 & H2 & H3 & H4 & ->). apply (in_name "pairs") in H1; [|no_char]. subst nm. left. exists ("IMS.pairs." ++ x ++ "." ++ m)%string. split; [reflexivity|].
  rewrite !chars_app. intros Q. rewrite !in_app_iff in Q. destruct Q as [Q|[Q|[Q|Q]]]; [revert Q; no_char|exact (H2 Q)|revert Q; no_char|exact (measure_noslash _ _ H4 Q)].
Qed.
Definition mark2 (i : nat) : ascii := match i with 0 => "P" | _ => "S" end%char.
Lemma both_writes i j q : nth_error both_jobs i = Some j -> writes j q -> sort0 (mark2 i) q /\ i < 2.
Proof.
  intros H K. destruct i as [|[|i]]; [| |destruct i; discriminate]; cbn [both_jobs nth_error] in H; assert (L := f_equal (fun x => match x with Some y => y | None => j end) H); cbv beta iota in L; subst j; (split; [|lia]); [exact (both_per q K)|exact (both_sim q K)].
Qed.
Lemma cores_reads q : in_directory "cores" q -> exists r, q = ("cores" ++ r)%string.
Proof.
  intros [-> |(dir & f & Hd & _ & ->)]; [exists ""; reflexivity|]. assert (dir = "cores/") by (apply with_slash_iff in Hd; rewrite <- Hd; vm_compute; reflexivity). subst dir. exists ("/" ++ f)%string. reflexivity.
Qed.
Lemma both_reads i j q : nth_error both_jobs i = Some j -> reads j q -> (exists r, q = ("in" ++ r)%string) \/ (exists r, q = ("cores" ++ r)%string).
Proof.
  intros H K. destruct i as [|[|i]]; [| |destruct i; discriminate]; cbn [both_jobs nth_error] in H; assert (L := f_equal (fun x => match x with Some y => y | None => j end) H); cbv beta iota in L; subst j; cbn [reads] in K; destruct K as [K|K]; try (right; exact (cores_reads q K)).
  - cbn in K. left. repeat destruct K as [K|K]; try contradiction; subst q; eexists; reflexivity.
  - left. subst q. eexists. reflexivity.
Qed.
Lemma both_listing j : In j both_jobs -> listing j.
Proof. intros [<-|[<-|[]]] dir _; apply dio_steady. Qed.
Lemma both_ready j : In j both_jobs -> ready both_fs j.
Proof.
  intros Hj. split; [apply both_listing, Hj|]. intros q Hq. apply In_nth_error in Hj. destruct Hj as (i & Hi). destruct (both_writes i j q Hi Hq) as ([(r & -> & Hr)|(_ & ->)] & Hl); [|split; [discriminate|reflexivity]].
  replace ("out/" ++ String (mark2 i) r)%string with ("out/" ++ (String (mark2 i) r))%string by reflexivity.
  rewrite dirname_app; [split; [discriminate|reflexivity]|]. cbn [chars list_ascii_of_string]. intros [Q|Q]; [|exact (Hr Q)]. destruct i as [|i]; discriminate.
Qed.
Lemma both_apart : apart both_jobs.
Proof.
  intros i k a b q Ha Hb Hik Hw. destruct (both_writes i a q Ha Hw) as ([(r & -> & _)|(Hc & ->)] & Li); split.
  - intros K. destruct (both_reads k b _ Hb K) as [(r' & Hr')|(r' & Hr')]; discriminate.
  - intros K. destruct (both_writes k b _ Hb K) as ([(r' & Hr' & _)|(_ & Hr')] & Lk); [|discriminate]. destruct i as [|[|i]], k as [|[|k]]; try lia; discriminate.
  - intros K. destruct (both_reads k b _ Hb K) as [(r' & Hr')|(r' & Hr')]; discriminate.
  - intros K. destruct (both_writes k b _ Hb K) as ([(r' & Hr' & _)|(Hk & _)] & Lk); [discriminate|]. destruct i as [|[|i]], k as [|[|k]]; try lia; discriminate.
Qed.
Definition by_turns (n : nat) : list nat := List.concat (List.repeat [0; 1] n).
Definition outcome (st : list (prog unit) * fsys) (i : nat) : option (res unit) := match nth_error (fst st) i with Some P => ended P | None => None end.
Lemma outcome_ended st i r : outcome st i = Some r -> ended_with st i r.
Proof. unfold outcome. destruct (nth_error (fst st) i) as [P|] eqn:Ep; [|discriminate]. intros H. exists P. auto. Qed.
Example C97_directory_example : (forall j, In j both_jobs -> ready both_fs j) /\ apart both_jobs /\ (forall j, In j both_jobs -> exists fs', tool j both_fs = Ok fs') /\
  (forall i, i < 2 -> ended_with (together both_jobs (by_turns 250) both_fs) i (Ok tt)) /\
  fs_file (snd (together both_jobs (by_turns 250) both_fs)) "out/PER_SS.sp.a.pkl" <> None /\ fs_file (snd (together both_jobs (by_turns 250) both_fs)) "out/SIMS.pairs.a.dot_prod" <> None /\ fs_file (snd (together both_jobs (by_turns 250) both_fs)) "logs/per" <> None.
Proof.
  split; [exact both_ready|]. split; [exact both_apart|]. split; [|split; [|split; [|split]]].
  - intros j Hj. apply ok_some. destruct Hj as [<-|[<-|[]]]; vm_compute; reflexivity.
  - intros i Hi. apply outcome_ended. destruct i as [|[|i]]; [vm_compute; reflexivity..|lia].
  - assert (Q : match fs_file (snd (together both_jobs (by_turns 250) both_fs)) "out/PER_SS.sp.a.pkl" with Some _ => true | None => false end = true) by (vm_compute; reflexivity). intros Z. rewrite Z in Q. discriminate Q.
  - assert (Q : match fs_file (snd (together both_jobs (by_turns 250) both_fs)) "out/SIMS.pairs.a.dot_prod" with Some _ => true | None => false end = true) by (vm_compute; reflexivity). intros Z. rewrite Z in Q. discriminate Q.
  - assert (Q : match fs_file (snd (together both_jobs (by_turns 250) both_fs)) "logs/per" with Some _ => true | None => false end = true) by (vm_compute; reflexivity). intros Z. rewrite Z in Q. discriminate Q.
Qed.
(** a tool that writes into the directory another one lists: the peripheral spaces are built into the directory of the core spaces while similarities are computed for it.
    Alone, the second job gives one file of similarities; started after the first, it gives a second one, for the new space; no longer is every schedule the same *)
Definition close_jobs : list job :=
  [JPerDir "in/sp" "pkl" "cores" None "cores" "a" false; JSimDir "in/pairs" ["1"; "2"] "out" ["dot_prod"] "cores"].
Example C97_directory_boundary : exists fs', tool (nth 1 close_jobs (JNeigh "" 0 "" "" [])) both_fs = Ok fs' /\ fs_file fs' "out/SIMS.pairs.PER_SS.sp.a.dot_prod" = None /\
  ended_with (together close_jobs (List.repeat 0 400 ++ List.repeat 1 400) both_fs) 1 (Ok tt) /\
  fs_file (snd (together close_jobs (List.repeat 0 400 ++ List.repeat 1 400) both_fs)) "out/SIMS.pairs.PER_SS.sp.a.dot_prod" <> None.
Proof.
  assert (Q : match tool (nth 1 close_jobs (JNeigh "" 0 "" "" [])) both_fs with Ok fs' => match fs_file fs' "out/SIMS.pairs.PER_SS.sp.a.dot_prod" with Some _ => false | None => true end | Err _ => false end = true) by (vm_compute; reflexivity).
  destruct (tool (nth 1 close_jobs (JNeigh "" 0 "" "" [])) both_fs) as [fs'|]; [|discriminate Q]. exists fs'. split; [reflexivity|]. split; [destruct (fs_file fs' _); [discriminate Q|reflexivity]|]. split.
  - apply outcome_ended. vm_compute. reflexivity.
  - assert (Z : match fs_file (snd (together close_jobs (List.repeat 0 400 ++ List.repeat 1 400) both_fs)) "out/SIMS.pairs.PER_SS.sp.a.dot_prod" with Some _ => true | None => false end = true) by (vm_compute; reflexivity). intros K. rewrite K in Z. discriminate Z.
Qed.
End Ex.
