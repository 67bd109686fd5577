(** Prop_Conc.v -- C97: tools that run at the same time. *)
From Coq Require Import Ascii FunctionalExtensionality Permutation.
From Verif Require Import Base PyList Dict Num Dense Sparse Matrix Scaling Linalg Operation Similarity Space Peripheral SpecSpace Learner Composition Utils LexFun Str PStr IO SpecIO PIO Prop_IO PExport Prop_Export Pipe SpecPipe SpecPipe2 PFiles PPipe PPipe2 PSave SpecPipe3 PPipe3 SpecCore PCore Prop_Core Prop_Sims Prop_Batch Prop_TrainPipe Crash SpecCrash PCrash PCrash2 PCrash3 PCrash4 PCrash5 Prop_Crash Prop_Rerun SpecDir Conc PConc PConc2 SpecConc.
Local Open Scope string_scope.
Local Open Scope list_scope.
Local Open Scope nat_scope.

Section Together.
Context {N : Num} {E : Ext} {FI : FloatIO} {PI : PipeIO} {KI : PickleIO}.

(** ** the programs are those of Crash.v, and these the tools of Pipe.v *)
Lemma job_refines j : refines (program j) (solo j).
Proof.
  induction j as [| | | | | | | |l j IH]; cbn [program solo]; [exact (r_build_spaces _ _ _ _ _ _ _ _ _)|exact (r_per_space _ _ _ _ _ _)|exact (r_train _ _ _ _ _ _ _ _ _ _ _)|exact (r_apply _ _ _ _ _ _ _ _ _)|exact (r_sim _ _ _ _ _)|exact (r_neighbours _ _ _ _ _)|exact (r_per_batch _ _ _ _ _ _ _)|exact (r_sim_batch _ _ _ _ _)|exact (refines_bind (p_log l) (fun fs => t_config_logging fs (Some l)) _ (solo j) (r_log l) IH)].
Qed.
Lemma job_same j fs : same (solo j fs) (tool j fs).
Proof.
  revert fs. induction j as [| | | | | | | |l j IH]; intros fs; cbn [tool solo]; [apply same_build_spaces|apply same_per_space|apply same_train_model|apply same_apply_model|apply same_compute_sim|apply same_compute_neighbours|apply same_per_batch|apply same_sim_batch|apply same_bind; [apply same_config_logging|intros fs1 _; apply IH]].
Qed.

(** ** what they use *)
Definition uses (j : job) (q : string) : Prop := reads j q \/ writes j q.
Lemma saved_ext out ext : In ext [".pkl"; ".dm"; ".sm"; ".rows"; ".cols"] -> saved_target out (out ++ ext).
Proof. intros He. unfold saved_target, export_target. cbn in He. repeat destruct He as [<-|He]; auto 6. destruct He. Qed.
Lemma c_load_input dirs (I W : string -> Prop) prefix fmt gz : (forall q, In q (input_files prefix fmt gz) -> I q) -> confined dirs I W (p_load_input prefix fmt gz).
Proof.
  intros H. unfold p_load_input, input_files in *. cbv zeta. apply c_pure. intros _ _. destruct (String.eqb_spec fmt "pkl") as [-> |Hf]; [apply c_load_space, H; left; reflexivity|].
  set (data := if gz then _ else _). assert (Hd : I data) by (apply H; left; unfold data; destruct gz; rewrite ?sapp_assoc; [reflexivity|]; rewrite sapp_nil; reflexivity). clearbody data.
  assert (Hr : I (prefix ++ ".rows")%string) by (apply H; right; left; reflexivity). assert (Hc : I (prefix ++ ".cols")%string) by (apply H; right; right; left; reflexivity).
  apply c_bind; [apply c_exists, Hr|]. intros r. apply c_bind; [apply c_exists, Hc|]. intros c.
  destruct c; [|destruct (String.eqb fmt "sm"); [exact Logic.I|]]; cbn [pbind]; (apply c_build; [exact Hd| |]); intros p Hp; try discriminate; [destruct r; [|discriminate]|assert (p = prefix ++ ".cols")%string by congruence; subst p; exact Hc|destruct r; [|discriminate]]; assert (p = prefix ++ ".rows")%string by congruence; subst p; exact Hr.
Qed.
Lemma c_transform dirs (I W : string -> Prop) raw p out fmt core : I core -> (forall ext, In ext [".pkl"; ".dm"; ".sm"; ".rows"; ".cols"] -> W (per_file out (base_name p) (stem core) ++ ext)%string) ->
  has_dir dirs (per_file out (base_name p) (stem core) ++ ".pkl") -> confined dirs I W (p_transform_raw raw p out fmt core).
Proof.
  intros HI HW HD. unfold p_transform_raw. apply c_bind; [apply c_load_space, HI|]. intros cs. apply c_pure. intros s _. rewrite (per_file_eq _ _ _ _ (stem_of_stem core)).
  apply c_save_export; [exact HW|]. apply (proj1 (dir_ext dirs _ ".pkl" (or_introl eq_refl))), HD.
Qed.
Lemma c_compute_sim dirs (I W : string -> Prop) i cols out ms files : I i -> (forall g, In g files -> I g) ->
  (forall d m sim, described files d -> In m ms -> measure_named m sim -> W (result_file out "SIMS" (base_name i) d m) /\ has_dir dirs (result_file out "SIMS" (base_name i) d m)) ->
  confined dirs I W (p_compute_sim i cols out ms files).
Proof.
  intros Hi Hf Hw. unfold p_compute_sim. destruct cols as [|c0 [|c1 [|]]]; try exact Logic.I. apply c_pure. intros i0 _. apply c_pure. intros i1 _. apply c_pure. intros f1 Hf1.
  assert (F1 : In f1 files) by (destruct files as [|f0 fr]; [discriminate|]; cbn in Hf1; left; congruence).
  apply c_bind; [apply c_look; intros a b Ha Hb Hab; f_equal; exact (s_load_space dirs _ f1 (Hf f1 F1) a b Ha Hb Hab)|]. intros [s|e]; [|destruct e; exact Logic.I].
  apply c_bind; [apply c_load_second; exact Hf|]. intros s2. apply c_pure. intros descr Hd.
  destruct (described_ex files) as (d & Hde); [intros ->; destruct F1|]. rewrite (described_eq "SIMS" _ _ _ _ (file_name_base i) Hde) in Hd. assert (descr = "SIMS" ++ "." ++ base_name i ++ "." ++ d)%string by congruence. subst descr.
  apply c_fold. intros m Hm. unfold p_sim_measure. destruct (measure m) as [sim|] eqn:Em; [|exact Logic.I]. apply measure_iff in Em. cbv zeta.
  replace (out ++ "/" ++ ("SIMS" ++ "." ++ base_name i ++ "." ++ d) ++ "." ++ m)%string with (result_file out "SIMS" (base_name i) d m) by (unfold result_file; rewrite !sapp_assoc; reflexivity).
  destruct (Hw d m sim Hde Hm Em) as (Wr & Dr). apply c_bind; [apply c_parents; apply Dr|]. intros _. apply c_bind; [apply c_read_text, Hi|]. intros t. apply c_write, Wr.
Qed.
(** a directory is looked for and listed *)
Lemma c_listed dirs (I W : string -> Prop) in_dir (f : string -> prog unit) : (forall q, in_directory in_dir q -> I q) -> (forall dir, dir_slash in_dir dir -> lists_entries dir) ->
  (forall x, plain x -> confined dirs I W (f x)) ->
  confined dirs I W (pbind (p_exists in_dir) (fun b => pbind (pure (check b ValueError)) (fun _ => pbind (look (fun fs => Ok (listdir fs (with_slash in_dir)))) (fun l => p_fold f l)))).
Proof.
  intros HI HL HF. pose proof (proj1 (with_slash_iff in_dir _) eq_refl) as Hd. destruct (HL _ Hd) as (L1 & L2). apply c_bind; [apply c_exists, HI; left; reflexivity|]. intros b. apply c_pure. intros _ _.
  unfold look. cbn [pbind confined]. split.
  - intros x y Hx Hy Hxy. f_equal. apply L2. intros g Hg. unfold exists_. rewrite Hx, Hy, (Hxy (with_slash in_dir ++ g)%string); [reflexivity|]. apply HI. right. exists (with_slash in_dir), g. auto.
  - intros a l _ Hl. assert (l = listdir a (with_slash in_dir)) by congruence. subst l. apply c_fold. intros x Hx. apply HF. exact (L1 a x Hx).
Qed.
Lemma described_fun files a b : described files a -> described files b -> a = b.
Proof.
  intros H K. pose proof (described_eq "" "" "" _ _ (file_name_base "") H) as E1. rewrite (described_eq "" "" "" _ _ (file_name_base "") K) in E1.
  apply (sapp_inj ("" ++ "." ++ "" ++ ".")). rewrite !sapp_assoc. cbn [append]. cbn [append] in E1. congruence.
Qed.
(** an entry NAME.pkl of a directory *)
Lemma entry_pkl in_dir f : plain f -> ends_with f ".pkl" = true -> exists x, f = (x ++ ".pkl")%string /\ ~ In "/"%char (chars x) /\ stem (with_slash in_dir ++ f)%string = x /\ described [(with_slash in_dir ++ f)%string] x /\ in_directory in_dir (with_slash in_dir ++ f)%string.
Proof.
  intros (F0 & F1) Ee. apply ends_with_iff in Ee. destruct Ee as (x & ->). exists x. pose proof (proj1 (with_slash_iff in_dir _) eq_refl) as Hd. pose proof (dir_stem _ _ _ Hd F1) as St.
  split; [reflexivity|]. split; [intros Q; apply F1; rewrite chars_app; apply in_app_iff; left; exact Q|]. split; [apply stem_eq, St|]. split; [apply ds_one; [discriminate|exact St]|].
  right. exists (with_slash in_dir), (x ++ ".pkl")%string. repeat split; assumption.
Qed.
Lemma confined_weaken dirs (I W I' W' : string -> Prop) {A} (P : prog A) : (forall q, I q -> I' q) -> (forall q, W q -> W' q) -> confined dirs I W P -> confined dirs I' W' P.
Proof.
  intros HI HW. assert (S : forall X (f : fsys -> X), steady dirs I f -> steady dirs I' f) by (intros X f H a b Ha Hb Hab; apply H; [exact Ha|exact Hb|]; intros q Hq; apply Hab, HI, Hq).
  induction P as [a|e|X f k IH|f k IH]; cbn [confined]; intros H; try exact H.
  - destruct H as (H1 & H2). split; [apply S, H1|]. intros a x Ha Hx. exact (IH x (H2 a x Ha Hx)).
  - destruct H as (H1 & H2 & H3). split; [apply S, H1|]. split; [|exact (IH H3)]. intros a l Ha Hl. specialize (H2 a l Ha Hl). eapply Forall_impl; [|exact H2]. intros e. destruct e; cbn; auto.
Qed.
Definition unlogged (j : job) : Prop := match j with JLog _ _ => False | _ => True end.
Lemma core_confined fs j : unlogged j -> ready fs j -> confined (fs_dir fs) (reads j) (writes j) (program j).
Proof.
  intros U R. destruct R as (Ls & R). assert (D : forall q, writes j q -> has_dir (fs_dir fs) q) by exact R. clear R. revert Ls D. set (dirs := fs_dir fs). clearbody dirs.
  destruct j as [p f out fmt ws xs rs ns gz|p f out fmt core gz|i out model files ph reg cv icpt param range ex|i out model trained files al be la fmt|i cols out ms files|i k out m files|p f out fmt cd flt gz|i cols out ms ind|l j]; intros Ls D; cbn [program]; [ | | | | | | | |destruct U].
  - unfold p_build_spaces. apply c_bind; [apply c_load_input; intros q Hq; exact Hq|]. intros s. unfold p_combinations. apply c_fold. intros w Hw. apply c_pure. intros a _. apply c_fold. intros x Hx. apply c_pure. intros b _.
    apply c_fold. intros r Hr. apply c_pure. intros c _. apply c_fold. intros n Hn. apply c_pure. intros d _.
    change (out ++ "/" ++ space_descr [Some ("CORE_SS." ++ base_name p)%string; w; x; r; n])%string with (out_of out ("CORE_SS." ++ base_name p) (w, x, r, n)). rewrite out_core.
    assert (Hc : combos ws xs rs ns (w, x, r, n)) by (repeat split; assumption).
    assert (Wr : forall ext, In ext [".pkl"; ".dm"; ".sm"; ".rows"; ".cols"] -> writes (JCore p f out fmt ws xs rs ns gz) (core_file out (base_name p) (w, x, r, n) ++ ext)).
    { intros ext He. exists (base_name p), (w, x, r, n). split; [apply file_name_base|]. split; [exact Hc|]. apply saved_ext, He. }
    apply c_save_export; [exact Wr|]. apply (proj1 (dir_ext dirs _ ".pkl" (or_introl eq_refl))). apply D, Wr. left. reflexivity.
  - unfold p_build_per_space. apply c_bind; [apply c_load_input; intros q Hq; right; exact Hq|]. intros raw.
    assert (Wr : forall ext, In ext [".pkl"; ".dm"; ".sm"; ".rows"; ".cols"] -> writes (JPer p f out fmt core gz) (per_file out (base_name p) (stem core) ++ ext)).
    { intros ext He. exists (base_name p), (stem core). split; [apply file_name_base|]. split; [apply stem_of_stem|]. apply saved_ext, He. }
    apply c_transform; [left; reflexivity|exact Wr|]. apply D, Wr. left. reflexivity.
  - unfold p_train_model. cbv zeta. apply c_pure. intros f1 Hf1. assert (F1 : In f1 files) by (destruct files as [|f0 fr]; [discriminate|]; cbn in Hf1; left; congruence).
    apply c_bind; [apply c_load_space; right; right; exact F1|]. intros arg. apply c_bind; [apply c_load_second; intros g Hg; right; right; exact Hg|]. intros arg2.
    apply c_bind; [apply c_load_space; right; left; reflexivity|]. intros phr. apply c_pure. intros o _. apply c_bind; [apply c_read_tuples; left; reflexivity|]. intros data. apply c_pure. intros o' _.
    rewrite (model_file_eq _ _ _ _ (file_name_base i)). set (mf := model_file out model (base_name i)).
    assert (Wr : forall q, q = (mf ++ ".pkl")%string \/ q = (mf ++ ".params")%string \/ export_target (mf ++ ".params") q -> writes (JTrain i out model files ph reg cv icpt param range ex) q) by (intros q Hq; exists (base_name i); split; [apply file_name_base|exact Hq]).
    assert (Dp : has_dir dirs (mf ++ ".params")%string) by (apply D, Wr; right; left; reflexivity).
    apply c_bind; [apply c_save; [apply Wr; left; reflexivity|apply D, Wr; left; reflexivity]|]. intros _. destruct ex; [|exact Logic.I].
    unfold p_export_model. apply c_pure. intros _ _. apply c_bind; [apply c_parents; apply Dp|]. intros _. destruct o' as [s|m|m]; [exact Logic.I| |destruct (lf_fs m); [|exact Logic.I]].
    + destruct (cm_kind m) as [x y| |x|[[x y]|] icpt' L]; try exact Logic.I; apply c_write, Wr; right; left; reflexivity.
    + apply c_export; [|exact Dp]. intros ext He. apply Wr. right. right. unfold export_target. cbn in He. repeat destruct He as [<-|He]; auto. destruct He.
  - unfold p_apply_model. apply c_bind.
    { destruct model as [m|]; [apply c_pure0|]. apply c_pure. intros t Ht. apply c_load_model. right. left. destruct trained as [x|]; [|discriminate]. cbn in Ht. congruence. }
    intros o. apply c_pure. intros f1 Hf1. assert (F1 : In f1 files) by (destruct files as [|f0 fr]; [discriminate|]; cbn in Hf1; left; congruence).
    apply c_bind; [apply c_load_space; right; right; exact F1|]. intros arg. apply c_bind; [apply c_load_second; intros g Hg; right; right; exact Hg|]. intros arg2.
    apply c_bind; [apply c_read_tuples; left; reflexivity|]. intros data. apply c_pure. intros s Hs. apply composed_iff in Hs.
    assert (Hc : class_of o (class_name o)) by (apply class_of_ex; intros s0 ->; inversion Hs). rewrite (composed_file_eq _ _ _ _ _ (file_name_base i) Hc).
    assert (Wr : forall ext, In ext [".pkl"; ".dm"; ".sm"; ".rows"; ".cols"] -> writes (JApply i out model trained files al be la fmt) (composed_file out (class_name o) (base_name i) ++ ext)).
    { intros ext He. exists (base_name i), o, (class_name o). split; [apply file_name_base|]. split; [exact Hc|]. apply saved_ext, He. }
    apply c_save_export; [exact Wr|]. apply (proj1 (dir_ext dirs _ ".pkl" (or_introl eq_refl))). apply D, Wr. left. reflexivity.
  - apply c_compute_sim; [left; reflexivity|intros g Hg; right; exact Hg|]. intros d m sim Hd Hm Em.
    assert (Wr : writes (JSim i cols out ms files) (result_file out "SIMS" (base_name i) d m)) by (exists (base_name i), d, m, sim; repeat split; try assumption; apply file_name_base).
    split; [exact Wr|exact (D _ Wr)].
  - unfold p_compute_neighbours. destruct (measure m) as [sim|] eqn:Em; [|exact Logic.I]. cbv zeta. apply c_pure. intros f1 Hf1.
    assert (F1 : In f1 files) by (destruct files as [|f0 fr]; [discriminate|]; cbn in Hf1; left; congruence).
    apply c_bind; [apply c_load_space; right; exact F1|]. intros s. apply c_bind; [apply c_load_second; intros g Hg; right; exact Hg|]. intros s2. apply c_pure. intros descr Hd.
    destruct (described_ex files) as (d & Hde); [intros ->; destruct F1|]. rewrite (described_eq "NEIGHBOURS" _ _ _ _ (file_name_base i) Hde) in Hd. assert (descr = "NEIGHBOURS" ++ "." ++ base_name i ++ "." ++ d)%string by congruence. subst descr.
    replace (out ++ "/" ++ ("NEIGHBOURS" ++ "." ++ base_name i ++ "." ++ d) ++ "." ++ m)%string with (result_file out "NEIGHBOURS" (base_name i) d m) by (unfold result_file; rewrite !sapp_assoc; reflexivity).
    assert (Wr : writes (JNeigh i k out m files) (result_file out "NEIGHBOURS" (base_name i) d m)) by (exists (base_name i), d; repeat split; try assumption; apply file_name_base).
    apply c_bind; [apply c_parents; apply (D _ Wr)|]. intros _. apply c_bind; [apply c_read_text; left; reflexivity|]. intros t. apply c_pure. intros data _. apply c_write, Wr.
  - unfold p_build_per_batch. cbv zeta. apply c_bind; [apply c_load_input; intros q Hq; left; exact Hq|]. intros raw. apply c_listed; [intros q Hq; right; exact Hq|exact Ls|]. intros x Hx.
    destruct (contains flt x && ends_with x ".pkl")%bool eqn:Ec; [|exact Logic.I]. apply andb_true_iff in Ec. destruct (entry_pkl cd x Hx (proj2 Ec)) as (y & _ & Hy & Sy & _ & Iy).
    assert (Wr : forall ext, In ext [".pkl"; ".dm"; ".sm"; ".rows"; ".cols"] -> writes (JPerDir p f out fmt cd flt gz) (per_file out (base_name p) y ++ ext)).
    { intros ext He. exists (base_name p), y. split; [apply file_name_base|]. split; [exact Hy|]. apply saved_ext, He. }
    apply c_transform; rewrite ?Sy; [right; exact Iy|exact Wr|]. apply D, Wr. left. reflexivity.
  - unfold p_compute_sim_batch. cbv zeta. apply c_listed; [intros q Hq; right; exact Hq|exact Ls|]. intros x Hx.
    destruct (ends_with x ".pkl") eqn:Ec; [|exact Logic.I]. destruct (entry_pkl ind x Hx Ec) as (y & _ & Hy & _ & Dy & Iy).
    apply c_compute_sim; [left; reflexivity|intros g [<-|[]]; right; exact Iy|]. intros d m sim Hd Hm Em. rewrite (described_fun _ _ _ Hd Dy).
    assert (Wr : writes (JSimDir i cols out ms ind) (result_file out "SIMS" (base_name i) y m)) by (exists (base_name i), y, m, sim; repeat split; try assumption; apply file_name_base).
    split; [exact Wr|exact (D _ Wr)].
Qed.
Lemma job_confined fs j : ready fs j -> confined (fs_dir fs) (uses j) (writes j) (program j).
Proof.
  induction j as [| | | | | | | |l j IH]; intros R; try (eapply confined_weaken; [| |apply core_confined; [exact Logic.I|exact R]]; [intros q Hq; left; exact Hq|auto]).
  cbn [program]. destruct R as (Ls & D). apply c_bind; [apply c_log; [right; left; reflexivity|left; reflexivity|apply D; left; reflexivity]|]. intros _.
  eapply confined_weaken; [| |apply IH; split; [exact Ls|intros q Hq; apply D; right; exact Hq]]; [intros q [Hq|Hq]; [left; exact Hq|right; right; exact Hq]|intros q Hq; right; exact Hq].
Qed.

(** ** at any moment *)
Definition nth_uses (js : list job) (i : nat) (q : string) : Prop := exists j, nth_error js i = Some j /\ uses j q.
Definition nth_writes (js : list job) (i : nat) (q : string) : Prop := exists j, nth_error js i = Some j /\ writes j q.
Lemma together_kept js fs sched : (forall j, In j js -> ready fs j) -> apart js ->
  kept (fs_dir fs) (nth_uses js) (nth_writes js) (map program js) fs (count_occ Nat.eq_dec sched) (together js sched fs).
Proof.
  intros R A. apply kept_all; [reflexivity| |].
  - intros i P Hi. rewrite nth_error_map in Hi. destruct (nth_error js i) as [j|] eqn:Ej; [|discriminate]. cbn in Hi. assert (P = program j) by congruence. subst P.
    eapply confined_weaken; [| |apply job_confined, R; exact (nth_error_In _ _ Ej)]; intros q Hq; exists j; auto.
  - intros i k q _ _ Hik (a & Ha & Hw) (b & Hb & [Hu|Hu]); destruct (A i k a b q Ha Hb Hik Hw); contradiction.
Qed.
Definition touched (fs : fsys) (j : job) (q : string) : bool := existsb (fun e => touches e q) (fst (alone (program j) fs)).
Lemma touched_writes fs j q : ready fs j -> touched fs j q = true -> writes j q.
Proof. intros R H. exact (events_touch _ _ _ (alone_events _ _ _ _ fs (job_confined fs j R) eq_refl) H). Qed.
(** at any moment of any schedule the files of a job are as at some moment of a run in which it is alone on the disk; no other file has changed, no directory either *)
Theorem C97_any_moment js fs sched : (forall j, In j js -> ready fs j) -> apart js ->
  (forall i j, nth_error js i = Some j -> exists n, forall q, writes j q -> fs_file (snd (together js sched fs)) q = fs_file (disk_at fs (solo j fs) n) q) /\
  (forall q, (forall j, In j js -> ~ writes j q) -> fs_file (snd (together js sched fs)) q = fs_file fs q) /\
  fs_dir (snd (together js sched fs)) = fs_dir fs.
Proof.
  intros R A. destruct (together_kept js fs sched R A) as [K1 K2 K3 K4]. split; [|split; [|exact K3]].
  - intros i j Hj. destruct (K1 i (program j)) as (_ & _ & _ & S); [rewrite nth_error_map, Hj; reflexivity|]. set (n := count_occ Nat.eq_dec sched i) in *. destruct (after_alone n (program j) fs) as (l & B1 & B2 & _). exists (length l). intros q Hq. unfold disk_at. rewrite (job_refines j fs). cbn [finish fst].
    rewrite B2, firstn_app, firstn_all, Nat.sub_diag. cbn [firstn]. rewrite app_nil_r, <- B1. apply S. exists j. split; [exact Hj|right; exact Hq].
  - intros q Hq. apply K4. intros i P Hi. rewrite nth_error_map in Hi. destruct (nth_error js i) as [j|] eqn:Ej; [|discriminate]. cbn in Hi. assert (P = program j) by congruence. subst P.
    pose proof (nth_error_In _ _ Ej) as Hin. fold (touched fs j q). destruct (touched fs j q) eqn:Et; [|reflexivity]. exfalso. exact (Hq j Hin (touched_writes fs j q (R j Hin) Et)).
Qed.

(** ** at the end *)
(** a job that has ended has the result it has alone, and has left the files it leaves alone *)
Theorem C97_result js fs sched i j r : (forall j, In j js -> ready fs j) -> apart js -> nth_error js i = Some j -> ended_with (together js sched fs) i r ->
  match r with
  | Ok _ => exists fs', tool j fs = Ok fs' /\ forall q, writes j q -> fs_file (snd (together js sched fs)) q = fs_file fs' q
  | Err e => snd (solo j fs) = Err e /\ forall q, writes j q -> fs_file (snd (together js sched fs)) q = fs_file (replay fs (fst (solo j fs))) q
  end.
Proof.
  intros R A Hj (P & HP & HE). destruct (together_kept js fs sched R A) as [K1 _ _ _]. destruct (K1 i (program j)) as (A1 & _ & _ & S); [rewrite nth_error_map, Hj; reflexivity|].
  rewrite HP in A1. assert (P = fst (after (count_occ Nat.eq_dec sched i) (program j) fs)) by congruence. subst P. clear A1 HP. set (n := count_occ Nat.eq_dec sched i) in *.
  destruct (after_alone n (program j) fs) as (l & B1 & B2 & B3 & _). rewrite (ended_alone _ _ _ HE) in B2, B3. cbn [fst snd] in B2, B3. rewrite app_nil_r in B2. subst l.
  assert (S' : forall q, writes j q -> fs_file (snd (together js sched fs)) q = fs_file (replay fs (fst (alone (program j) fs))) q) by (intros q Hq; rewrite <- B1; apply S; exists j; split; [exact Hj|right; exact Hq]).
  pose proof (job_refines j fs) as Rf. unfold finish in Rf. rewrite B3 in Rf. destruct r as [u|e].
  - exists (replay fs (fst (alone (program j) fs))). split; [|exact S']. apply (job_same j fs). rewrite Rf. reflexivity.
  - rewrite Rf. cbn [fst snd]. split; [reflexivity|exact S'].
Qed.
(** every job ends after a number of its own steps that does not depend on the others *)
Theorem C97_ends js fs i j : (forall j, In j js -> ready fs j) -> apart js -> nth_error js i = Some j ->
  exists n, forall sched, n <= count_occ Nat.eq_dec sched i -> exists r, ended_with (together js sched fs) i r.
Proof.
  intros R A Hj. exists (steps (program j) fs). intros sched Hs. destruct (together_kept js fs sched R A) as [K1 _ _ _]. destruct (K1 i (program j)) as (A1 & _); [rewrite nth_error_map, Hj; reflexivity|].
  destruct (after_alone (count_occ Nat.eq_dec sched i) (program j) fs) as (_ & _ & _ & _ & B). replace (steps (program j) fs - count_occ Nat.eq_dec sched i) with 0 in B by lia.
  destruct (steps_ended _ _ B) as (r & Hr). exists r, (fst (after (count_occ Nat.eq_dec sched i) (program j) fs)). split; [exact A1|exact Hr].
Qed.

(** ** one after the other *)
Lemma apart_tail a js : apart (a :: js) -> apart js.
Proof. intros H i k x y q Hx Hy Hik. apply (H (S i) (S k) x y q Hx Hy). lia. Qed.
Lemma tool_ok j fs fs' : tool j fs = Ok fs' <-> (snd (alone (program j) fs) = Ok tt /\ fs' = replay fs (fst (alone (program j) fs))).
Proof.
  rewrite <- (job_same j fs fs'), (job_refines j fs). unfold finish. cbn [snd]. destruct (snd (alone (program j) fs)) as [[]|e]; split; [intros H|intros (_ & ->)|discriminate|intros (H & _)]; [|reflexivity|discriminate]. split; congruence.
Qed.
Lemma serial fs : forall js g, apart js -> fs_dir g = fs_dir fs -> (forall j, In j js -> ready fs j /\ same_on (uses j) g fs /\ exists fs', tool j fs = Ok fs') ->
  exists g', one_by_one js g = Ok g' /\ fs_dir g' = fs_dir fs /\
    (forall j q, In j js -> touched fs j q = true -> fs_file g' q = fs_file (replay fs (fst (alone (program j) fs))) q) /\
    (forall q, (forall j, In j js -> touched fs j q = false) -> fs_file g' q = fs_file g q).
Proof.
  induction js as [|a js IH]; intros g A D H.
  - exists g. split; [reflexivity|]. split; [exact D|]. split; [intros j q []|reflexivity].
  - destruct (H a (or_introl eq_refl)) as (Ra & Sa & fs' & Ta). apply tool_ok in Ta. destruct Ta as (T1 & _). pose proof (job_confined fs a Ra) as Ca.
    pose proof (alone_same _ _ _ _ g fs Ca D eq_refl Sa) as Eg. set (l := fst (alone (program a) fs)) in *.
    assert (Tg : tool a g = Ok (replay g l)) by (apply tool_ok; rewrite Eg; split; [exact T1|reflexivity]).
    assert (Fl : Forall (event_in (writes a)) l) by (apply (alone_events _ _ _ _ fs Ca eq_refl)).
    destruct (IH (replay g l)) as (g' & I1 & I2 & I3 & I4).
    + exact (apart_tail _ _ A).
    + rewrite (events_dirs (writes a)) by exact Fl. exact D.
    + intros j Hj. destruct (H j (or_intror Hj)) as (R1 & R2 & R3). split; [exact R1|]. split; [|exact R3]. intros q Hq. rewrite (events_else (writes a)); [apply R2, Hq|exact Fl|].
      intros Hw. apply In_nth_error in Hj. destruct Hj as (k & Hk). destruct (A 0 (S k) a j q eq_refl Hk (Nat.neq_0_succ k) Hw) as (N1 & N2). destruct Hq; contradiction.
    + exists g'. split; [|split; [exact I2|split]].
      * unfold one_by_one in *. cbn [foldM]. rewrite Tg. exact I1.
      * intros j q [<-|Hj] Ht; [|exact (I3 j q Hj Ht)]. pose proof (touched_writes fs a q Ra Ht) as Hw. rewrite I4.
        { apply (replay_same (uses a) l g fs Sa q). right. exact Hw. }
        intros j Hj. destruct (touched fs j q) eqn:Ej; [|reflexivity]. exfalso. destruct (H j (or_intror Hj)) as (R1 & _). pose proof (touched_writes fs j q R1 Ej) as Hw'. apply In_nth_error in Hj. destruct Hj as (k & Hk).
        destruct (A 0 (S k) a j q eq_refl Hk (Nat.neq_0_succ k) Hw) as (_ & N2). contradiction.
      * intros q Hq. rewrite I4 by (intros j Hj; apply Hq; right; exact Hj). apply replay_else. apply (Hq a). left. reflexivity.
Qed.
Lemma apart_permutation js js' : Permutation js js' -> apart js -> apart js'.
Proof.
  intros HP A. apply Permutation_nth_error in HP. destruct HP as (_ & f & Hf & Hn). intros i k a b q Ha Hb Hik. rewrite Hn in Ha, Hb. apply (A (f i) (f k) a b q Ha Hb). intros Q. exact (Hik (Hf _ _ Q)).
Qed.
(** if each of the jobs would succeed alone, then whatever the schedule, once all have ended the disk is what running them one after the other leaves, in whatever order *)
Theorem C97_serial js fs sched js' : (forall j, In j js -> ready fs j) -> apart js -> (forall j, In j js -> exists fs', tool j fs = Ok fs') ->
  (forall i j, nth_error js i = Some j -> exists r, ended_with (together js sched fs) i r) -> Permutation js js' ->
  one_by_one js' fs = Ok (snd (together js sched fs)).
Proof.
  intros R A T H HP.
  assert (HI : forall j, In j js' -> In j js) by (intros j; apply Permutation_in, Permutation_sym, HP). assert (HI' : forall j, In j js -> In j js') by (intros j; apply Permutation_in, HP).
  destruct (serial fs js' fs (apart_permutation _ _ HP A) eq_refl) as (g' & S1 & S2 & S3 & S4); [intros j Hj; split; [apply R, HI, Hj|split; [intros q _; reflexivity|apply T, HI, Hj]]|].
  rewrite S1. f_equal. destruct (together_kept js fs sched R A) as [_ _ K3 K4].
  assert (Files : fs_file g' = fs_file (snd (together js sched fs))).
  { apply functional_extensionality. intros q. destruct (existsb (fun j => touched fs j q) js) eqn:Ex.
    - apply existsb_exists in Ex. destruct Ex as (j & Hj & Ht). rewrite (S3 j q (HI' j Hj) Ht). destruct (In_nth_error _ _ Hj) as (i & Hi). destruct (H i j Hi) as (r & Hr). pose proof (C97_result js fs sched i j r R A Hi Hr) as Q.
      pose proof (touched_writes fs j q (R j Hj) Ht) as Hw. destruct r as [u|e].
      + destruct Q as (fs' & Q1 & Q2). apply tool_ok in Q1. destruct Q1 as (_ & ->). symmetry. exact (Q2 q Hw).
      + destruct Q as (_ & Q2). rewrite (Q2 q Hw), (job_refines j fs). reflexivity.
    - assert (Nt : forall j, In j js -> touched fs j q = false). { intros j Hj. destruct (touched fs j q) eqn:Et; [|reflexivity]. exfalso. assert (existsb (fun j => touched fs j q) js = true) by (apply existsb_exists; exists j; auto). congruence. }
      rewrite S4 by (intros j Hj; apply Nt, HI, Hj). symmetry. apply K4. intros i P Hi. rewrite nth_error_map in Hi. destruct (nth_error js i) as [j|] eqn:Ej; [|discriminate]. cbn in Hi. assert (P = program j) by congruence. subst P. apply Nt. exact (nth_error_In _ _ Ej). }
  destruct g' as [f1 d1], (snd (together js sched fs)) as [f2 d2]. cbn [fs_file fs_dir] in *. congruence.
Qed.
End Together.
