(** PRace2.v -- C98: the tools as programs that make their output directory, and schedules of them. *)
From Coq Require Import Ascii FunctionalExtensionality Permutation.
From Verif Require Import Base PyList Dict Num Dense Sparse Matrix Scaling Linalg Operation Similarity Space Peripheral SpecSpace Learner Composition Utils LexFun Str PStr IO SpecIO PIO Prop_IO PExport Prop_Export Pipe SpecPipe SpecPipe2 PFiles PPipe PPipe2 PSave SpecPipe3 PPipe3 SpecCore PCore Prop_Core Prop_Sims Prop_Batch Prop_TrainPipe Crash SpecCrash PCrash PCrash2 PCrash3 PCrash4 PCrash5 Prop_Crash Prop_Rerun SpecDir Conc PConc PConc2 SpecConc Prop_Conc PRace.
Local Open Scope string_scope.
Local Open Scope list_scope.
Local Open Scope nat_scope.

Section Race2.
Context {N : Num} {E : Ext} {FI : FloatIO} {PI : PipeIO} {KI : PickleIO}.
Lemma b_load_input dd dirs (I W : string -> Prop) prefix fmt gz : (forall q, In q (input_files prefix fmt gz) -> I q /\ q <> dd) -> both dd dirs I W (p_load_input prefix fmt gz).
Proof.
  intros H. unfold p_load_input, input_files in *. cbv zeta. apply b_pure. intros _ _. destruct (String.eqb_spec fmt "pkl") as [-> |Hf]; [apply b_load_space, H; left; reflexivity|].
  set (data := if gz then _ else _). assert (Hd : I data /\ data <> dd) by (apply H; left; unfold data; destruct gz; rewrite ?sapp_assoc; [reflexivity|]; rewrite sapp_nil; reflexivity). clearbody data.
  assert (Hr : I (prefix ++ ".rows")%string /\ (prefix ++ ".rows")%string <> dd) by (apply H; right; left; reflexivity). assert (Hc : I (prefix ++ ".cols")%string /\ (prefix ++ ".cols")%string <> dd) by (apply H; right; right; left; reflexivity).
  apply b_bind; [apply b_exists; apply Hr|]. intros r. apply b_bind; [apply b_exists; apply Hc|]. intros c.
  destruct c; [|destruct (String.eqb fmt "sm"); [apply b_raise|]]; cbn [pbind]; (apply b_build; [apply Hd| |]); intros p Hp; try discriminate; [destruct r; [|discriminate]|assert (p = prefix ++ ".cols")%string by congruence; subst p; apply Hc|destruct r; [|discriminate]]; assert (p = prefix ++ ".rows")%string by congruence; subst p; apply Hr.
Qed.
Lemma b_transform dd dirs (I W : string -> Prop) raw p out fmt core : dd <> "" -> I core -> (forall ext, In ext [".pkl"; ".dm"; ".sm"; ".rows"; ".cols"] -> W (per_file out (base_name p) (stem core) ++ ext)%string) ->
  dirname (per_file out (base_name p) (stem core) ++ ".pkl") = dd -> both dd dirs I W (p_transform_raw raw p out fmt core).
Proof.
  intros Hne HI HW HD. unfold p_transform_raw. apply b_bind; [apply b_load_space, HI|]. intros cs. apply b_pure. intros s _. rewrite (per_file_eq _ _ _ _ (stem_of_stem core)).
  apply b_save_export; [exact Hne|exact HW|]. rewrite <- dirname_pkl. exact HD.
Qed.
Lemma b_compute_sim dd dirs (I W : string -> Prop) i cols out ms files : dd <> "" -> I i -> (forall g, In g files -> I g) ->
  (forall d m sim, described files d -> In m ms -> measure_named m sim -> W (result_file out "SIMS" (base_name i) d m) /\ dirname (result_file out "SIMS" (base_name i) d m) = dd) ->
  both dd dirs I W (p_compute_sim i cols out ms files).
Proof.
  intros Hne Hi Hf Hw. unfold p_compute_sim. destruct cols as [|c0 [|c1 [|]]]; try apply b_raise. apply b_pure. intros i0 _. apply b_pure. intros i1 _. apply b_pure. intros f1 Hf1.
  assert (F1 : In f1 files) by (destruct files as [|f0 fr]; [discriminate|]; cbn in Hf1; left; congruence).
  apply b_bind; [apply (b_file dd dirs _ _ f1); [exact (Hf f1 F1)|intros a b Hab; unfold load_space; rewrite Hab; reflexivity]|]. intros [s|e]; [|destruct e; first [apply b_raise|apply b_ret]].
  apply b_bind; [apply b_load_second; exact Hf|]. intros s2. apply b_pure. intros descr Hd.
  destruct (described_ex files) as (d & Hde); [intros ->; destruct F1|]. rewrite (described_eq "SIMS" _ _ _ _ (file_name_base i) Hde) in Hd. assert (descr = "SIMS" ++ "." ++ base_name i ++ "." ++ d)%string by congruence. subst descr.
  apply b_fold. intros m Hm. unfold p_sim_measure. destruct (measure m) as [sim|] eqn:Em; [|apply b_ret]. apply measure_iff in Em. cbv zeta.
  replace (out ++ "/" ++ ("SIMS" ++ "." ++ base_name i ++ "." ++ d) ++ "." ++ m)%string with (result_file out "SIMS" (base_name i) d m) by (unfold result_file; rewrite !sapp_assoc; reflexivity).
  destruct (Hw d m sim Hde Hm Em) as (Wr & Dr). apply b_parents; [exact Hne|exact Dr|]. apply c_bind; [apply c_read_text, Hi|]. intros t. apply c_write, Wr.
Qed.
(** a directory is looked for and listed; it is not the new directory, nor is the new directory an entry of it *)
Lemma b_listed dd dirs (I W : string -> Prop) in_dir (f : string -> prog unit) : (forall q, in_directory in_dir q -> I q /\ q <> dd) -> (forall dir, dir_slash in_dir dir -> lists_entries dir) ->
  (forall x, plain x -> both dd dirs I W (f x)) ->
  both dd dirs I W (pbind (p_exists in_dir) (fun b => pbind (pure (check b ValueError)) (fun _ => pbind (look (fun fs => Ok (listdir fs (with_slash in_dir)))) (fun l => p_fold f l)))).
Proof.
  intros HI HL HF. pose proof (proj1 (with_slash_iff in_dir _) eq_refl) as Hd. destruct (HL _ Hd) as (L1 & L2).
  assert (He : forall g, plain g -> I (with_slash in_dir ++ g)%string /\ (with_slash in_dir ++ g)%string <> dd) by (intros g Hg; apply HI; right; exists (with_slash in_dir), g; auto).
  apply b_bind; [apply b_exists; apply (HI in_dir (or_introl eq_refl))|]. intros b. apply b_pure. intros _ _.
  assert (K : forall a l, @Ok (list string) (listdir a (with_slash in_dir)) = Ok l -> both dd dirs I W (p_fold f l)).
  { intros a l Hl. assert (l = listdir a (with_slash in_dir)) by congruence. subst l. apply b_fold. intros x Hx. apply HF. exact (L1 a x Hx). }
  unfold look. cbn [pbind]. split.
  - apply e_look; [|intros a l _ Hl; apply (K a l Hl)]. intros x y Hx Hy Hxy. f_equal. apply L2. intros g Hg. destruct (He g Hg) as (E1 & E2). unfold exists_. rewrite (ok_dir dd dirs x _ Hx E2), (ok_dir dd dirs y _ Hy E2), (Hxy _ E1). reflexivity.
  - split; [|intros a l _ Hl; apply (K a l Hl)]. intros x y Hx Hy Hxy. f_equal. apply L2. intros g Hg. destruct (He g Hg) as (E1 & E2). unfold exists_. rewrite Hx, Hy, (Hxy _ E1). reflexivity.
Qed.
Lemma both_weaken dd dirs (I W I' W' : string -> Prop) {A} (P : prog A) : (forall q, I q -> I' q) -> (forall q, W q -> W' q) -> both dd dirs I W P -> both dd dirs I' W' P.
Proof.
  intros HI HW (H1 & H2). split; [|eapply confined_weaken; eassumption]. clear H2. induction H1 as [a|e|X f k Hf Hk IH|p k Hp Hk].
  - constructor.
  - constructor.
  - apply e_look; [|exact IH]. intros a b Ha Hb Hab. apply Hf; [exact Ha|exact Hb|]. intros q Hq. apply Hab, HI, Hq.
  - apply e_parents; [exact Hp|]. eapply confined_weaken; eassumption.
Qed.
Lemma job_both dd dirs j : dd <> "" -> listing j -> (forall q, writes j q -> dirname q = dd) -> ~ reads j dd -> both dd dirs (uses j) (writes j) (program j).
Proof.
  intros Hne.
  induction j as [p f out fmt ws xs rs ns gz|p f out fmt core gz|i out model files ph reg cv icpt param range ex|i out model trained files al be la fmt|i cols out ms files|i k out m files|p f out fmt cd flt gz|i cols out ms ind|l j IH]; intros Ls D Nr; cbn [program].
  - unfold p_build_spaces. apply b_bind; [apply b_load_input; intros q Hq; split; [left; exact Hq|intros ->; exact (Nr Hq)]|]. intros s. unfold p_combinations. apply b_fold. intros w Hw. apply b_pure. intros a _. apply b_fold. intros x Hx. apply b_pure. intros b _.
    apply b_fold. intros r Hr. apply b_pure. intros c _. apply b_fold. intros n Hn. apply b_pure. intros d _.
    change (out ++ "/" ++ space_descr [Some ("CORE_SS." ++ base_name p)%string; w; x; r; n])%string with (out_of out ("CORE_SS." ++ base_name p) (w, x, r, n)). rewrite out_core.
    assert (Hc : combos ws xs rs ns (w, x, r, n)) by (repeat split; assumption).
    assert (Wr : forall ext, In ext [".pkl"; ".dm"; ".sm"; ".rows"; ".cols"] -> writes (JCore p f out fmt ws xs rs ns gz) (core_file out (base_name p) (w, x, r, n) ++ ext)).
    { intros ext He. exists (base_name p), (w, x, r, n). split; [apply file_name_base|]. split; [exact Hc|]. apply saved_ext, He. }
    apply b_save_export; [exact Hne|exact Wr|]. rewrite <- dirname_pkl. apply D, Wr. left. reflexivity.
  - unfold p_build_per_space. apply b_bind; [apply b_load_input; intros q Hq; split; [left; right; exact Hq|intros ->; exact (Nr (or_intror Hq))]|]. intros raw.
    assert (Wr : forall ext, In ext [".pkl"; ".dm"; ".sm"; ".rows"; ".cols"] -> writes (JPer p f out fmt core gz) (per_file out (base_name p) (stem core) ++ ext)).
    { intros ext He. exists (base_name p), (stem core). split; [apply file_name_base|]. split; [apply stem_of_stem|]. apply saved_ext, He. }
    apply b_transform; [exact Hne|left; left; reflexivity|exact Wr|]. apply D, Wr. left. reflexivity.
  - unfold p_train_model. cbv zeta. apply b_pure. intros f1 Hf1. assert (F1 : In f1 files) by (destruct files as [|f0 fr]; [discriminate|]; cbn in Hf1; left; congruence).
    apply b_bind; [apply b_load_space; left; right; right; exact F1|]. intros arg. apply b_bind; [apply b_load_second; intros g Hg; left; right; right; exact Hg|]. intros arg2.
    apply b_bind; [apply b_load_space; left; right; left; reflexivity|]. intros phr. apply b_pure. intros o _. apply b_bind; [apply b_read_tuples; left; left; reflexivity|]. intros data. apply b_pure. intros o' _.
    rewrite (model_file_eq _ _ _ _ (file_name_base i)). set (mf := model_file out model (base_name i)).
    assert (Wr : forall q, q = (mf ++ ".pkl")%string \/ q = (mf ++ ".params")%string \/ export_target (mf ++ ".params") q -> writes (JTrain i out model files ph reg cv icpt param range ex) q) by (intros q Hq; exists (base_name i); split; [apply file_name_base|exact Hq]).
    assert (Dp : dirname (mf ++ ".params")%string = dd) by (apply D, Wr; right; left; reflexivity).
    apply b_bind; [apply b_save; [exact Hne|apply Wr; left; reflexivity|apply D, Wr; left; reflexivity]|]. intros _. destruct ex; [|apply b_ret].
    unfold p_export_model. apply b_pure. intros _ _. apply b_parents; [exact Hne|exact Dp|]. destruct o' as [s|m|m]; [exact Logic.I| |destruct (lf_fs m); [|exact Logic.I]].
    + destruct (cm_kind m) as [x y| |x|[[x y]|] icpt' L]; try exact Logic.I; apply c_write, Wr; right; left; reflexivity.
    + apply c_export; [|apply (hd1 dd dirs Hne), Dp]. intros ext He. apply Wr. right. right. unfold export_target. cbn in He. repeat destruct He as [<-|He]; auto. destruct He.
  - unfold p_apply_model. apply b_bind.
    { destruct model as [m|]; [apply b_pure0|]. apply b_pure. intros t Ht. apply b_load_model. left. right. left. destruct trained as [x|]; [|discriminate]. cbn in Ht. congruence. }
    intros o. apply b_pure. intros f1 Hf1. assert (F1 : In f1 files) by (destruct files as [|f0 fr]; [discriminate|]; cbn in Hf1; left; congruence).
    apply b_bind; [apply b_load_space; left; right; right; exact F1|]. intros arg. apply b_bind; [apply b_load_second; intros g Hg; left; right; right; exact Hg|]. intros arg2.
    apply b_bind; [apply b_read_tuples; left; left; reflexivity|]. intros data. apply b_pure. intros s Hs. apply composed_iff in Hs.
    assert (Hc : class_of o (class_name o)) by (apply class_of_ex; intros s0 ->; inversion Hs). rewrite (composed_file_eq _ _ _ _ _ (file_name_base i) Hc).
    assert (Wr : forall ext, In ext [".pkl"; ".dm"; ".sm"; ".rows"; ".cols"] -> writes (JApply i out model trained files al be la fmt) (composed_file out (class_name o) (base_name i) ++ ext)).
    { intros ext He. exists (base_name i), o, (class_name o). split; [apply file_name_base|]. split; [exact Hc|]. apply saved_ext, He. }
    apply b_save_export; [exact Hne|exact Wr|]. rewrite <- dirname_pkl. apply D, Wr. left. reflexivity.
  - apply b_compute_sim; [exact Hne|left; left; reflexivity|intros g Hg; left; right; exact Hg|]. intros d m sim Hd Hm Em.
    assert (Wr : writes (JSim i cols out ms files) (result_file out "SIMS" (base_name i) d m)) by (exists (base_name i), d, m, sim; repeat split; try assumption; apply file_name_base).
    split; [exact Wr|exact (D _ Wr)].
  - unfold p_compute_neighbours. destruct (measure m) as [sim|] eqn:Em; [|apply b_raise]. cbv zeta. apply b_pure. intros f1 Hf1.
    assert (F1 : In f1 files) by (destruct files as [|f0 fr]; [discriminate|]; cbn in Hf1; left; congruence).
    apply b_bind; [apply b_load_space; left; right; exact F1|]. intros s. apply b_bind; [apply b_load_second; intros g Hg; left; right; exact Hg|]. intros s2. apply b_pure. intros descr Hd.
    destruct (described_ex files) as (d & Hde); [intros ->; destruct F1|]. rewrite (described_eq "NEIGHBOURS" _ _ _ _ (file_name_base i) Hde) in Hd. assert (descr = "NEIGHBOURS" ++ "." ++ base_name i ++ "." ++ d)%string by congruence. subst descr.
    replace (out ++ "/" ++ ("NEIGHBOURS" ++ "." ++ base_name i ++ "." ++ d) ++ "." ++ m)%string with (result_file out "NEIGHBOURS" (base_name i) d m) by (unfold result_file; rewrite !sapp_assoc; reflexivity).
    assert (Wr : writes (JNeigh i k out m files) (result_file out "NEIGHBOURS" (base_name i) d m)) by (exists (base_name i), d; repeat split; try assumption; apply file_name_base).
    apply b_parents; [exact Hne|exact (D _ Wr)|]. apply c_bind; [apply c_read_text; left; left; reflexivity|]. intros t. apply c_pure. intros data _. apply c_write, Wr.
  - unfold p_build_per_batch. cbv zeta. apply b_bind; [apply b_load_input; intros q Hq; split; [left; left; exact Hq|intros ->; exact (Nr (or_introl Hq))]|]. intros raw.
    apply b_listed; [intros q Hq; split; [left; right; exact Hq|intros ->; exact (Nr (or_intror Hq))]|exact Ls|]. intros x Hx.
    destruct (contains flt x && ends_with x ".pkl")%bool eqn:Ec; [|apply b_ret]. apply andb_true_iff in Ec. destruct (entry_pkl cd x Hx (proj2 Ec)) as (y & _ & Hy & Sy & _ & Iy).
    assert (Wr : forall ext, In ext [".pkl"; ".dm"; ".sm"; ".rows"; ".cols"] -> writes (JPerDir p f out fmt cd flt gz) (per_file out (base_name p) y ++ ext)).
    { intros ext He. exists (base_name p), y. split; [apply file_name_base|]. split; [exact Hy|]. apply saved_ext, He. }
    apply b_transform; rewrite ?Sy; [exact Hne|left; right; exact Iy|exact Wr|]. apply D, Wr. left. reflexivity.
  - unfold p_compute_sim_batch. cbv zeta. apply b_listed; [intros q Hq; split; [left; right; exact Hq|intros ->; exact (Nr (or_intror Hq))]|exact Ls|]. intros x Hx.
    destruct (ends_with x ".pkl") eqn:Ec; [|apply b_ret]. destruct (entry_pkl ind x Hx Ec) as (y & _ & Hy & _ & Dy & Iy).
    apply b_compute_sim; [exact Hne|left; left; reflexivity|intros g [<-|[]]; left; right; exact Iy|]. intros d m sim Hd Hm Em. rewrite (described_fun _ _ _ Hd Dy).
    assert (Wr : writes (JSimDir i cols out ms ind) (result_file out "SIMS" (base_name i) y m)) by (exists (base_name i), y, m, sim; repeat split; try assumption; apply file_name_base).
    split; [exact Wr|exact (D _ Wr)].
  - apply b_bind.
    { apply b_parents; [exact Hne|apply D; left; reflexivity|]. apply c_append; [right; left; reflexivity|left; reflexivity]. }
    intros _. eapply both_weaken; [| |apply IH; [exact Ls|intros q Hq; apply D; right; exact Hq|exact Nr]]; [intros q [Hq|Hq]; [left; exact Hq|right; right; exact Hq]|intros q Hq; right; exact Hq].
Qed.


(** ** alone on the disk without the directory, and on the disk with it *)
Lemma alone_bind {A B} (m : prog A) (k : A -> prog B) : forall fs, alone (pbind m k) fs =
  match snd (alone m fs) with
  | Ok a => (fst (alone m fs) ++ fst (alone (k a) (replay fs (fst (alone m fs)))), snd (alone (k a) (replay fs (fst (alone m fs)))))
  | Err e => (fst (alone m fs), Err e) end.
Proof.
  induction m as [a|e|X f c IH|f c IH]; intros fs; cbn [pbind alone fst snd]; [apply surjective_pairing|reflexivity| |].
  - destruct (f fs) as [x|e]; [apply IH|reflexivity].
  - destruct (f fs) as [l|e]; [|reflexivity]. rewrite IH. cbn [fst snd]. destruct (snd (alone c (replay fs l))) as [a|e]; cbn [fst snd]; [|reflexivity]. unfold replay. rewrite !fold_left_app, app_assoc. reflexivity.
Qed.
Section One.
Variables (d h : string) (fs : fsys).
Hypothesis Hd : fs_dir fs d = false.
Hypothesis Hf : fs_file fs d = None.
Hypothesis Hne : d <> "".
Hypothesis Hsplit : exists t, path_split d = (h, t) /\ t <> "" /\ t <> ".".
Hypothesis Hparent : h = "" \/ fs_dir fs h = true.
Let dirs0 := fs_dir fs.
Definition with_dir : fsys := FS (fs_file fs) (dirs1 d (fs_dir fs)).
Lemma ok_fs : okd d dirs0 fs.
Proof. split; [left; reflexivity|exact Hf]. Qed.
Lemma ok_with : okd d dirs0 with_dir.
Proof. split; [right; reflexivity|exact Hf]. Qed.
Lemma parents_without p : dirname p = d -> alone (p_parents p) fs = ([Emkdir d], Ok tt).
Proof.
  intros Hp. unfold p_parents. cbv zeta. rewrite Hp. unfold p_exists, look. cbn [pbind alone]. rewrite (exists_d d dirs0 Hne fs ok_fs), Hd. rewrite (makedirs_eq d h Hsplit).
  assert (Mk : alone (p_mkdir d) fs = ([Emkdir d], Ok tt)) by (unfold p_mkdir, act; cbn [alone]; rewrite (mkdir_d d h dirs0 Hne Hsplit Hparent fs ok_fs), Hd; reflexivity).
  destruct (String.eqb_spec h "") as [Hh|Hh]; [exact Mk|]. unfold asking. cbn [alone]. rewrite (exists_h d h dirs0 Hparent fs ok_fs Hh). cbn [pbind]. exact Mk.
Qed.
Lemma parents_with p : dirname p = d -> alone (p_parents p) with_dir = ([], Ok tt).
Proof. intros Hp. unfold p_parents. cbv zeta. rewrite Hp. unfold p_exists, look. cbn [pbind alone]. rewrite (exists_d d dirs0 Hne with_dir ok_with). cbn [with_dir fs_dir]. rewrite d1. reflexivity. Qed.
Lemma alone_early (I W : string -> Prop) (P : prog unit) : early d dirs0 I W P -> (alone P fs = alone P with_dir /\ fst (alone P fs) = []) \/ alone P fs = (Emkdir d :: fst (alone P with_dir), snd (alone P with_dir)).
Proof.
  intros H. induction H as [a|e|X f k Hs Hk IH|p k Hp Hk].
  - left. split; reflexivity.
  - left. split; reflexivity.
  - cbn [alone]. assert (Q : f fs = f with_dir) by (apply Hs; [exact ok_fs|exact ok_with|intros q _; reflexivity]). rewrite Q. destruct (f with_dir) as [x|e] eqn:Ef; [|left; split; reflexivity]. apply (IH with_dir x ok_with Ef).
  - right. rewrite !alone_bind, (parents_without p Hp), (parents_with p Hp). cbn [fst snd app]. assert (R : replay fs [Emkdir d] = with_dir) by reflexivity. rewrite R. reflexivity.
Qed.
(** the result and the files are the same *)
Lemma alone_with (I W : string -> Prop) (P : prog unit) : early d dirs0 I W P -> snd (alone P with_dir) = snd (alone P fs) /\ (forall q, fs_file (replay with_dir (fst (alone P with_dir))) q = fs_file (replay fs (fst (alone P fs))) q).
Proof.
  intros H. destruct (alone_early I W P H) as [(H1 & H2)|H1].
  - rewrite <- H1, H2. split; [reflexivity|]. reflexivity.
  - rewrite H1. cbn [fst snd]. split; [reflexivity|]. intros q. reflexivity.
Qed.
End One.

(** ** the schedule *)
Record raced (d h : string) (fs : fsys) (js : list job) (n : nat -> nat) (st : list (prog unit) * fsys) : Prop := {
  rc_prog : forall i j, nth_error js i = Some j -> exists P, nth_error (fst st) i = Some P /\ rel d h (fs_dir fs) (uses j) (writes j) (program j) (with_dir d fs) (snd st) P (n i);
  rc_none : forall i, nth_error js i = None -> nth_error (fst st) i = None;
  rc_ok : okd d (fs_dir fs) (snd st);
  rc_past : fs_dir (snd st) = dirs1 d (fs_dir fs) -> exists i j P, nth_error js i = Some j /\ nth_error (fst st) i = Some P /\ past d (fs_dir fs) (uses j) (writes j) (program j) (with_dir d fs) (snd st) P;
  rc_else : forall q, (forall j, In j js -> ~ writes j q) -> fs_file (snd st) q = fs_file fs q }.
Section Sched.
Variables (d h : string) (fs : fsys) (js : list job).
Hypothesis Hd : fs_dir fs d = false.
Hypothesis Hf : fs_file fs d = None.
Hypothesis Hne : d <> "".
Hypothesis Hsplit : exists t, path_split d = (h, t) /\ t <> "" /\ t <> ".".
Hypothesis Hparent : h = "" \/ fs_dir fs h = true.
Hypothesis Hinto : forall j q, In j js -> writes j q -> dirname q = d.
Hypothesis Hreads : forall j, In j js -> ~ reads j d /\ listing j.
Hypothesis Hapart : apart js.
Hypothesis Hself : dirname d <> d.
Lemma apart_same i k a b l g : nth_error js i = Some a -> nth_error js k = Some b -> i <> k -> Forall (event_in (writes a)) l -> same_on (uses b) (replay g l) g.
Proof.
  intros Ha Hb Hik Hl q Hq. apply (events_else (writes a)); [exact Hl|]. intros Hw. destruct (Hapart i k a b q Ha Hb Hik Hw) as (N1 & N2). destruct Hq; contradiction.
Qed.
Lemma raced_start : raced d h fs js (fun _ => 0) (map program js, fs).
Proof.
  constructor; cbn [fst snd].
  - intros i j Hj. exists (program j). rewrite nth_error_map, Hj. split; [reflexivity|]. apply (rl_early _ _ _ _ _ _ _ _ _ _ 0); [reflexivity|reflexivity| |lia|intros q _; reflexivity]. pose proof (nth_error_In _ _ Hj) as Hin.
    apply (job_both d (fs_dir fs) j Hne (proj2 (Hreads j Hin)) (fun q => Hinto j q Hin) (proj1 (Hreads j Hin))).
  - intros i Hi. rewrite nth_error_map, Hi. reflexivity.
  - apply ok_fs; assumption.
  - intros K. exfalso. rewrite K, d1 in Hd. discriminate.
  - reflexivity.
Qed.
Lemma raced_turn n st i : raced d h fs js n st -> raced d h fs js (fun k => if Nat.eqb i k then S (n k) else n k) (turn st i).
Proof.
  intros [K1 K2 K3 K4 K5]. unfold turn. destruct (nth_error js i) as [j|] eqn:Ei.
  - destruct (K1 i j Ei) as (P & HP & HR). rewrite HP. pose proof (nth_error_In _ _ Ei) as Hin.
    destruct (rel_step d h (fs_dir fs) Hd Hne Hsplit Hparent (uses j) (writes j) (program j) (with_dir d fs) eq_refl Hf (snd st) P (n i) K3 HR) as (R1 & R2).
    destruct (pstep P (snd st)) as [P' g'] eqn:Es. cbn [fst snd] in R1, R2.
    assert (Oth : forall k b, nth_error js k = Some b -> i <> k -> same_on (uses b) g' (snd st)).
    { intros k b Hb Hik. destruct R2 as [(l & -> & L2 & _)|(_ & -> & _)]; [exact (apart_same i k j b l (snd st) Ei Hb Hik L2)|intros q _; reflexivity]. }
    assert (Dir : fs_dir (snd st) = dirs1 d (fs_dir fs) -> fs_dir g' = dirs1 d (fs_dir fs)).
    { intros Q. destruct R2 as [(l & -> & L2 & _)|(_ & -> & _)]; [rewrite (events_dirs (writes j)) by exact L2; exact Q|reflexivity]. }
    constructor; cbn [fst snd].
    + intros k b Hb. rewrite nth_replace. destruct (Nat.eqb_spec i k) as [<-|Hik].
      * assert (b = j) by congruence. subst b. rewrite HP. exists P'. split; [reflexivity|exact R1].
      * destruct (K1 k b Hb) as (Q & HQ & HRQ). exists Q. split; [exact HQ|]. eapply rel_other; [exact HRQ|exact (Oth k b Hb Hik)|exact Dir].
    + intros k Hk. rewrite nth_replace. destruct (Nat.eqb_spec i k) as [<-|Hik]; [congruence|]. apply K2, Hk.
    + destruct R2 as [(l & -> & L2 & _)|(_ & -> & _)]; [|split; [right; reflexivity|apply K3]]. destruct K3 as (O1 & O2). split; [rewrite (events_dirs (writes j)) by exact L2; exact O1|].
      rewrite (events_else (writes j)); [exact O2|exact L2|]. intros Hw. exact (Hself (Hinto j d Hin Hw)).
    + intros Q. destruct R2 as [(l & E2 & L2 & _)|(_ & _ & L3)].
      * assert (Q' : fs_dir (snd st) = dirs1 d (fs_dir fs)) by (rewrite E2, (events_dirs (writes j)) in Q by exact L2; exact Q). destruct (K4 Q') as (k & b & R & Hb & HR' & HP').
        destruct (Nat.eq_dec i k) as [<-|Hik].
        -- assert (b = j) by congruence. assert (R = P) by congruence. subst b R. exists i, j, P'. split; [exact Ei|]. split; [rewrite nth_replace, Nat.eqb_refl, HP; reflexivity|]. pose proof (past_step d (fs_dir fs) _ _ _ _ (snd st) P Q' HP') as PS. rewrite Es in PS. exact PS.
        -- exists k, b, R. split; [exact Hb|]. split; [rewrite nth_replace; destruct (Nat.eqb_spec i k); [contradiction|exact HR']|]. destruct HP' as (m & P1 & P2 & P3 & P4). exists m. split; [exact P1|]. split; [exact P2|]. split; [exact P3|]. eapply same_trans; [exact (Oth k b Hb Hik)|exact P4].
      * exists i, j, P'. split; [exact Ei|]. split; [rewrite nth_replace, Nat.eqb_refl, HP; reflexivity|exact L3].
    + intros q Hq. destruct R2 as [(l & -> & L2 & _)|(_ & -> & _)]; [|exact (K5 q Hq)]. rewrite (events_else (writes j)); [exact (K5 q Hq)|exact L2|exact (Hq j Hin)].
  - rewrite (K2 i Ei). constructor; auto. intros k b Hb. destruct (Nat.eqb_spec i k) as [<-|_]; [congruence|]. apply K1, Hb.
Qed.
Lemma raced_turns sched : forall n st, raced d h fs js n st -> raced d h fs js (fun k => n k + count_occ Nat.eq_dec sched k) (fold_left turn sched st).
Proof.
  induction sched as [|i sched IH]; intros n st K; cbn [fold_left count_occ].
  - destruct K as [K1 K2 K3 K4 K5]. constructor; auto. intros k P. rewrite Nat.add_0_r. apply K1.
  - specialize (IH _ _ (raced_turn n st i K)). destruct IH as [K1 K2 K3 K4 K5]. constructor; auto. intros k P Hk. specialize (K1 k P Hk). cbv beta in K1.
    replace (n k + (if Nat.eq_dec i k then S (count_occ Nat.eq_dec sched k) else count_occ Nat.eq_dec sched k)) with ((if Nat.eqb i k then S (n k) else n k) + count_occ Nat.eq_dec sched k); [exact K1|].
    destruct (Nat.eq_dec i k) as [Hik|Hik]; [apply Nat.eqb_eq in Hik; rewrite Hik; lia|apply Nat.eqb_neq in Hik; rewrite Hik; reflexivity].
Qed.
Lemma raced_all sched : raced d h fs js (count_occ Nat.eq_dec sched) (together js sched fs).
Proof. exact (raced_turns sched _ _ raced_start). Qed.
End Sched.
End Race2.
