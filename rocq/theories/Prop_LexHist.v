(** Prop_LexHist.v -- property C112: histories of calls on one LexicalFunction object. *)
From Coq Require Import Reals Lra.
From Verif Require Import Base PyList Dict Num SpecReal Dense Sparse Matrix PMatrix Scaling Linalg Operation Similarity Space SpecSpace Learner Composition SpecComp LexFun PComp Prop_LexFun Prop_Models.
Open Scope nat_scope.

(** ** specification: calls on a model object; the regression learner and MIN_SAMPLES in force are the last ones set *)
Section Calls.
Context {N : Num} {E : Ext}.
Inductive lcall :=
| LTrain (data : list tuple3) (arg phr : space)
| LCompose (data : list tuple3) (arg : space)
| LLearner (L : learner)
| LMin (k : Z).
Definition lstep (m : lexfun) (c : lcall) : lexfun :=
  match c with LTrain d a p => fst (lf_train m d a p) | LCompose _ _ => m | LLearner L => lf_set_learner m L | LMin k => lf_set_min m k end.
Definition lrun (m : lexfun) (h : list lcall) : lexfun := fold_left lstep h m.
Definition last_learner (L : learner) (h : list lcall) : learner := fold_left (fun L c => match c with LLearner L' => L' | _ => L end) h L.
Definition last_min (h : list lcall) : Z := fold_left (fun k c => match c with LMin k' => k' | _ => k end) h 1%Z.
Definition no_training (h : list lcall) : Prop := forall d a p, ~ In (LTrain d a p) h.
(** every training in the history, called on m, raises an exception *)
Definition all_fail (m : lexfun) (h : list lcall) : Prop := forall h1 d a p h2, h = h1 ++ LTrain d a p :: h2 -> snd (lf_train (lrun m h1) d a p) <> Ok tt.
(** the learner of the constructor: least squares unless given *)
Definition given_learner (L : option learner) : learner := match L with Some l => l | None => mk_lstsq None end.
(** the intercept flag of the constructor: False unless given *)
Definition given_icpt (i : option bool) : bool := match i with Some b => b | None => false end.

Lemma run_settings h : forall m L k, lf_learner m = L -> lf_min m = k ->
  lf_learner (lrun m h) = fold_left (fun L c => match c with LLearner L' => L' | _ => L end) h L /\
  lf_min (lrun m h) = fold_left (fun k c => match c with LMin k' => k' | _ => k end) h k.
Proof.
  induction h as [|c h IH]; intros m L k HL HK; [split; assumption|]. cbn [lrun fold_left]. apply IH.
  - destruct c; cbn [lstep]; try assumption; try reflexivity. unfold lf_train. destruct (lf_train_space _ _ _ _ _); exact HL.
  - destruct c; cbn [lstep]; try assumption; try reflexivity. unfold lf_train. destruct (lf_train_space _ _ _ _ _); exact HK.
Qed.
Lemma no_training_keeps h : forall m, no_training h -> lf_fs (lrun m h) = lf_fs m /\ lf_icpt (lrun m h) = lf_icpt m /\ lf_cols (lrun m h) = lf_cols m.
Proof.
  induction h as [|c h IH]; intros m Hn; [auto|]. cbn [lrun fold_left]. destruct (IH (lstep m c)) as (A & B & C); [intros d a p Hi; apply (Hn d a p); right; exact Hi|].
  unfold lrun in *. rewrite A, B, C. destruct c as [d a p| | |]; cbn [lstep]; auto. exfalso. apply (Hn d a p). left. reflexivity.
Qed.
Lemma compose_same m1 m2 data arg : lf_fs m1 = lf_fs m2 -> lf_icpt m1 = lf_icpt m2 -> lf_cols m1 = lf_cols m2 -> lf_compose m1 data arg = lf_compose m2 data arg.
Proof. intros A B C. unfold lf_compose. rewrite A, B, C. reflexivity. Qed.
Lemma all_fail_keeps h : forall m, all_fail m h -> lf_fs (lrun m h) = lf_fs m /\ lf_cols (lrun m h) = lf_cols m.
Proof.
  induction h as [|c h IH]; intros m Hn; [auto|]. cbn [lrun fold_left]. destruct (IH (lstep m c)) as (A & B).
  { intros h1 d a p h2 ->. apply (Hn (c :: h1) d a p h2). reflexivity. }
  unfold lrun in *. rewrite A, B. destruct c as [d a p| | |]; cbn [lstep]; auto. specialize (Hn [] d a p h eq_refl). cbn [lrun fold_left] in Hn.
  unfold lf_train in *. destruct (lf_train_space _ _ _ _ _); cbn in *; [congruence|auto].
Qed.
Lemma ctor fs i L m : mk_lexfun fs i L = Ok m -> m = LF fs (given_icpt i) (given_learner L) [] 1%Z.
Proof. unfold mk_lexfun. destruct L, fs; cbn; intros H; try discriminate; injection H as <-; reflexivity. Qed.

(** *** the constructor *)
Theorem C112_constructor : forall fs i L,
  (fs <> None -> L <> None -> mk_lexfun fs i L = Err ValueError) /\
  (fs = None \/ L = None -> exists m, mk_lexfun fs i L = Ok m) /\
  mk_lexfun fs None L = mk_lexfun fs (Some false) L /\
  (forall m data arg, mk_lexfun None i L = Ok m -> lf_compose m data arg = Err AttributeError).
Proof.
  intros fs i L. split; [|split; [|split]].
  - intros A B. destruct fs, L; try congruence; reflexivity.
  - intros [-> | ->]; [destruct L|destruct fs]; eexists; reflexivity.
  - reflexivity.
  - intros m data arg H. apply ctor in H. subst m. reflexivity.
Qed.
(** *** a training depends on the learner and MIN_SAMPLES in force only, and what is composed afterwards on it only *)
Theorem C112_last_training : forall fs i L m m0 h1 d a p h2, mk_lexfun fs i L = Ok m ->
  mk_lexfun None None (Some (last_learner (given_learner L) h1)) = Ok m0 ->
  let m1 := lf_set_min m0 (last_min h1) in
  snd (lf_train (lrun m h1) d a p) = snd (lf_train m1 d a p) /\
  (snd (lf_train m1 d a p) = Ok tt -> no_training h2 ->
   forall data arg, lf_compose (lrun m (h1 ++ LTrain d a p :: h2)) data arg = lf_compose (fst (lf_train m1 d a p)) data arg).
Proof.
  intros fs i L m m0 h1 d a p h2 H H0 m1. apply ctor in H, H0. cbn [given_learner given_icpt] in H0.
  destruct (run_settings h1 m (given_learner L) 1%Z) as (HL & HK); [subst m; reflexivity..|]. fold (last_learner (given_learner L) h1) in HL. fold (last_min h1) in HK.
  destruct (C67_lexfun (lrun m h1) m1 d a p) as (Q1 & Q2); [subst m0; rewrite HL; reflexivity|subst m0; rewrite HK; reflexivity|]. split; [exact Q1|].
  intros Hok Hn data arg. rewrite <- Q1 in Hok. rewrite <- (Q2 Hok).
  unfold lrun. rewrite fold_left_app. cbn [fold_left lstep]. fold (lrun m h1). fold (lrun (fst (lf_train (lrun m h1) d a p)) h2).
  destruct (no_training_keeps h2 (fst (lf_train (lrun m h1) d a p)) Hn) as (A & B & C). apply compose_same; assumption.
Qed.
(** *** choosing a learner, setting MIN_SAMPLES and composing change nothing of what is composed *)
Theorem C112_settings : forall m h data arg, no_training h -> lf_compose (lrun m h) data arg = lf_compose m data arg.
Proof. intros m h data arg Hn. destruct (no_training_keeps h m Hn) as (A & B & C). apply compose_same; assumption. Qed.
(** *** after trainings that all failed: the functions given to the constructor, but the intercept flag of the learner of
    the last attempt *)
Theorem C112_failed : forall fs i m mf h1 d a p h2 data arg, mk_lexfun (Some fs) i None = Ok m ->
  all_fail m (h1 ++ LTrain d a p :: h2) -> no_training h2 ->
  mk_lexfun (Some fs) (Some (has_intercept (last_learner (given_learner None) h1))) None = Ok mf ->
  lf_compose (lrun m (h1 ++ LTrain d a p :: h2)) data arg = lf_compose mf data arg.
Proof.
  intros fs i m mf h1 d a p h2 data arg H HF Hn Hf. apply ctor in H, Hf.
  destruct (run_settings h1 m (given_learner None) 1%Z) as (HL & _); [subst m; reflexivity..|]. fold (last_learner (given_learner None) h1) in HL.
  destruct (all_fail_keeps _ m HF) as (A & C). apply compose_same; [rewrite A; subst; reflexivity| |rewrite C; subst; reflexivity].
  unfold lrun. rewrite fold_left_app. cbn [fold_left lstep]. fold (lrun m h1). fold (lrun (fst (lf_train (lrun m h1) d a p)) h2).
  destruct (no_training_keeps h2 (fst (lf_train (lrun m h1) d a p)) Hn) as (_ & B & _). rewrite B. subst mf. cbn [lf_icpt given_icpt]. rewrite <- HL.
  unfold lf_train. destruct (lf_train_space _ _ _ _ _); reflexivity.
Qed.
(** a model without functions stays without functions *)
Theorem C112_untrained : forall i L m h data arg, mk_lexfun None i L = Ok m -> all_fail m h -> lf_compose (lrun m h) data arg = Err AttributeError.
Proof. intros i L m h data arg H HF. apply ctor in H. destruct (all_fail_keeps h m HF) as (A & _). unfold lf_compose. rewrite A, H. reflexivity. Qed.
End Calls.

(** *** over the reals: given functions are applied with the given flag; after a training exactly the words with at least
    MIN_SAMPLES usable tuples have a function *)
Section Values.
#[local] Existing Instance RNum.
Context {E : Ext}.
Theorem C112_given : forall fs i m h data arg s, consistent fs -> consistent arg -> in_range fs -> mk_lexfun (Some fs) i None = Ok m -> no_training h ->
  lf_compose (lrun m h) data arg = Ok s ->
  let n := m_nc (s_mat arg) in
  s_id2row s = map t3 (filter (usable2 fs arg) data) /\ s_id2col s = [] /\ s_eshape fs = s_eshape s ++ [domain n (given_icpt i)] /\
  forall k w1 w2 ph r, nth_error (filter (usable2 fs arg) data) k = Some (w1, w2, ph) -> r < size (s_eshape s) ->
    ment (s_mat s) k r = apply_fun n (given_icpt i) (fmatrix fs w1 (domain n (given_icpt i))) (vec arg w2) r.
Proof.
  intros fs i m h data arg s Cf Ca HZ H Hn Hs n. rewrite (C112_settings m h data arg Hn) in Hs. apply ctor in H. subst m.
  destruct (C41_compose (LF (Some fs) (given_icpt i) (given_learner None) [] 1%Z) fs data arg s Cf Ca HZ eq_refl Hs) as (_ & A & _ & B & C & D). cbn [lf_icpt lf_cols] in *. auto.
Qed.
Theorem C112_learnt_words : forall fs i L m h1 d a p h2, consistent a -> consistent p -> mk_lexfun fs i L = Ok m ->
  let n' := domain (m_nc (s_mat a)) (has_intercept (last_learner (given_learner L) h1)) in
  (Z.of_nat (m_nc (s_mat p)) * Z.of_nat n' < 2 ^ 63)%Z ->
  snd (lf_train (lrun m h1) d a p) = Ok tt -> no_training h2 ->
  exists fs', lf_fs (lrun m (h1 ++ LTrain d a p :: h2)) = Some fs' /\ consistent fs' /\ s_eshape fs' = s_eshape p ++ [n'] /\
    forall f, In f (s_id2row fs') <-> 1 <= length (samples a p d f) /\ (last_min h1 <= Z.of_nat (length (samples a p d f)))%Z.
Proof.
  intros fs i L m h1 d a p h2 Ca Cp H n' HZ Hok Hn. apply ctor in H.
  destruct (run_settings h1 m (given_learner L) 1%Z) as (HL & HK); [subst m; reflexivity..|]. fold (last_learner (given_learner L) h1) in HL. fold (last_min h1) in HK.
  destruct (lf_train (lrun m h1) d a p) as [m' r] eqn:Ht. cbn [snd] in Hok. subst r.
  destruct (C40_train (lrun m h1) d a p m' Ca Cp) as (fs' & Em & Cf & Esh & _ & Hin & _); [rewrite HL; exact HZ|exact Ht|].
  exists fs'. split; [|split; [exact Cf|split; [rewrite HL in Esh; exact Esh|rewrite HK in Hin; exact Hin]]].
  unfold lrun. rewrite fold_left_app. cbn [fold_left lstep]. fold (lrun m h1). rewrite Ht. cbn [fst]. fold (lrun m' h2).
  destruct (no_training_keeps h2 m' Hn) as (A & _). rewrite A, Em. reflexivity.
Qed.
End Values.

(** ** a history with a failed and a successful training, over the rationals *)
Section Example.
#[local] Existing Instance QNum.
Local Open Scope string_scope.
Local Open Scope list_scope.
Definition lh_env : @Ext QNum := {|
  e_svd := fun _ => Err LinAlgError; e_sparsesvd := fun _ _ => Err LinAlgError; e_pinv := fun d => Ok (fun i j => if Nat.eqb i j then f1 else f0);
  e_lstsq := fun _ _ => Ok (fun _ _ => f1); e_rndcol := fun _ _ => 0; e_rndrow := fun _ _ => 0; e_timeout := fun _ => false |}.
Definition lh_fs : @space QNum := wfs.
Definition lh_h1 : list (@lcall QNum) := [LMin 2; LTrain [("f", "a", "b")] wsp wsp; LLearner (mk_lstsq (Some true)); LMin 1].
Example C112_example : exists m s, mk_lexfun (Some lh_fs) None None = Ok m /\ lf_compose m [("f", "a", "f a")] wsp = Ok s /\
  @all_fail QNum lh_env m [LMin 2; LTrain [("f", "a", "b")] wsp wsp] /\
  snd (@lf_train QNum lh_env (@lrun QNum lh_env m lh_h1) [("f", "a", "b")] wsp wsp) = Ok tt /\
  lf_icpt (@lrun QNum lh_env m (lh_h1 ++ [LTrain [("f", "a", "b")] wsp wsp; LMin 5])) = true.
Proof.
  do 2 eexists. split; [reflexivity|]. split; [reflexivity|]. split.
  - intros h1 d a p h2 H. destruct h1 as [|c1 [|c2 h1]]; inversion H; subst.
    + vm_compute. discriminate.
    + destruct h1; discriminate.
  - split; vm_compute; reflexivity.
Qed.
End Example.
