(** Prop_Models.v -- C66, C67: histories of calls on one composition model object. *)
From Verif Require Import Base PyList Dict Num Dense Sparse Matrix Scaling Linalg Operation Similarity Space Learner Composition Utils LexFun SpecComp.
Section Models.
Context {N : Num} {E : Ext}.
Local Open Scope nat_scope.

(** ** C66: a failed train *)
(** what does hold: apart from the intercept flag of FullAdditive, nothing of the model changes *)
Theorem C66_failed_train_partial : forall m data a sp m' e, train m data a sp = (m', Err e) ->
  cm_cols m' = cm_cols m /\
  match cm_kind m with
  | FAdd ab i L => exists i', cm_kind m' = FAdd ab i' L /\ (i' = i \/ exists l, L = Some l /\ i' = has_intercept l)
  | _ => m' = m
  end.
Proof.
  intros m data a sp m' e. unfold train. destruct m as [k cols]. cbn [cm_kind cm_cols]. destruct k as [al be| |la|ab i L]; cbn [cm_kind].
  - destruct (let* (s1, s2, (l1, l2, l3)) := train_lists data a sp in wadd_xxx s1 s2 sp l1 l2 l3) as [[x y]|]; intros H; inversion H; subst; auto.
  - intros H; inversion H; subst; auto.
  - destruct (let* (s1, s2, (l1, l2, l3)) := train_lists data a sp in let* (u, v, p) := gen_xxx s1 s2 sp l1 l2 l3 in dil_train u v p) as [x|]; intros H; inversion H; subst; auto.
  - destruct (let* (s1, s2, (l1, l2, l3)) := train_lists data a sp in gen_xxx s1 s2 sp l1 l2 l3) as [[[u v] p]|].
    + destruct L as [L|].
      * destruct (fadd_train L u v p) as [r|]; intros H; inversion H; subst. cbn. split; [reflexivity|]. eexists; split; [reflexivity|]. right. eauto.
      * intros H; inversion H; subst. cbn. eauto.
    + intros H; inversion H; subst. cbn. eauto.
Qed.
(** so the claim holds whenever the learner agrees with the flag -- in particular for a model that keeps its learner *)
Theorem C66_same_learner_partial : forall m data a sp m' e, train m data a sp = (m', Err e) ->
  (forall ab i l, cm_kind m = FAdd ab i (Some l) -> has_intercept l = i) -> m' = m.
Proof.
  intros m data a sp m' e H Hi. destruct (C66_failed_train_partial _ _ _ _ _ _ H) as (Hc & Hk). destruct m as [k c], m' as [k' c']. cbn in *. subst c'.
  destruct k as [al be| |la|ab i L]; try exact Hk. destruct Hk as (i' & -> & [-> |(l & -> & ->)]); [reflexivity|]. rewrite (Hi ab i l eq_refl). reflexivity.
Qed.
(** lexical functions: the functions, the columns and the learner stay; the intercept flag is that of the learner *)
Theorem C66_lexfun_partial : forall m data arg phr m' e, lf_train m data arg phr = (m', Err e) ->
  lf_fs m' = lf_fs m /\ lf_cols m' = lf_cols m /\ lf_learner m' = lf_learner m /\ lf_min m' = lf_min m /\ lf_icpt m' = has_intercept (lf_learner m) /\
  (has_intercept (lf_learner m) = lf_icpt m -> m' = m).
Proof.
  intros m data arg phr m' e. unfold lf_train. destruct (lf_train_space _ _ _ _ _); intros H; inversion H; subst. destruct m as [f i l c k]; cbn. repeat split. intros ->. reflexivity.
Qed.

(** ** C67: what a model composes depends only on its last successful training *)
(** compose changes no parameter, and repeating it repeats its result *)
Theorem C67_compose_repeatable : forall m data a m' r, compose m data a = (m', r) ->
  cm_kind m' = cm_kind m /\ compose m' data a = (m', r).
Proof.
  intros m data a m' r. unfold compose. destruct (compose_matrix (cm_kind m) data a) as [[[[c l3] s1] s2]|e] eqn:Hc; intros H; inversion H; subst; cbn [cm_kind cm_cols]; split; try reflexivity.
  - rewrite Hc. reflexivity.
  - rewrite Hc. reflexivity.
Qed.
(** a call on a model object: train, compose, or choosing another regression learner *)
Inductive mcall :=
| MTrain (data : list tuple3) (a : arg_spaces) (sp : space)
| MCompose (data : list tuple3) (a : arg_spaces)
| MLearner (L : learner).
Definition mstep (m : cmodel) (c : mcall) : cmodel :=
  match c with MTrain d a sp => fst (train m d a sp) | MCompose d a => fst (compose m d a) | MLearner L => set_learner m L end.
Definition mrun (m : cmodel) (h : list mcall) : cmodel := fold_left mstep h m.
Definition trains (m : cmodel) (c : mcall) : Prop := match c with MTrain d a sp => snd (train m d a sp) = Ok tt | _ => False end.
(** no call of the history [h], started in [m], is a successful training *)
Definition never_trains (m : cmodel) (h : list mcall) : Prop := forall h1 c h2, h = h1 ++ c :: h2 -> ~ trains (mrun m h1) c.
(** alpha and beta, lambda, or the matrices A and B *)
Definition params (m : cmodel) : ckind := match cm_kind m with FAdd ab _ _ => FAdd ab false None | k => k end.

Lemma mstep_params m c : ~ trains m c -> params (mstep m c) = params m.
Proof.
  destruct c as [d a sp|d a|L]; cbn [mstep trains]; intros H.
  - destruct (train m d a sp) as [m' r] eqn:Ht. cbn [snd fst] in *. destruct r as [[]|e]; [congruence|].
    destruct (C66_failed_train_partial _ _ _ _ _ _ Ht) as (_ & K). unfold params. destruct (cm_kind m) as [al be| |la|ab i L] eqn:Hk.
    1,2,3: rewrite K, Hk; reflexivity. destruct K as (i' & -> & _). reflexivity.
  - destruct (compose m d a) as [m' r] eqn:Hc. cbn. unfold params. rewrite (proj1 (C67_compose_repeatable _ _ _ _ _ Hc)). reflexivity.
  - unfold params, set_learner. destruct m as [[al be| |la|ab i L'] cc]; reflexivity.
Qed.
Theorem C67_last_training : forall m h,
  (never_trains m h -> params (mrun m h) = params m) /\
  (forall h1 d a sp h2, h = h1 ++ MTrain d a sp :: h2 -> trains (mrun m h1) (MTrain d a sp) -> never_trains (mrun m (h1 ++ [MTrain d a sp])) h2 ->
     params (mrun m h) = params (fst (train (mrun m h1) d a sp))).
Proof.
  assert (A : forall h m, never_trains m h -> params (mrun m h) = params m).
  { induction h as [|c h IH]; intros m H; [reflexivity|]. cbn. change (fold_left mstep h (mstep m c)) with (mrun (mstep m c) h). rewrite IH.
    - apply mstep_params. exact (H [] c h eq_refl).
    - intros h1 c' h2 ->. exact (H (c :: h1) c' h2 eq_refl). }
  intros m h. split; [apply A|]. intros h1 d a sp h2 -> Ht Hn. unfold mrun. rewrite fold_left_app. cbn [fold_left]. change (fold_left mstep h1 m) with (mrun m h1).
  change (fold_left mstep h2 (mstep (mrun m h1) (MTrain d a sp))) with (mrun (fst (train (mrun m h1) d a sp)) h2). apply A.
  unfold mrun in Hn. rewrite fold_left_app in Hn. exact Hn.
Qed.
(** training forgets the past: two models of the same class (and, for FullAdditive, with the same learner) learn the same
    parameters and succeed or fail alike, whatever was done with them before *)
Definition same_class (k k' : ckind) : Prop :=
  match k, k' with
  | WAdd _ _, WAdd _ _ | Mult, Mult | Dil _, Dil _ => True
  | FAdd _ _ L, FAdd _ _ L' => L = L'
  | _, _ => False
  end.
Theorem C67_training_forgets : forall m1 m2 d a sp, same_class (cm_kind m1) (cm_kind m2) ->
  snd (train m1 d a sp) = snd (train m2 d a sp) /\
  (snd (train m1 d a sp) = Ok tt -> fst (train m1 d a sp) = fst (train m2 d a sp)).
Proof.
  intros m1 m2 d a sp H. unfold train. destruct (cm_kind m1) as [al be| |la|ab i L], (cm_kind m2) as [al' be'| |la'|ab' i' L']; cbn [same_class] in H; try contradiction.
  - destruct (let* (s1, s2, (l1, l2, l3)) := train_lists d a sp in wadd_xxx s1 s2 sp l1 l2 l3) as [[x y]|]; cbn; split; auto; discriminate.
  - cbn; split; [reflexivity|discriminate].
  - destruct (let* (s1, s2, (l1, l2, l3)) := train_lists d a sp in let* (u, v, p) := gen_xxx s1 s2 sp l1 l2 l3 in dil_train u v p) as [x|]; cbn; split; auto; discriminate.
  - subst L'. destruct (let* (s1, s2, (l1, l2, l3)) := train_lists d a sp in gen_xxx s1 s2 sp l1 l2 l3) as [[[u v] p]|]; [|cbn; split; [reflexivity|discriminate]].
    destruct L as [L|]; [|cbn; split; [reflexivity|discriminate]]. destruct (fadd_train L u v p); cbn; split; auto; discriminate.
Qed.
(** the same for lexical functions *)
Theorem C67_lexfun : forall m1 m2 d arg phr, lf_learner m1 = lf_learner m2 -> lf_min m1 = lf_min m2 ->
  snd (lf_train m1 d arg phr) = snd (lf_train m2 d arg phr) /\
  (snd (lf_train m1 d arg phr) = Ok tt -> fst (lf_train m1 d arg phr) = fst (lf_train m2 d arg phr)).
Proof.
  intros m1 m2 d arg phr HL HM. unfold lf_train. rewrite HL, HM. destruct (lf_train_space _ _ _ _ _); cbn; split; auto; discriminate.
Qed.
End Models.

(** ** witnesses and examples over the rationals *)
Section Witness.
#[local] Existing Instance QNum.
Local Open Scope string_scope.
Local Open Scope list_scope.
Local Open Scope nat_scope.
(** an environment in which np.linalg.lstsq does not converge *)
Definition Efail : @Ext QNum := {|
  e_svd := fun _ => Err LinAlgError; e_sparsesvd := fun _ _ => Err LinAlgError; e_pinv := fun d => Ok (fun _ _ => f0);
  e_lstsq := fun _ _ => Err LinAlgError; e_rndcol := fun _ _ => 0; e_rndrow := fun _ _ => 0; e_timeout := fun _ => false |}.
Definition wsp : space := SP (MD (DM 2 2 [[f1; f0]; [f0; f1]])) ["a"; "b"] ["x"; "y"] [("a", 0%Z); ("b", 1%Z)] [("x", 0%Z); ("y", 1%Z)] [] [2].
Definition wfs : space := SP (MD (DM 1 4 [[f1; fofZ 2; fofZ 3; fofZ 4]])) ["f"] [] [("f", 0%Z)] [] [] [2; 2].
(** Refuted.  (1) A LexicalFunction given its functions: training it on data without a usable tuple fails with ValueError,
    and afterwards the model, which worked before, composes nothing any more.  (2) A FullAdditive model given A and B, with a
    regression learner set: when the least-squares routine does not converge, the same happens. *)
Theorem C66_refuted :
  (exists m m' data d2 s, mk_lexfun (Some wfs) None None = Ok m /\ data = [("f", "cow", "f cow")] /\
     @lf_train QNum Efail m data wsp wsp = (m', Err ValueError) /\ lf_compose m d2 wsp = Ok s /\ lf_compose m' d2 wsp = Err ValueError) /\
  (exists m m' data s, m = set_learner (mk_fadd (Some (MD (d_eye 2), MD (d_eye 2))) None) (mk_lstsq None) /\
     @train QNum Efail m data (One wsp) wsp = (m', Err LinAlgError) /\ snd (compose m data (One wsp)) = Ok s /\
     snd (compose m' data (One wsp)) = Err ValueError).
Proof.
  split.
  - do 2 eexists. exists [("f", "cow", "f cow")], [("f", "a", "f a")]. eexists. split; [reflexivity|]. split; [reflexivity|].
    split; [reflexivity|]. split; vm_compute; reflexivity.
  - do 2 eexists. exists [("a", "b", "a")]. eexists. split; [reflexivity|]. split; [vm_compute; reflexivity|]. split; vm_compute; reflexivity.
Qed.
(** a model that is trained, fails to train, and composes: the parameters are those of the successful training *)
Definition Eone : @Ext QNum := {|
  e_svd := fun _ => Err LinAlgError; e_sparsesvd := fun _ _ => Err LinAlgError; e_pinv := fun d => Ok (fun i j => if Nat.eqb i j then f1 else f0);
  e_lstsq := fun _ _ => Err LinAlgError; e_rndcol := fun _ _ => 0; e_rndrow := fun _ _ => 0; e_timeout := fun _ => false |}.
Example C67_example : exists x y, let hist := [MTrain [("a", "b", "b")] (One wsp) wsp; MTrain [("cow", "b", "b")] (One wsp) wsp; MCompose [("a", "b", "c")] (One wsp)] in
  @trains QNum Eone (mk_wadd None None) (MTrain [("a", "b", "b")] (One wsp) wsp) /\
  @never_trains QNum Eone (@mrun QNum Eone (mk_wadd None None) [MTrain [("a", "b", "b")] (One wsp) wsp]) [MTrain [("cow", "b", "b")] (One wsp) wsp; MCompose [("a", "b", "c")] (One wsp)] /\
  @params QNum (@mrun QNum Eone (mk_wadd None None) hist) = WAdd x y /\ x = f0 /\ y = f1.
Proof.
  exists f0, f1. cbn zeta. split; [vm_compute; reflexivity|]. split.
  - intros h1 c h2 H. destruct h1 as [|c1 [|c2 h1]]; inversion H; subst.
    + vm_compute. discriminate.
    + intros [].
    + destruct h1; discriminate.
  - split; [vm_compute; reflexivity|]. split; reflexivity.
Qed.
End Witness.
