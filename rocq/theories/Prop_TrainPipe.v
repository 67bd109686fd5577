(** Prop_TrainPipe.v -- C62 (train_composition saves the trained model), C56 (--lambda). *)
From Coq Require Import Ascii.
From Verif Require Import Base PyList Dict Num Dense Sparse Matrix Scaling Linalg Operation Similarity Space Peripheral SpecSpace Learner Composition Utils LexFun Str PStr IO SpecIO PIO Prop_IO PExport Prop_Export Pipe SpecPipe SpecPipe2 PFiles PPipe PPipe2 Prop_Pipe.
Local Open Scope string_scope.
Local Open Scope list_scope.
Local Open Scope nat_scope.

(** the file the model is saved in, without extension *)
Definition model_file (out_dir model in_name : string) : string := (out_dir ++ "/TRAINED_COMP_MODEL." ++ model ++ "." ++ in_name)%string.

Section Train.
Context {N : Num} {E : Ext} {FI : FloatIO} {PI : PipeIO}.
(** the learner chosen by the options regression, crossvalidation, intercept, lambda and lambda_range *)
Inductive learner_for (cv icpt : bool) (lambda : option F) (range : option (list F)) : option string -> learner -> Prop :=
| lf_ridge : forall r, cv = true \/ lambda <> None -> r = (match range with Some l => l | None => default_range end) ->
    learner_for cv icpt lambda range (Some "ridge") (LRidge icpt cv r lambda)
| lf_lstsq : learner_for cv icpt lambda range (Some "lstsq") (LLstsq icpt)
| lf_default : forall r, r <> Some "ridge" -> r <> Some "lstsq" -> learner_for cv icpt lambda range r (LLstsq true).
(** the untrained model named on the command line *)
Inductive model_for (cv icpt : bool) (lambda : option F) (range : option (list F)) (regression : option string) : string -> pobj -> Prop :=
| mf_wadd : model_for cv icpt lambda range regression "weighted_add" (OComp (mk_wadd None None))
| mf_dil : model_for cv icpt lambda range regression "dilation" (OComp (mk_dil None))
| mf_fadd : forall L, learner_for cv icpt lambda range regression L ->
    model_for cv icpt lambda range regression "full_add" (OComp (mk_fadd None (Some L)))
| mf_lex : forall L m, learner_for cv icpt lambda range regression L -> mk_lexfun None None (Some L) = Ok m ->
    model_for cv icpt lambda range regression "lexical_func" (OLex m).
(** training an untrained model *)
Inductive trained_as : pobj -> list tuple3 -> space -> option space -> space -> pobj -> Prop :=
| tr_comp1 : forall m data arg phr m', train m data (One arg) phr = (m', Ok tt) -> trained_as (OComp m) data arg None phr (OComp m')
| tr_comp2 : forall m data arg arg2 phr m', train m data (Tup [arg; arg2]) phr = (m', Ok tt) -> trained_as (OComp m) data arg (Some arg2) phr (OComp m')
| tr_lex : forall m data arg arg2 phr m', lf_train m data arg phr = (m', Ok tt) -> trained_as (OLex m) data arg arg2 phr (OLex m').

Lemma make_learner_for reg cv icpt lambda range x : make_learner reg cv icpt (option_map LNum lambda) range = Ok x ->
  exists L, learner_for cv icpt lambda range reg L /\ (x = Some L \/ (x = None /\ L = LLstsq true)).
Proof.
  unfold make_learner. destruct reg as [r|]; [|intros H; injection H as <-; exists (LLstsq true); split; [constructor; discriminate|auto]].
  destruct (String.eqb_spec r "ridge") as [-> |Hr].
  - intros H. apply bind_ok in H. destruct H as (L & HL & H). injection H as <-. exists L. split; [|auto].
    unfold make_ridge in HL. destruct lambda as [l|]; cbn [option_map] in HL; unfold mk_ridge in HL; apply bind_ok in HL; destruct HL as (u & Hc & HL); injection HL as <-.
    + apply lf_ridge; [right; discriminate|destruct range; reflexivity].
    + apply lf_ridge; [|destruct range; reflexivity]. destruct cv; [auto|]. discriminate.
  - destruct (String.eqb_spec r "lstsq") as [-> |Hl]; intros H; injection H as <-.
    + exists (LLstsq icpt). split; [apply lf_lstsq|auto].
    + exists (LLstsq true). split; [apply lf_default; congruence|auto].
Qed.
Lemma make_learner_total reg cv icpt lambda range : reg <> Some "ridge" \/ cv = true \/ lambda <> None ->
  exists x, make_learner reg cv icpt (option_map LNum lambda) range = Ok x.
Proof.
  intros H. unfold make_learner. destruct reg as [r|]; [|eauto]. destruct (String.eqb_spec r "ridge") as [-> |Hr]; [|destruct (String.eqb r "lstsq"); eauto].
  destruct H as [H|H]; [congruence|]. unfold make_ridge, mk_ridge. destruct lambda as [l|]; cbn [option_map].
  - rewrite orb_true_r. cbn. eauto.
  - destruct H as [-> |H]; [|congruence]. cbn. eauto.
Qed.
Lemma make_model_for model reg cv icpt lambda range o : make_model model reg cv icpt (option_map LNum lambda) range = Ok o -> model_for cv icpt lambda range reg model o.
Proof.
  unfold make_model. destruct (String.eqb_spec model "weighted_add") as [-> |_]; [intros H; injection H as <-; constructor|].
  destruct (String.eqb_spec model "dilation") as [-> |_]; [intros H; injection H as <-; constructor|].
  destruct (String.eqb_spec model "full_add") as [-> |_].
  { intros H. apply bind_ok in H. destruct H as (x & Hx & H). injection H as <-. destruct (make_learner_for _ _ _ _ _ _ Hx) as (L & HL & [-> |(-> & ->)]).
    - apply mf_fadd. exact HL.
    - change (mk_fadd None None) with (mk_fadd None (Some (LLstsq true))). apply mf_fadd. exact HL. }
  destruct (String.eqb_spec model "lexical_func") as [-> |_]; [|discriminate].
  intros H. apply bind_ok in H. destruct H as (x & Hx & H). apply bind_ok in H. destruct H as (m & Hm & H). injection H as <-. destruct (make_learner_for _ _ _ _ _ _ Hx) as (L & HL & [-> |(-> & ->)]).
  - eapply mf_lex; eassumption.
  - apply (mf_lex _ _ _ _ _ (LLstsq true)); [exact HL|exact Hm].
Qed.
Lemma train_obj_as o data arg arg2 phr o' : train_obj o data arg arg2 phr = Ok o' <-> trained_as o data arg arg2 phr o'.
Proof.
  split.
  - unfold train_obj. destruct o as [s|m|m]; [discriminate| |].
    + destruct (train m data _ phr) as [m' r] eqn:Et. intros H. apply bind_ok in H. destruct H as ([] & -> & H). injection H as <-. destruct arg2; constructor; exact Et.
    + destruct (lf_train m data arg phr) as [m' r] eqn:Et. intros H. apply bind_ok in H. destruct H as ([] & -> & H). injection H as <-. constructor; exact Et.
  - intros H. destruct H as [m data arg phr m' H|m data arg arg2 phr m' H|m data arg arg2 phr m' H]; cbn [train_obj]; rewrite H; reflexivity.
Qed.
Lemma model_file_eq out_dir model in_file nm : file_name in_file nm -> join "." [(out_dir ++ "/TRAINED_COMP_MODEL")%string; model; base_name in_file] = model_file out_dir model nm.
Proof. intros H. rewrite (base_name_file _ _ H). unfold model_file. cbn [join String.concat]. rewrite !sapp_assoc. reflexivity. Qed.

(** with its inputs in place, train_composition trains the named model on the tuples of the input file, and saves it; without
    export_params no other file changes *)
Theorem C62_trained fs in_file nm out_dir model files phrase reg cv icpt lambda range ex fs' arg arg2 phr t :
  file_name in_file nm -> spaces_at fs files arg arg2 -> space_at fs phrase phr -> text_at fs in_file t -> three_fields t ->
  train_model fs in_file out_dir model files phrase reg cv icpt (option_map LNum lambda) range ex = Ok fs' ->
  exists o o', model_for cv icpt lambda range reg model o /\ trained_as o (triples t) arg arg2 phr o' /\
    object_at fs' (model_file out_dir model nm ++ ".pkl") o' /\
    (ex = false -> only_changes (eq (model_file out_dir model nm ++ ".pkl")%string) fs fs').
Proof.
  intros Hnm Hsp Hph Ht H3 H. unfold train_model in H. apply spaces_at_ok in Hsp.
  apply bind_ok in H. destruct H as (f1 & Hf & H). rewrite Hf in Hsp. cbn [bind] in Hsp. apply bind_ok in H. destruct H as (a & Ha & H). rewrite Ha in Hsp. cbn [bind] in Hsp.
  apply bind_ok in H. destruct H as (a2 & Ha2 & H). rewrite Ha2 in Hsp. cbn [bind] in Hsp. injection Hsp as -> ->.
  rewrite (proj2 (load_space_at _ _ _) Hph) in H. cbn [bind] in H. apply bind_ok in H. destruct H as (o & Ho & H). rewrite (read_tuples_at _ _ _ Ht H3) in H. cbn [bind] in H.
  apply bind_ok in H. destruct H as (o' & Ho' & H). cbv zeta in H. rewrite (model_file_eq _ _ _ _ Hnm) in H. apply bind_ok in H. destruct H as (fs1 & Hs & H).
  destruct (save_ok _ _ _ _ Hs) as (K1 & K2). exists o, o'. split; [exact (make_model_for _ _ _ _ _ _ _ Ho)|]. split; [apply train_obj_as, Ho'|]. set (mf := model_file out_dir model nm) in *.
  destruct ex; [|injection H as <-; split; [exact K1|intros _; exact K2]]. split; [|discriminate].
  assert (Q : (mf ++ ".pkl")%string <> (mf ++ ".params")%string) by (apply suffix_neq; discriminate).
  assert (X : forall suf, (mf ++ ".pkl")%string <> ((mf ++ ".params") ++ suf)%string).
  { intros suf K. rewrite sapp_assoc in K. apply sapp_inj in K. discriminate. }
  unfold export_model in H. apply bind_ok in H. destruct H as (fs2 & Hd & H). pose proof (parents_files _ _ _ Hd) as Hd'.
  assert (W : forall c fs', write_file fs2 (mf ++ ".params") c = Ok fs' -> object_at fs' (mf ++ ".pkl") o').
  { intros c fs0 Hw. unfold object_at. rewrite (proj1 (proj2 (write_file_ok _ _ _ _ Hw))) by exact Q. rewrite Hd'. exact K1. }
  destruct o' as [s|m|m]; [discriminate| |].
  - destruct (cm_kind m) as [x y| |x|ab i L]; [exact (W _ _ H)|discriminate|exact (W _ _ H)|]. destruct ab as [[ma mb]|]; [|discriminate]. apply bind_ok in H. destruct H as (tl & _ & H). exact (W _ _ H).
  - destruct (lf_fs m) as [s|]; [|discriminate]. unfold object_at. rewrite (export_only _ _ _ _ _ H); [rewrite Hd'; exact K1|].
    intros [K|[K|[K|K]]]; exact (X _ K).
Qed.
(** and it does so whenever the options are complete, the model can be trained and the output directory is usable *)
Lemma model_for_make model reg cv icpt lambda range o : model_for cv icpt lambda range reg model o ->
  exists o', make_model model reg cv icpt (option_map LNum lambda) range = Ok o' /\ model_for cv icpt lambda range reg model o'.
Proof.
  intros H. assert (G : exists o', make_model model reg cv icpt (option_map LNum lambda) range = Ok o').
  { unfold make_model. destruct H as [| |L HL|L m HL Hm].
    - eexists. reflexivity.
    - eexists. reflexivity.
    - change (String.eqb "full_add" "weighted_add") with false. change (String.eqb "full_add" "dilation") with false. change (String.eqb "full_add" "full_add") with true. cbv iota.
      destruct (make_learner_total reg cv icpt lambda range) as (x & ->); [destruct HL; [auto|left; discriminate|left; assumption]|]. cbn [bind]. eauto.
    - change (String.eqb "lexical_func" "weighted_add") with false. change (String.eqb "lexical_func" "dilation") with false. change (String.eqb "lexical_func" "full_add") with false.
      change (String.eqb "lexical_func" "lexical_func") with true. cbv iota.
      destruct (make_learner_total reg cv icpt lambda range) as (x & ->); [destruct HL; [auto|left; discriminate|left; assumption]|]. cbn [bind]. unfold mk_lexfun. destruct x; cbn; eauto. }
  destruct G as (o' & G). exists o'. split; [exact G|]. exact (make_model_for _ _ _ _ _ _ _ G).
Qed.
Lemma learner_for_unique cv icpt lambda range reg L L' : learner_for cv icpt lambda range reg L -> learner_for cv icpt lambda range reg L' -> L = L'.
Proof. intros H K. destruct H; inversion K; subst; congruence. Qed.
Lemma model_for_unique cv icpt lambda range reg model o o' : model_for cv icpt lambda range reg model o -> model_for cv icpt lambda range reg model o' -> o = o'.
Proof.
  intros H K. destruct H as [| |L HL|L m HL Hm]; inversion K as [| |L' HL'|L' m' HL' Hm']; subst; try reflexivity; pose proof (learner_for_unique _ _ _ _ _ _ _ HL HL'); subst; [reflexivity|]. congruence.
Qed.
Theorem C62_total fs in_file nm root dirs model files phrase reg cv icpt lambda range arg arg2 phr t o o' :
  file_name in_file nm -> spaces_at fs files arg arg2 -> space_at fs phrase phr -> text_at fs in_file t -> three_fields t ->
  model_for cv icpt lambda range reg model o -> trained_as o (triples t) arg arg2 phr o' ->
  dirs <> [] -> usable_prefix fs root dirs ("TRAINED_COMP_MODEL." ++ model ++ "." ++ nm ++ ".pkl") -> fs_dir fs (model_file (path root dirs) model nm ++ ".pkl") = false ->
  exists fs', train_model fs in_file (path root dirs) model files phrase reg cv icpt (option_map LNum lambda) range false = Ok fs'.
Proof.
  intros Hnm Hsp Hph Ht H3 Hm Htr Hdirs Hu Hdir. unfold train_model. apply spaces_at_ok in Hsp.
  destruct (head_file files) as [f1|]; [|discriminate]. cbn [bind] in *. destruct (load_space fs f1) as [a|]; [|discriminate]. cbn [bind] in *. destruct (load_second fs files) as [a2|]; [|discriminate]. cbn [bind] in *.
  injection Hsp as -> ->. rewrite (proj2 (load_space_at _ _ _) Hph). cbn [bind].
  destruct (model_for_make _ _ _ _ _ _ _ Hm) as (o2 & -> & Ho2). cbn [bind]. rewrite (model_for_unique _ _ _ _ _ _ _ _ Ho2 Hm). rewrite (read_tuples_at _ _ _ Ht H3). cbn [bind].
  rewrite (proj2 (train_obj_as _ _ _ _ _ _) Htr). cbn [bind]. cbv zeta. rewrite (model_file_eq _ _ _ _ Hnm).
  assert (EP : (model_file (path root dirs) model nm ++ ".pkl")%string = path root (dirs ++ [("TRAINED_COMP_MODEL." ++ model ++ "." ++ nm ++ ".pkl")%string])).
  { rewrite path_snoc by exact Hdirs. unfold model_file. rewrite !sapp_assoc. reflexivity. }
  rewrite EP in *. set (pkl := ("TRAINED_COMP_MODEL." ++ model ++ "." ++ nm ++ ".pkl")%string) in *.
  destruct (parent_created fs root dirs pkl Hu) as (fs1 & Hp & Hf & Hd & Hnew). unfold save. rewrite Hp. cbn [bind].
  destruct (write_file_total fs1 (path root (dirs ++ [pkl])) (Pickle o')) as (fs2 & ->); [apply path_nonempty, Hu| |right; exact Hd|cbn [bind]; eauto].
  destruct (fs_dir fs1 (path root (dirs ++ [pkl]))) eqn:Ed; [|reflexivity]. destruct (Hnew _ Ed) as [K|K]; [congruence|]. exfalso. rewrite path_snoc, !slength_app in K by exact Hdirs. cbn in K. lia.
Qed.
(** the parameter export of the two models with numeric parameters *)
Theorem C62_params fs o file fs' : export_model fs o file = Ok fs' ->
  (forall m a b, o = OComp m -> cm_kind m = WAdd a b -> text_at fs' file ("alpha" ++ tabs ++ ffmt a ++ nl ++ "beta" ++ tabs ++ ffmt b)) /\
  (forall m l, o = OComp m -> cm_kind m = Dil l -> text_at fs' file ("lambda" ++ tabs ++ ffmt l)).
Proof.
  intros H. unfold export_model in H. apply bind_ok in H. destruct H as (fs1 & _ & H). split; intros; subst o; rewrite H1 in H; exact (proj1 (write_file_ok _ _ _ _ H)).
Qed.
End Train.
