(** Prop_Lambda.v -- C56: the lambda given to train_composition. *)
From Coq Require Import Ascii Reals Lra.
From Verif Require Import Base PyList Dict Num SpecReal Dense Sparse Matrix PSparse PMatrix PMatOps PShape PVals PReal PPos Scaling Linalg
  PLsq Learner Operation Similarity Space Peripheral SpecSpace PDictList PSpace Prop_Periph Composition SpecComp PComp Prop_Ridge Prop_Train Prop_Comp Prop_Fadd Utils LexFun PLexFun Prop_LexFun
  Str PStr IO SpecIO PIO Prop_IO PExport Prop_Export Pipe SpecPipe SpecPipe2 PFiles PPipe PPipe2 Prop_Pipe Prop_TrainPipe Qio Pio.
Local Open Scope string_scope.
Local Open Scope list_scope.
Local Open Scope R_scope.
Local Open Scope nat_scope.

(** ** refuted: with --lambda_range and cross-validation off, training a model with ridge regression never succeeds,
    whatever --lambda is *)
Section Refuted.
Context {N : Num} {E : Ext} {FI : FloatIO} {PI : PipeIO}.
Lemma no_number_train i r a b X : learner_train (LRidge i false r None) a b <> Ok X.
Proof. cbn [learner_train]. destruct (same_type a b); cbn [bind]; [|discriminate]. destruct (assert_same_nr a b); cbn [bind]; discriminate. Qed.
Lemma no_number_fadd i r data a phr m' : train (mk_fadd None (Some (LRidge i false r None))) data a phr <> (m', Ok tt).
Proof.
  cbn [mk_fadd]. unfold train. cbn [cm_kind]. intros H. destruct (let* (s1, s2, (l1, l2, l3)) := _ in _) as [[[u v] p]|e]; [|discriminate].
  destruct (fadd_train _ u v p) as [x|e] eqn:Ef; [|discriminate]. unfold fadd_train in Ef. apply bind_ok in Ef. destruct Ef as (uv & _ & Ef). apply bind_ok in Ef. destruct Ef as (X & HX & _). exact (no_number_train _ _ _ _ _ HX).
Qed.
Lemma no_number_lex i r m data a phr m' : mk_lexfun None None (Some (LRidge i false r None)) = Ok m -> lf_train m data a phr <> (m', Ok tt).
Proof.
  cbn. intros Hm. injection Hm as <-. unfold lf_train. cbn [lf_learner lf_min]. intros H. destruct (lf_train_space _ _ data a phr) as [s|e] eqn:Es; [|discriminate]. unfold lf_train_space in Es.
  apply bind_ok in Es. destruct Es as ([[l1 l2] l3] & _ & Es). apply bind_ok in Es. destruct Es as ([keys ranges] & _ & Es). apply bind_ok in Es. destruct Es as (_ & _ & Es). apply bind_ok in Es. destruct Es as (_ & _ & Es).
  apply bind_ok in Es. destruct Es as (rs & Hrs & Es). apply bind_ok in Es. destruct Es as (mat & Hmat & _). destruct ranges as [|[x y] ranges].
  - cbn in Hrs. injection Hrs as <-. cbn in Hmat. discriminate.
  - cbn [mapM] in Hrs. apply bind_ok in Hrs. destruct Hrs as (z & Hz & _). unfold lf_learn in Hz. apply bind_ok in Hz. destruct Hz as (am & _ & Hz). apply bind_ok in Hz. destruct Hz as (pm & _ & Hz).
    apply bind_ok in Hz. destruct Hz as ([am' pm'] & _ & Hz). apply bind_ok in Hz. destruct Hz as (X & HX & _). exact (no_number_train _ _ _ _ _ HX).
Qed.
Theorem C56_lambda_range_refuted fs args given config model range : command_line train_options given config args -> config_may_miss fs config ->
  let opt names key := first_of (last_given names given) (config_value fs config "train_composition" key) in
  opt ["--lambda_range"] "lambda_range" = Some range -> opt ["-r"; "--regression"] "regression" = Some "ridge" ->
  py_eval (with_default (opt ["--crossvalidation"] "crossvalidation") "False") = Ok (Some false) ->
  opt ["-m"; "--model"] "model" = Some model -> model = "full_add" \/ model = "lexical_func" ->
  forall fs', main_train fs args <> Ok fs'.
Proof.
  intros HL HC opt Hr Hreg Hcv Hm Hmod fs' H. rewrite (C55_train fs args given config HL HC) in H. cbv zeta in H.
  repeat match type of H with context [first_of (last_given ?n given) (config_value fs config _ ?k)] => change (first_of (last_given n given) (config_value fs config "train_composition" k)) with (opt n k) in H end.
  rewrite Hm, Hreg, Hr, Hcv in H. apply bind_ok in H. destruct H as (fs1 & _ & H).
  destruct (opt ["-i"; "--input"] "input") as [i|]; [|discriminate]. destruct (opt ["-o"; "--output"] "output") as [o|]; [|discriminate].
  destruct (opt ["-a"; "--arg_space"] "arg_space") as [a|]; [|discriminate]. destruct (opt ["-p"; "--phrase_space"] "phrase_space") as [p|]; [|discriminate]. cbn [bind] in H.
  apply bind_ok in H. destruct H as ([ic|] & _ & H); [|discriminate]. apply bind_ok in H. destruct H as (ex & _ & H). apply bind_ok in H. destruct H as ([pa ra] & Hpa & H).
  unfold train_params in Hpa. apply bind_ok in Hpa. destruct Hpa as (l & _ & Hpa). cbn [option_map] in Hpa. apply bind_ok in Hpa. destruct Hpa as (rr & _ & Hpa). injection Hpa as <- <-.
  unfold train_model in H. apply bind_ok in H. destruct H as (f1 & _ & H). apply bind_ok in H. destruct H as (arg & _ & H). apply bind_ok in H. destruct H as (arg2 & _ & H). apply bind_ok in H. destruct H as (phr & _ & H).
  apply bind_ok in H. destruct H as (ob & Hob & H). apply bind_ok in H. destruct H as (data & _ & H). apply bind_ok in H. destruct H as (o' & Ho' & _). apply train_obj_as in Ho'.
  destruct Hmod as [-> | ->]; cbn in Hob; injection Hob as <-.
  - inversion Ho' as [m d x y m' K|m d x x2 y m' K|]; subst; exact (no_number_fadd _ _ _ _ _ _ K).
  - inversion Ho' as [| |m d x x2 y m' K]; subst. refine (no_number_lex _ _ _ _ _ _ _ _ K). reflexivity.
Qed.
End Refuted.

(** ** without --lambda_range the saved model is the optimum for that lambda *)
#[local] Existing Instance RNum.
Section Lambda.
Context {E : Ext} {FI : FloatIO} {PI : PipeIO}.
(** the parts of the command line and the files that are the same for both models *)
Definition ridge_run (fs : fsys) (args : list string) (given : list (string * string)) (config : option string)
    (i out model a p : string) (x : R) (icpt : bool) (t : string) (arg : space) (arg2 : option space) (phr : space) (nm : string) : Prop :=
  command_line train_options given config args /\ config_may_miss fs config /\
  let opt names key := first_of (last_given names given) (config_value fs config "train_composition" key) in
  opt ["-i"; "--input"] "input" = Some i /\ opt ["-o"; "--output"] "output" = Some out /\ opt ["-m"; "--model"] "model" = Some model /\
  opt ["-a"; "--arg_space"] "arg_space" = Some a /\ opt ["-p"; "--phrase_space"] "phrase_space" = Some p /\
  opt ["-r"; "--regression"] "regression" = Some "ridge" /\
  (exists txt, opt ["--lambda"] "lambda" = Some txt /\ fparse txt = Some x) /\ (0 <= x)%R /\ opt ["--lambda_range"] "lambda_range" = None /\
  py_eval (with_default (opt ["--crossvalidation"] "crossvalidation") "False") = Ok (Some false) /\
  py_eval (with_default (opt ["--intercept"] "intercept") "True") = Ok (Some icpt) /\
  file_name i nm /\ text_at fs i t /\ three_fields t /\ spaces_at fs (commas a) arg arg2 /\ space_at fs p phr /\
  consistent arg /\ consistent phr /\ (forall s, arg2 = Some s -> consistent s).
Lemma ridge_run_saved fs args given config i out model a p x icpt t arg arg2 phr nm fs' :
  ridge_run fs args given config i out model a p x icpt t arg arg2 phr nm -> main_train fs args = Ok fs' ->
  exists o o', model_for false icpt (Some x) None (Some "ridge") model o /\ trained_as o (triples t) arg arg2 phr o' /\
    object_at fs' (model_file out model nm ++ ".pkl") o'.
Proof.
  intros (HL & HC & R) H. rewrite (C55_train fs args given config HL HC) in H. cbv zeta in R, H.
  set (opt := fun names key => first_of (last_given names given) (config_value fs config "train_composition" key)) in *.
  repeat match type of H with context [first_of (last_given ?n given) (config_value fs config _ ?k)] => change (first_of (last_given n given) (config_value fs config "train_composition" k)) with (opt n k) in H end.
  repeat match type of R with context [first_of (last_given ?n given) (config_value fs config _ ?k)] => change (first_of (last_given n given) (config_value fs config "train_composition" k)) with (opt n k) in R end.
  destruct R as (Hi & Ho & Hm & Ha & Hp & Hr & (txt & Hl & Hx) & Hx0 & Hlr & Hcv & Hic & Hnm & Ht & H3 & Hsp & Hph & _).
  rewrite Hi, Ho, Hm, Ha, Hp, Hr, Hl, Hlr, Hcv, Hic in H. apply bind_ok in H. destruct H as (fs1 & Hlog & H). cbn [bind option_map] in H. apply bind_ok in H. destruct H as (ex & _ & H).
  unfold train_params, opt_float, parse_num in H. rewrite Hx in H. cbn [bind option_map] in H.
  destruct (C62_trained fs1 i nm out model (commas a) p (Some "ridge") false icpt (Some x) None ex fs' arg arg2 phr t Hnm) as (o & o' & K1 & K2 & K3 & _); try assumption.
  - eapply spaces_at_keep; [|exact Hsp]. intros q c. apply (logging_keeps _ _ _ _ _ Hlog).
  - exact (logging_keeps _ _ _ _ _ Hlog Hph).
  - exact (logging_keeps _ _ _ _ _ Hlog Ht).
  - exists o, o'. auto.
Qed.
(** the full claim has no condition on --lambda_range (see C56_lambda_range_refuted) *)
Theorem C56_full_add_partial fs args given config i out a p x icpt t arg arg2 phr nm fs' : pinv_correct -> pinv_converges -> lstsq_correct ->
  ridge_run fs args given config i out "full_add" a p x icpt t arg arg2 phr nm -> main_train fs args = Ok fs' ->
  let arg2' := match arg2 with Some s => s | None => arg end in
  exists m At Bt, object_at fs' (model_file out "full_add" nm ++ ".pkl") (OComp m) /\ (exists L, cm_kind m = FAdd (Some (At, Bt)) icpt L) /\
    forall At' Bt', (fadd_error arg arg2' phr (filter (usable3 arg arg2' phr) (triples t)) x icpt (ment At) (ment Bt)
                     <= fadd_error arg arg2' phr (filter (usable3 arg arg2' phr) (triples t)) x icpt At' Bt')%R.
Proof.
  intros HP HQ HLs HR H arg2'. destruct (ridge_run_saved _ _ _ _ _ _ _ _ _ _ _ _ _ _ _ _ _ HR H) as (o & o' & Ho & Ho' & Hat). destruct HR as (_ & _ & HR). cbv zeta in HR.
  destruct HR as (_ & _ & _ & _ & _ & _ & _ & Hx0 & _ & _ & _ & _ & _ & _ & _ & _ & C1 & C3 & C2).
  inversion Ho as [| |L HL E1 E2|]; subst. inversion HL as [r Hor Hr E3 E4| |r Hn1 Hn2 E3 E4]; subst; [|congruence].
  assert (C2' : consistent arg2') by (unfold arg2'; destruct arg2; [apply C2; reflexivity|exact C1]).
  assert (G : forall aa m', args_of aa arg arg2' -> train (mk_fadd None (Some (LRidge icpt false default_range (Some x)))) (triples t) aa phr = (m', Ok tt) ->
    exists At Bt, (exists L, cm_kind m' = FAdd (Some (At, Bt)) icpt L) /\
    forall At' Bt', (fadd_error arg arg2' phr (filter (usable3 arg arg2' phr) (triples t)) x icpt (ment At) (ment Bt)
                     <= fadd_error arg arg2' phr (filter (usable3 arg arg2' phr) (triples t)) x icpt At' Bt')%R).
  { intros aa m' Haa Ht. destruct (C39_optimal (mk_fadd None (Some (LRidge icpt false default_range (Some x)))) None icpt (LRidge icpt false default_range (Some x)) (triples t) aa arg arg2' phr m' HP HQ HLs Hx0 C1 C2' C3 Haa eq_refl Ht) as (At & Bt & lambda & Hk & Hla & _ & _ & Hopt). cbn in Hla. subst lambda.
    exists At, Bt. split; [eauto|exact Hopt]. }
  inversion Ho' as [m d aa y m' K|m d aa a2 y m' K|]; subst.
  - destruct (G (One arg) m' (or_introl (conj eq_refl eq_refl)) K) as (At & Bt & Hk & Hopt). exists m', At, Bt. auto.
  - destruct (G (Tup [arg; a2]) m' (or_intror eq_refl) K) as (At & Bt & Hk & Hopt). exists m', At, Bt. auto.
Qed.
Theorem C56_lexical_func_partial fs args given config i out a p x icpt t arg arg2 phr nm fs' : pinv_correct -> pinv_converges -> lstsq_correct ->
  ridge_run fs args given config i out "lexical_func" a p x icpt t arg arg2 phr nm -> main_train fs args = Ok fs' ->
  let n' := domain (m_nc (s_mat arg)) icpt in (Z.of_nat (m_nc (s_mat phr)) * Z.of_nat n' < 2 ^ 63)%Z ->
  exists m functions, object_at fs' (model_file out "lexical_func" nm ++ ".pkl") (OLex m) /\ lf_fs m = Some functions /\
    (forall f, In f (s_id2row functions) <-> samples arg phr (triples t) f <> []) /\
    forall f, In f (s_id2row functions) -> forall U,
      (lf_cost arg phr (samples arg phr (triples t) f) x icpt (fmatrix functions f n')
       <= lf_cost arg phr (samples arg phr (triples t) f) x icpt U)%R.
Proof.
  intros HP HQ HLs HR H n' Hz. destruct (ridge_run_saved _ _ _ _ _ _ _ _ _ _ _ _ _ _ _ _ _ HR H) as (o & o' & Ho & Ho' & Hat). destruct HR as (_ & _ & HR). cbv zeta in HR.
  destruct HR as (_ & _ & _ & _ & _ & _ & _ & Hx0 & _ & _ & _ & _ & _ & _ & _ & _ & C1 & C3 & C2).
  inversion Ho as [| | |L m HL Hm E1 E2]; subst. inversion HL as [r Hor Hr E3 E4| |r Hn1 Hn2 E3 E4]; subst; [|congruence].
  cbn -[default_range] in Hm. injection Hm as <-. inversion Ho' as [| |m d aa a2 y m' K]; subst. 
  destruct (C40_train (LF None false (LRidge icpt false default_range (Some x)) [] 1) (triples t) arg phr m' C1 C3 Hz K) as (functions & Em & _ & _ & _ & Hin & _).
  exists m', functions. split; [exact Hat|]. split; [rewrite Em; reflexivity|]. split.
  - intros f. rewrite Hin. cbn [lf_min]. destruct (samples arg phr (triples t) f) as [|q qs]; cbn [length]; [split; [lia|congruence]|split; [discriminate|lia]].
  - intros f Hf U. destruct (C40_optimal (LF None false (LRidge icpt false default_range (Some x)) [] 1) (triples t) arg phr m' functions HP HQ HLs Hx0 C1 C3 Hz K) with (f := f) as (lambda & Hla & Hopt); [rewrite Em; reflexivity|exact Hf|]. cbn in Hla. subst lambda. exact (Hopt U).
Qed.
End Lambda.

(** ** the hypotheses are met, and the run succeeds *)
Definition Rio : @FloatIO RNum := {| fparse := fun s => option_map IZR (Qio.zparse s); frepr := fun _ => "x"; ffmt := fun _ => "x"; fstr := fun _ => "x"; iparse := Qio.zparse |}.
Section Ex.
#[local] Existing Instance Epi.
#[local] Existing Instance Rio.
Definition lam_text : string := ("a b ab" ++ nl ++ "a zz ab" ++ nl ++ nl ++ "b a ba x" ++ nl)%string.
Definition lam_fs : fsys := FS (fun q => if String.eqb q "data/d.txt" then Some (Text lam_text) else if String.eqb q "s/arg.pkl" then Some (Pickle (OSpace ex_arg1))
  else if String.eqb q "s/phr.pkl" then Some (Pickle (OSpace ex_phr1)) else if String.eqb q "my.cfg" then Some (Text ("lambda 7" ++ nl ++ "regression ridge")%string) else None) (fun q => String.eqb q "data" || String.eqb q "s").
Definition lam_given (range : list (string * string)) : list (string * string) :=
  [("-i", "data/d.txt"); ("-o", "out"); ("-m", "full_add"); ("--lambda", "1"); ("--intercept", "False"); ("-a", "s/arg.pkl"); ("-p", "s/phr.pkl")] ++ range.
Definition lam_args (range : list (string * string)) : list string := flat_map (fun ov => [fst ov; snd ov]) (lam_given range) ++ ["my.cfg"].
Lemma lam_line range : Forall (fun ov => In (fst ov) train_options) range -> command_line train_options (lam_given range) (Some "my.cfg") (lam_args range).
Proof.
  intros H. unfold lam_args. assert (G : Forall (fun ov => In (fst ov) train_options) (lam_given range)).
  { unfold lam_given. apply Forall_app. split; [repeat (constructor; [cbn; tauto|]); constructor|exact H]. }
  induction G as [|[o v] l Ho Hl IH]; [apply cl_config; reflexivity|]. cbn [flat_map app fst snd]. refine (cl_option train_options o v [o; v] l (Some "my.cfg") _ Ho (or_introl eq_refl) IH).
Qed.
Lemma lam_fields : three_fields lam_text.
Proof. unfold three_fields. replace (records lam_text) with [["a"; "b"; "ab"]; ["a"; "zz"; "ab"]; ["b"; "a"; "ba"; "x"]] by (vm_compute; reflexivity). repeat (constructor; [cbn; lia|]); constructor. Qed.
Lemma lam_run : ridge_run lam_fs (lam_args []) (lam_given []) (Some "my.cfg") "data/d.txt" "out" "full_add" "s/arg.pkl" "s/phr.pkl" 1%R false lam_text ex_arg1 None ex_phr1 "d.txt".
Proof.
  split; [apply lam_line; constructor|]. split; [intros p o Hp; injection Hp as <-; discriminate|]. cbv zeta.
  repeat (split; [reflexivity|]). split; [exists "1"; split; reflexivity|]. split; [apply Rle_0_1|]. repeat (split; [reflexivity|]).
  split; [split; [cbn; intros K; repeat (destruct K as [K|K]; [discriminate|]); exact K|right; exists "data"; reflexivity]|].
  split; [reflexivity|]. split; [exact lam_fields|]. split; [apply sp_one; [discriminate|reflexivity]|]. split; [reflexivity|].
  split; [exact ex_arg1_consistent|]. split; [exact ex_phr1_consistent|]. discriminate.
Qed.
Example C56_example : exists fs', main_train lam_fs (lam_args []) = Ok fs'.
Proof.
  rewrite (C55_train lam_fs (lam_args []) (lam_given []) (Some "my.cfg")); [|apply lam_line; constructor|intros p o Hp; injection Hp as <-; discriminate].
  destruct (@C39_total Epi (mk_fadd None (Some (LRidge false false default_range (Some 1%R)))) None false (LRidge false false default_range (Some 1%R)) (triples lam_text) (One ex_arg1) ex_arg1 ex_arg1 ex_phr1) as (m' & Hm).
  - intros d _ Hr Hc. cbn in Hr, Hc. cbn [e_pinv Epi]. unfold pinv_small. rewrite Hr, Hc. eauto.
  - exact I.
  - exact ex_arg1_consistent.
  - exact ex_arg1_consistent.
  - exact ex_phr1_consistent.
  - left; auto.
  - reflexivity.
  - reflexivity.
  - discriminate.
  - destruct (C62_total lam_fs "data/d.txt" "d.txt" "" ["out"] "full_add" ["s/arg.pkl"] "s/phr.pkl" (Some "ridge") false false (Some 1%R) None ex_arg1 None ex_phr1 lam_text
      (OComp (mk_fadd None (Some (LRidge false false default_range (Some 1%R))))) (OComp m')) as (fs' & Hfs).
    + split; [cbn; intros K; repeat (destruct K as [K|K]; [discriminate|]); exact K|right; exists "data"; reflexivity].
    + apply sp_one; [discriminate|reflexivity].
    + reflexivity.
    + reflexivity.
    + exact lam_fields.
    + apply mf_fadd, lf_ridge; [right; discriminate|reflexivity].
    + apply tr_comp1, Hm.
    + discriminate.
    + assert (NM : forall s, s = "out" \/ s = "TRAINED_COMP_MODEL.full_add.d.txt.pkl" -> name s).
      { intros s [-> | ->]; (split; [discriminate|split; [discriminate|cbn; intros K; repeat (destruct K as [K|K]; [discriminate|]); exact K]]). }
      split; [left; reflexivity|]. split; [constructor; [apply NM; auto|constructor]|]. split; [apply NM; auto|]. split; [right; discriminate|]. split; [discriminate|].
      intros x y Hxy Hx. destruct x as [|x0 x]; [congruence|]. injection Hxy as <- Hxy. destruct x; [reflexivity|discriminate].
    + reflexivity.
    + exists fs'. exact Hfs.
Qed.
(** and the refuted case: the same command line with a range *)
Example C56_range_example : forall fs', main_train lam_fs (lam_args [("--lambda_range", "1,2")]) <> Ok fs'.
Proof.
  apply (C56_lambda_range_refuted lam_fs _ (lam_given [("--lambda_range", "1,2")]) (Some "my.cfg") "full_add" "1,2"); [apply lam_line; repeat constructor; cbn; tauto|intros p o Hp; injection Hp as <-; discriminate| | | | |]; try reflexivity. left. reflexivity.
Qed.
End Ex.
