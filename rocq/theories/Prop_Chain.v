(** Prop_Chain.v -- property C90: running the command-line tools one after the other, each on the files the one before wrote,
    computes what the toolkit computes in one program. *)
From Coq Require Import Ascii.
From Verif Require Import Base PyList Dict Num Dense Sparse Matrix Scaling Linalg Operation Similarity Space Peripheral SpecSpace Learner Composition Utils LexFun Str PStr IO SpecIO PIO Prop_IO PExport Prop_Export Pipe SpecPipe SpecPipe2 PFiles PPipe PPipe2 PSave SpecCore PCore Prop_Core SpecPipe3 PPipe3 Prop_Sims Prop_Batch Prop_TrainPipe Qio Pio.
Local Open Scope string_scope.
Local Open Scope list_scope.
Local Open Scope nat_scope.
Section Chain.
Context {N : Num} {E : Ext} {FI : FloatIO} {PI : PipeIO}.

(** ** specification *)
(** the class of the models the training tool can train *)
Inductive class_named : string -> string -> Prop :=
| cn_wadd : class_named "weighted_add" "WeightedAdditive"
| cn_dil : class_named "dilation" "Dilation"
| cn_fadd : class_named "full_add" "FullAdditive"
| cn_lex : class_named "lexical_func" "LexicalFunction".
(** the outputs of building the core spaces, of training and of composing *)
Definition core_output (out_dir in_name : string) (ws xs rs ns : list (option string)) (q : string) : Prop :=
  exists c, combos ws xs rs ns c /\ saved_target (core_file out_dir in_name c) q.

(** ** proof *)
Lemma text_kept P fs fs' p t : only_changes P fs fs' -> ~ P p -> text_at fs p t -> text_at fs' p t.
Proof. intros H Hp Ht. unfold text_at. rewrite (H p Hp). exact Ht. Qed.
Lemma space_kept P fs fs' p s : only_changes P fs fs' -> ~ P p -> space_at fs p s -> space_at fs' p s.
Proof. intros H Hp Ht. unfold space_at, object_at. rewrite (H p Hp). exact Ht. Qed.
Lemma train_kind m data a phr m' : train m data a phr = (m', Ok tt) ->
  match cm_kind m, cm_kind m' with WAdd _ _, WAdd _ _ | Mult, Mult | Dil _, Dil _ | FAdd _ _ _, FAdd _ _ _ => True | _, _ => False end.
Proof.
  unfold train. intros H. destruct (cm_kind m); repeat match type of H with (match ?X with _ => _ end) = _ => destruct X end; try discriminate H; injection H as <-; cbn [cm_kind]; exact I.
Qed.
Lemma trained_class cv icpt lambda range reg model cl o data arg arg2 phr o' : class_named model cl -> model_for cv icpt lambda range reg model o ->
  trained_as o data arg arg2 phr o' -> class_of o' cl /\ forall s, o' <> OSpace s.
Proof.
  intros Hc Hm Ht.
  assert (G : forall m m' : cmodel, match cm_kind m, cm_kind m' with WAdd _ _, WAdd _ _ | Mult, Mult | Dil _, Dil _ | FAdd _ _ _, FAdd _ _ _ => True | _, _ => False end ->
     class_of (OComp m) cl -> class_of (OComp m') cl).
  { intros m m' K H. destruct (cm_kind m') eqn:Q'; inversion H as [? ? ? Q|? Q|? ? Q|? ? ? ? Q|]; subst; rewrite Q in K; try contradiction; econstructor; exact Q'. }
  assert (O : class_of o cl).
  { destruct Hm; inversion Hc; subst; try (econstructor; reflexivity). }
  destruct Ht as [m data arg phr m' H|m data arg arg2 phr m' H|m data arg arg2 phr m' H]; (split; [|discriminate]).
  - exact (G _ _ (train_kind _ _ _ _ _ H) O).
  - exact (G _ _ (train_kind _ _ _ _ _ H) O).
  - inversion O; subst. constructor.
Qed.
Lemma class_fun o c c' : class_of o c -> class_of o c' -> c = c'.
Proof. intros H H'. rewrite <- (class_of_eq _ _ H), <- (class_of_eq _ _ H'). reflexivity. Qed.

(** ** C90 *)
(** training, then composing with the saved model *)
Theorem C90_train_compose : forall fs in1 nm1 tdir model cl files phrase reg cv icpt lambda range fs1 arg arg2 phr t1
    in2 nm2 odir files2 al be la fmt fs2 arg' arg2' t2,
  file_name in1 nm1 -> spaces_at fs files arg arg2 -> space_at fs phrase phr -> text_at fs in1 t1 -> three_fields t1 -> class_named model cl ->
  train_model fs in1 tdir model files phrase reg cv icpt (option_map LNum lambda) range false = Ok fs1 ->
  file_name in2 nm2 -> spaces_at fs files2 arg' arg2' -> text_at fs in2 t2 -> three_fields t2 ->
  (forall q, q = in2 \/ In q files2 -> q <> (model_file tdir model nm1 ++ ".pkl")%string) ->
  apply_model fs1 in2 odir None (Some (model_file tdir model nm1 ++ ".pkl")%string) files2 al be la fmt = Ok fs2 ->
  exists o o' s, model_for cv icpt lambda range reg model o /\ trained_as o (triples t1) arg arg2 phr o' /\ composed_as o' (triples t2) arg' arg2' s /\
    space_at fs2 (composed_file odir cl nm2 ++ ".pkl") s /\ (forall f, fmt = Some f -> exported fs2 (composed_file odir cl nm2) f s).
Proof.
  intros fs in1 nm1 tdir model cl files phrase reg cv icpt lambda range fs1 arg arg2 phr t1 in2 nm2 odir files2 al be la fmt fs2 arg' arg2' t2
    Hn1 Hs1 Hp Ht1 H31 Hcl H1 Hn2 Hs2 Ht2 H32 Hk H2.
  destruct (C62_trained fs in1 nm1 tdir model files phrase reg cv icpt lambda range false fs1 arg arg2 phr t1 Hn1 Hs1 Hp Ht1 H31 H1) as (o & o' & Hm & Htr & Ho & Hch).
  specialize (Hch eq_refl). set (mf := (model_file tdir model nm1 ++ ".pkl")%string) in *.
  assert (Hs2' : spaces_at fs1 files2 arg' arg2').
  { destruct Hs2 as [f g s s2 A B|f r s L A]; constructor; try assumption; (eapply space_kept; [exact Hch| |eassumption]); intros K; symmetry in K; revert K; apply Hk; right; cbn; auto. }
  assert (Ht2' : text_at fs1 in2 t2) by (eapply text_kept; [exact Hch| |exact Ht2]; intros K; symmetry in K; revert K; apply Hk; auto).
  destruct (C63_composed fs1 in2 nm2 odir None (Some mf) files2 al be la fmt fs2 arg' arg2' t2 Hn2 Hs2' Ht2' H32 H2) as (ou & c & s & Hu & Hc & Hco & Hsp & Hex & _).
  assert (Eo : ou = o').
  { inversion Hu as [| | |p ox K _]; subst. unfold object_at in *. congruence. }
  subst ou. destruct (trained_class _ _ _ _ _ _ _ _ _ _ _ _ _ Hcl Hm Htr) as (Hc' & _). assert (c = cl) by exact (class_fun _ _ _ Hc Hc'). subst c.
  exists o, o', s. auto 6.
Qed.

(** building core spaces, training on one of them, composing with the model, and comparing the composed phrases *)
Theorem C90_experiment : forall fs0 in_prefix in_name in_format cdir cfmt ws xs rs ns gz fs1 c
    in1 nm1 tdir model cl phrase reg cv icpt lambda range fs2 phr t1
    in2 nm2 odir al be la fmt fs3 t2
    in3 nm3 a0 a1 c0 c1 sdir measures d fs4 t3,
  let core := (core_file cdir in_name c ++ ".pkl")%string in
  let learnt := (model_file tdir model nm1 ++ ".pkl")%string in
  let composed := (composed_file odir cl nm2 ++ ".pkl")%string in
  (* build_core_space *)
  file_name in_prefix in_name -> unambiguous in_name ws xs rs ns -> combos ws xs rs ns c ->
  build_spaces fs0 in_prefix in_format cdir cfmt ws xs rs ns gz = Ok fs1 ->
  (* train_composition, on that core space *)
  file_name in1 nm1 -> space_at fs0 phrase phr -> text_at fs0 in1 t1 -> three_fields t1 -> class_named model cl ->
  train_model fs1 in1 tdir model [core] phrase reg cv icpt (option_map LNum lambda) range false = Ok fs2 ->
  (* apply_composition, with the trained model *)
  file_name in2 nm2 -> text_at fs0 in2 t2 -> three_fields t2 ->
  apply_model fs2 in2 odir None (Some learnt) [core] al be la fmt = Ok fs3 ->
  (* compute_similarities, of the composed phrases *)
  file_name in3 nm3 -> iparse a0 = Some c0 -> iparse a1 = Some c1 -> text_at fs0 in3 t3 -> described [composed] d ->
  compute_sim fs3 in3 [a0; a1] sdir measures [composed] = Ok fs4 ->
  (* no tool overwrites the input of a later one *)
  (forall q, In q [phrase; in1; in2; in3] -> ~ core_output cdir in_name ws xs rs ns q) ->
  (forall q, In q [core; in2; in3] -> q <> learnt) -> ~ saved_target (composed_file odir cl nm2) in3 ->
  exists s ts arg o o' phrases, input_space fs0 in_prefix gz in_format s /\ means c ts /\ applied s ts arg /\
    model_for cv icpt lambda range reg model o /\ trained_as o (triples t1) arg None phr o' /\ composed_as o' (triples t2) arg None phrases /\
    forall m sim, In m measures -> measure_named m sim ->
      exists out, sim_lines phrases None sim c0 c1 t3 out /\ text_at fs4 (result_file sdir "SIMS" nm3 d m) out.
Proof.
  intros fs0 in_prefix in_name in_format cdir cfmt ws xs rs ns gz fs1 c in1 nm1 tdir model cl phrase reg cv icpt lambda range fs2 phr t1
    in2 nm2 odir al be la fmt fs3 t2 in3 nm3 a0 a1 c0 c1 sdir measures d fs4 t3 core learnt composed
    Hn0 Hun Hc H1 Hn1 Hph Ht1 H31 Hcl H2 Hn2 Ht2 H32 H3 Hn3 Ea0 Ea1 Ht3 Hd H4 K1 K2 K3.
  destruct (C54_saved fs0 in_prefix in_name in_format cdir cfmt ws xs rs ns gz fs1 Hn0 Hun H1) as (s & Hs & Hall & Hch).
  destruct (Hall c Hc) as (ts & arg & Hme & Hap & Hcore & _). fold core in Hcore. change (only_changes (core_output cdir in_name ws xs rs ns) fs0 fs1) in Hch.
  assert (T : forall p t, In p [phrase; in1; in2; in3] -> text_at fs0 p t -> text_at fs1 p t) by (intros p t Hp Ht; exact (text_kept _ _ _ _ _ Hch (K1 p Hp) Ht)).
  pose proof (space_kept _ _ _ _ _ Hch (K1 phrase (or_introl eq_refl)) Hph) as Hph1.
  assert (Hsp1 : spaces_at fs1 [core] arg None) by (apply sp_one; [discriminate|exact Hcore]).
  pose proof (T in1 t1 ltac:(cbn; auto) Ht1) as Ht1'. pose proof (T in2 t2 ltac:(cbn; auto) Ht2) as Ht2'. pose proof (T in3 t3 ltac:(cbn; auto) Ht3) as Ht3'.
  destruct (C62_trained fs1 in1 nm1 tdir model [core] phrase reg cv icpt lambda range false fs2 arg None phr t1 Hn1 Hsp1 Hph1 Ht1' H31 H2) as (_ & _ & _ & _ & _ & Hch2).
  specialize (Hch2 eq_refl). fold learnt in Hch2.
  assert (Hsp2 : spaces_at fs2 [core] arg None).
  { apply sp_one; [discriminate|]. eapply space_kept; [exact Hch2| |exact Hcore]. intros K. apply (K2 core); cbn; auto. }
  assert (Ht2'' : text_at fs2 in2 t2). { eapply text_kept; [exact Hch2| |exact Ht2']. intros K. apply (K2 in2); cbn; auto. }
  assert (Ht3'' : text_at fs2 in3 t3). { eapply text_kept; [exact Hch2| |exact Ht3']. intros K. apply (K2 in3); cbn; auto. }
  destruct (C90_train_compose fs1 in1 nm1 tdir model cl [core] phrase reg cv icpt lambda range fs2 arg None phr t1 in2 nm2 odir [core] al be la fmt fs3 arg None t2
     Hn1 Hsp1 Hph1 Ht1' H31 Hcl H2 Hn2 Hsp1 Ht2' H32) as (o & o' & phrases & Hm & Htr & Hco & Hsp & _); [|exact H3|].
  { intros q [->|[<-|[]]]; apply K2; cbn; auto. }
  destruct (C63_composed fs2 in2 nm2 odir None (Some learnt) [core] al be la fmt fs3 arg None t2 Hn2 Hsp2 Ht2'' H32 H3) as (ou & c' & s' & Hu & Hc' & _ & Hsp' & _ & Hch3).
  assert (Ecl : c' = cl).
  { destruct (C62_trained fs1 in1 nm1 tdir model [core] phrase reg cv icpt lambda range false fs2 arg None phr t1 Hn1 Hsp1 Hph1 Ht1' H31 H2) as (o1 & o1' & Hm1 & Htr1 & Ho1 & _).
    inversion Hu as [| | |p ox K _]; subst. fold learnt in Ho1. unfold object_at in *. assert (ou = o1') by congruence. subst ou.
    exact (class_fun _ _ _ Hc' (proj1 (trained_class _ _ _ _ _ _ _ _ _ _ _ _ _ Hcl Hm1 Htr1))). }
  subst c'. fold composed in Hsp.
  assert (Ht3f : text_at fs3 in3 t3) by (exact (text_kept _ _ _ _ _ Hch3 K3 Ht3'')).
  destruct (C57_lines fs3 in3 nm3 a0 a1 c0 c1 sdir measures [composed] d phrases None t3 fs4 Hn3 Hd Ea0 Ea1 ltac:(apply sp_one; [discriminate|exact Hsp]) Ht3f H4) as (Hres & _).
  exists s, ts, arg, o, o', phrases. auto 8.
Qed.
(** building core spaces, then a peripheral space of one of them *)
Theorem C90_core_peripheral : forall fs0 in_prefix in_name in_format cdir cfmt ws xs rs ns gz fs1 c
    per_prefix per_name per_format pdir pfmt gz2 x fs2 raw,
  file_name in_prefix in_name -> unambiguous in_name ws xs rs ns -> combos ws xs rs ns c ->
  build_spaces fs0 in_prefix in_format cdir cfmt ws xs rs ns gz = Ok fs1 ->
  file_name per_prefix per_name -> stem_of (core_file cdir in_name c ++ ".pkl") x -> input_space fs1 per_prefix gz2 per_format raw ->
  build_per_space fs1 per_prefix per_format pdir pfmt (core_file cdir in_name c ++ ".pkl") gz2 = Ok fs2 ->
  exists s ts core per, input_space fs0 in_prefix gz in_format s /\ means c ts /\ applied s ts core /\ peripheral_of core raw per /\
    space_at fs2 (per_file pdir per_name x ++ ".pkl") per /\ (forall f, pfmt = Some f -> exported fs2 (per_file pdir per_name x) f per).
Proof.
  intros fs0 in_prefix in_name in_format cdir cfmt ws xs rs ns gz fs1 c per_prefix per_name per_format pdir pfmt gz2 x fs2 raw Hn0 Hun Hc H1 Hn2 Hx Hraw H2.
  destruct (C54_saved fs0 in_prefix in_name in_format cdir cfmt ws xs rs ns gz fs1 Hn0 Hun H1) as (s & Hs & Hall & _). destruct (Hall c Hc) as (ts & core & Hme & Hap & Hcore & _).
  destruct (C61_built fs1 per_prefix per_name per_format pdir pfmt _ x gz2 fs2 Hn2 Hx H2) as (raw' & core' & per & Hr & Hc' & Hper & Hsp & Hex & _).
  assert (raw' = raw). { pose proof (proj2 (load_input_space _ _ _ _ _) Hr) as A. pose proof (proj2 (load_input_space _ _ _ _ _) Hraw) as B. congruence. }
  assert (core' = core). { unfold space_at, object_at in *. congruence. }
  subst. exists s, ts, core, per. auto 8.
Qed.
End Chain.
(** ** a concrete case: selecting columns, training a dilation model on one phrase, composing two phrases with it and comparing them *)
Section Ex.
#[local] Existing Instance QNum.
Context {E : Ext}.
Ltac no_char := cbn; intros K; repeat (destruct K as [K|K]; [discriminate|]); exact K.
Definition phr_sp : space := SP (MD (DM 2 2 [[fofZ 1; fofZ 1]; [fofZ 3; fofZ 0]])) ["cd"; "dd"] ["x"; "y"] [("cd", 0%Z); ("dd", 1%Z)] [("x", 0%Z); ("y", 1%Z)] [] [2].
(** unit vectors: the dummy square root of [QNum] is right on 0 and 1 *)
Definition chain_sp : space := SP (MD (DM 2 2 [[fofZ 0; fofZ 1]; [fofZ 1; fofZ 0]])) ["car"; "dog"] ["x"; "y"] [("car", 0%Z); ("dog", 1%Z)] [("x", 0%Z); ("y", 1%Z)] [] [2].
Definition chain_fs : fsys := FS (fun q =>
  if String.eqb q "in/sp.pkl" then Some (Pickle (OSpace chain_sp))
  else if String.eqb q "in/phr.pkl" then Some (Pickle (OSpace phr_sp))
  else if String.eqb q "in/train" then Some (Text ("dog dog dd" ++ nl)%string)
  else if String.eqb q "in/test" then Some (Text ("car dog a" ++ nl ++ "dog dog b" ++ nl)%string)
  else if String.eqb q "in/pairs" then Some (Text ("a b" ++ nl ++ "b b" ++ nl)%string) else None) (fun q => String.eqb q "")%bool.
Definition out_of (r : res fsys) (p : string) : option content := match r with Ok fs => fs_file fs p | Err _ => None end.
Lemma out_ok (r : res fsys) p x : out_of r p = Some x -> exists fs, r = Ok fs /\ fs_file fs p = Some x.
Proof. destruct r as [fs|]; [intros H; exists fs; auto|discriminate]. Qed.
Lemma some_text a b : Some (Text a) = Some (Text b) -> a = b.
Proof. intros H. injection H as H. exact H. Qed.
Lemma chain4 (r1 : res fsys) (r2 r3 r4 : fsys -> res fsys) p x : out_of (let* f := (let* f := (let* f := r1 in r2 f) in r3 f) in r4 f) p = Some x ->
  exists fs1 fs2 fs3 fs4, r1 = Ok fs1 /\ r2 fs1 = Ok fs2 /\ r3 fs2 = Ok fs3 /\ r4 fs3 = Ok fs4 /\ fs_file fs4 p = Some x.
Proof.
  intros C. destruct (out_ok _ _ _ C) as (fs4 & R4 & T4). apply bind_ok in R4. destruct R4 as (fs3 & R3 & R4). apply bind_ok in R3. destruct R3 as (fs2 & R2 & R3).
  apply bind_ok in R2. destruct R2 as (fs1 & R1 & R2). exists fs1, fs2, fs3, fs4. auto.
Qed.
Lemma chain_runs : exists fs1 fs2 fs3 fs4,
  build_spaces chain_fs "in/sp" "pkl" "out" None [None] [Some "top_sum_2"] [None] [None] false = Ok fs1 /\
  train_model fs1 "in/train" "out" "dilation" ["out/CORE_SS.sp.top_sum_2.pkl"] "in/phr.pkl" None false false (option_map LNum None) None false = Ok fs2 /\
  apply_model fs2 "in/test" "out" None (Some "out/TRAINED_COMP_MODEL.dilation.train.pkl") ["out/CORE_SS.sp.top_sum_2.pkl"] None None None None = Ok fs3 /\
  compute_sim fs3 "in/pairs" ["1"; "2"] "out" ["dot_prod"] ["out/COMPOSED_SS.Dilation.test.pkl"] = Ok fs4 /\
  text_at fs4 "out/SIMS.pairs.COMPOSED_SS.Dilation.test.dot_prod" ("a b 3.0" ++ nl ++ "b b 9.0" ++ nl)%string .
Proof. apply chain4. vm_compute. reflexivity. Qed.
Example C90_example : exists fs1 fs2 fs3 fs4,
  build_spaces chain_fs "in/sp" "pkl" "out" None [None] [Some "top_sum_2"] [None] [None] false = Ok fs1 /\
  train_model fs1 "in/train" "out" "dilation" ["out/CORE_SS.sp.top_sum_2.pkl"] "in/phr.pkl" None false false (option_map LNum None) None false = Ok fs2 /\
  apply_model fs2 "in/test" "out" None (Some "out/TRAINED_COMP_MODEL.dilation.train.pkl") ["out/CORE_SS.sp.top_sum_2.pkl"] None None None None = Ok fs3 /\
  compute_sim fs3 "in/pairs" ["1"; "2"] "out" ["dot_prod"] ["out/COMPOSED_SS.Dilation.test.pkl"] = Ok fs4 /\
  text_at fs4 "out/SIMS.pairs.COMPOSED_SS.Dilation.test.dot_prod" ("a b 3.0" ++ nl ++ "b b 9.0" ++ nl)%string /\
  exists s ts arg o o' phrases, input_space chain_fs "in/sp" false "pkl" s /\ means (None, Some "top_sum_2", None, None) ts /\ applied s ts arg /\
    model_for false false None None None "dilation" o /\ trained_as o [("dog", "dog", "dd")] arg None phr_sp o' /\ composed_as o' [("car", "dog", "a"); ("dog", "dog", "b")] arg None phrases /\
    sim_lines phrases None Dot 1%Z 2%Z ("a b" ++ nl ++ "b b" ++ nl)%string ("a b 3.0" ++ nl ++ "b b 9.0" ++ nl)%string.
Proof.
  destruct chain_runs as (fs1 & fs2 & fs3 & fs4 & R1 & R2 & R3 & R4 & T4). exists fs1, fs2, fs3, fs4. split; [exact R1|]. split; [exact R2|]. split; [exact R3|]. split; [exact R4|]. split; [exact T4|].
  assert (D : all_defined [None] [Some "top_sum_2"] [None] [None]).
  { intros [[[w x] r] n] (Hw & Hx & Hr & Hn). destruct Hw as [<-|[]], Hr as [<-|[]], Hx as [<-|[]], Hn as [<-|[]].
    exists [None; Some (TFS CSum 2); None; None]. exists None, (Some (TFS CSum 2)), None, None. split; [reflexivity|]. split; [constructor; left; reflexivity|].
    split; [apply (so_sum "2" 2); split; [lia|reflexivity]|]. split; constructor; left; reflexivity. }
  assert (Hnm : forall p, In p ["sp"; "train"; "test"; "pairs"] -> file_name ("in/" ++ p) p).
  { intros p Hp. split; [|right; exists "in"; reflexivity]. repeat (destruct Hp as [<-|Hp]; [no_char|]). destruct Hp. }
  destruct (C90_experiment chain_fs "in/sp" "sp" "pkl" "out" None [None] [Some "top_sum_2"] [None] [None] false fs1 (None, Some "top_sum_2", None, None)
     "in/train" "train" "out" "dilation" "Dilation" "in/phr.pkl" None false false None None fs2 phr_sp ("dog dog dd" ++ nl)%string
     "in/test" "test" "out" None None None None fs3 ("car dog a" ++ nl ++ "dog dog b" ++ nl)%string
     "in/pairs" "pairs" "1" "2" 1%Z 2%Z "out" ["dot_prod"] "COMPOSED_SS.Dilation.test" fs4 ("a b" ++ nl ++ "b b" ++ nl)%string) as (s & ts & arg & o & o' & ph & A1 & A2 & A3 & A4 & A5 & A6 & A7);
    try (apply Hnm; cbn; tauto); try (abstract reflexivity); try assumption; try (abstract exact R4); try (abstract exact R3); try (abstract exact R2).
  - exact (C54_unambiguous "sp" _ _ _ _ q_int_syntax D).
  - repeat split; left; reflexivity.
  - vm_compute. repeat constructor.
  - constructor.
  - vm_compute. repeat constructor.
  - apply ds_one; [discriminate|]. apply (stem_ext _ "COMPOSED_SS.Dilation.test" "pkl"); [split; [no_char|right; exists "out"; reflexivity]|no_char].
  - intros q Hq ([[[w x] r] n] & (Hw & Hx & Hr & Hn) & K). destruct Hw as [<-|[]], Hr as [<-|[]], Hx as [<-|[]], Hn as [<-|[]].
    unfold saved_target, export_target in K. cbn in K. repeat (destruct K as [->|K]; [repeat (destruct Hq as [Hq|Hq]; [discriminate|]); destruct Hq|]). subst q. repeat (destruct Hq as [Hq|Hq]; [discriminate|]). destruct Hq.
  - intros q Hq. repeat (destruct Hq as [<-|Hq]; [discriminate|]). destruct Hq.
  - unfold saved_target, export_target. cbn. intros K. repeat (destruct K as [K|K]; [discriminate|]). discriminate.
  - exists s, ts, arg, o, o', ph. split; [exact A1|]. split; [exact A2|]. split; [exact A3|]. split; [exact A4|]. split; [exact A5|]. split; [exact A6|].
    destruct (A7 "dot_prod" Dot (or_introl eq_refl) mn_dot) as (out & L & T). pose proof (eq_trans (eq_sym T4) T) as TT. apply some_text in TT. rewrite TT. exact L.
Qed.
End Ex.
