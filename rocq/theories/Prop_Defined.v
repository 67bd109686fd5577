(** Prop_Defined.v -- C85: no operation divides by zero, takes the root of a negative number or the logarithm of a number that is
    not positive.  The real-number theorems of the other files read [x / 0], [sqrt (-1)] and [ln 0] as some real number (Coq's
    convention); this file shows that no result depends on it. *)
From Coq Require Import Reals Lra FunctionalExtensionality.
From Verif Require Import Base PyList Dict Num Dense Sparse Matrix Scaling Linalg NmfInit Learner Operation Similarity Space Peripheral
  Composition Utils LexFun PMorph PMorph2 PMorph3.
Local Open Scope R_scope.
Local Open Scope nat_scope.

(** ** Specification.
    A number system that extends the reals: it contains the reals, computes with them as the reals do wherever the result is
    defined, and may do anything at all otherwise (a special value, infinity, another real number). *)
Record extends_reals (N' : Num) (h : R -> @F N') : Prop := {
  ext_0 : h 0%R = f0;
  ext_1 : h 1%R = f1;
  ext_int : forall z, h (IZR z) = fofZ z;
  ext_add : forall x y, h (x + y)%R = fadd (h x) (h y);
  ext_sub : forall x y, h (x - y)%R = fsub (h x) (h y);
  ext_mul : forall x y, h (x * y)%R = fmul (h x) (h y);
  ext_opp : forall x, h (- x)%R = fopp (h x);
  ext_div : forall x y, y <> 0%R -> h (x / y)%R = fdiv (h x) (h y);
  ext_sqrt : forall x, (0 <= x)%R -> h (sqrt x) = fsqrt (h x);
  ext_ln : forall x, (0 < x)%R -> h (ln x) = fln (h x);
  ext_lt : forall x y, fltb (h x) (h y) = true <-> (x < y)%R;
  ext_inj : forall x y, h x = h y -> x = y }.

(** the numbers with an "undefined" value (NaN): division by zero, roots of negative numbers and logarithms of non-positive
    numbers give it, every operation on it gives it again, and no comparison with it holds *)
Definition map_nan (f : R -> option R) (x : option R) : option R := match x with Some a => f a | None => None end.
Definition map_nan2 (f : R -> R -> option R) (x y : option R) : option R :=
  match x, y with Some a, Some b => f a b | _, _ => None end.
Definition nan_eqb (x y : option R) : bool :=
  match x, y with Some a, Some b => Reqb a b | None, None => true | _, _ => false end.
Lemma nan_eqb_eq x y : nan_eqb x y = true <-> x = y.
Proof.
  destruct x, y; cbn; try (split; congruence). rewrite Reqb_eq. split; congruence.
Qed.
Definition NanNum : Num := {|
  F := option R; f0 := Some 0%R; f1 := Some 1%R;
  fadd := map_nan2 (fun a b => Some (a + b)%R);
  fsub := map_nan2 (fun a b => Some (a - b)%R);
  fmul := map_nan2 (fun a b => Some (a * b)%R);
  fdiv := map_nan2 (fun a b => if Req_EM_T b 0 then None else Some (a / b)%R);
  fopp := map_nan (fun a => Some (- a)%R);
  feqb := nan_eqb;
  fltb := fun x y => match x, y with Some a, Some b => Rltb a b | _, _ => false end;
  fsqrt := map_nan (fun a => if Rle_dec 0 a then Some (sqrt a) else None);
  fln := map_nan (fun a => if Rlt_dec 0 a then Some (ln a) else None);
  fofZ := fun z => Some (IZR z);
  feqb_eq := nan_eqb_eq |}.

(** nothing undefined is stored in ... *)
Definition is_def (x : @F NanNum) : Prop := x <> None.
Definition def_list (l : list (@F NanNum)) : Prop := Forall is_def l.
Definition def_dense (d : @dmat NanNum) : Prop := Forall def_list (d_dat d).
Definition def_matrix (m : @matrix NanNum) : Prop := match m with MD d => def_dense d | MS c => def_list (s_data c) end.
Definition def_op (o : @operation NanNum) : Prop :=
  match o with
  | OpScale _ (Some (SCol l)) => def_list l
  | OpScale _ (Some (SScal x)) => is_def x
  | OpDim _ _ (Some tm) => def_matrix tm
  | _ => True
  end.
Definition def_space (s : @space NanNum) : Prop := def_matrix (s_mat s) /\ Forall def_op (s_ops s).
Definition def_args (a : @arg_spaces NanNum) : Prop := match a with One s => def_space s | Tup l => Forall def_space l end.
Definition def_opt (x : option (@F NanNum)) : Prop := match x with Some y => is_def y | None => True end.
Definition def_learner (L : @learner NanNum) : Prop :=
  match L with LLstsq _ => True | LRidge _ _ r p => def_list r /\ def_opt p end.
Definition def_model (m : @cmodel NanNum) : Prop :=
  match cm_kind m with
  | WAdd a b => is_def a /\ is_def b
  | Mult => True
  | Dil l => is_def l
  | FAdd ab _ L => match ab with Some (a, b) => def_matrix a /\ def_matrix b | None => True end
                   /\ match L with Some L => def_learner L | None => True end
  end.
Definition def_lexfun (m : @lexfun NanNum) : Prop :=
  match lf_fs m with Some s => def_space s | None => True end /\ def_learner (lf_learner m).
(** the linear algebra libraries return no undefined number when they are given none *)
Record def_library (E : @Ext NanNum) : Prop := {
  dl_svd : forall d u s v, def_dense d -> e_svd d = Ok (u, s, v) ->
    (forall i j, is_def (u i j)) /\ (forall i, is_def (s i)) /\ (forall i j, is_def (v i j));
  dl_sparsesvd : forall c k n u s v, def_list (s_data c) -> e_sparsesvd c k = Ok (n, u, s, v) ->
    (forall i j, is_def (u i j)) /\ (forall i, is_def (s i)) /\ (forall i j, is_def (v i j));
  dl_pinv : forall d f, def_dense d -> e_pinv d = Ok f -> forall i j, is_def (f i j);
  dl_lstsq : forall a b f, def_dense a -> def_dense b -> e_lstsq a b = Ok f -> forall i j, is_def (f i j) }.

(** ** Proofs *)
Lemma Rltb_spec a b : Rltb a b = true <-> (a < b)%R.
Proof. unfold Rltb. destruct (Rlt_dec a b); split; congruence || auto. Qed.
Lemma Rltb_false a b : Rltb a b = false <-> (b <= a)%R.
Proof. unfold Rltb. destruct (Rlt_dec a b); split; intros; try discriminate; try lra; auto. Qed.
Lemma R_ordered : ordered RNum.
Proof.
  constructor; cbn.
  - apply Rltb_false. lra.
  - apply Rltb_spec. lra.
  - intros a. apply Rltb_false. nra.
  - intros a b. rewrite !Rltb_false. lra.
  - intros a. rewrite Rltb_false, Rltb_spec. lra.
  - intros a. rewrite !Rltb_spec. lra.
  - intros a. rewrite Rltb_false. lra.
  - intros a. apply Rltb_false. apply sqrt_pos.
  - intros a b Ha Hb. apply Rmult_integral_contrapositive_currified; assumption.
  - intros z Hz. apply not_0_IZR. lia.
  - intros a Ha. unfold Rdiv. rewrite Rmult_1_l. apply Rinv_neq_0_compat, Ha.
  - intros y z Hyz E. apply Hyz, eq_IZR. lra.
Qed.
Lemma extends_respects N' h : extends_reals N' h -> @respects RNum N' h.
Proof.
  intros X. constructor.
  - exact (ext_0 _ _ X).
  - exact (ext_1 _ _ X).
  - exact (ext_add _ _ X).
  - exact (ext_sub _ _ X).
  - exact (ext_mul _ _ X).
  - exact (ext_opp _ _ X).
  - exact (ext_int _ _ X).
  - intros a b. cbn. destruct (Reqb a b) eqn:Q.
    + apply Reqb_eq in Q. subst. apply feqb_refl.
    + apply feqb_neq. intros Z. apply (ext_inj _ _ X) in Z. apply Reqb_eq in Z. congruence.
  - intros a b. cbn. destruct (Rltb a b) eqn:Q.
    + apply (ext_lt _ _ X). apply Rltb_spec, Q.
    + apply Bool.not_true_is_false. intros Z. apply (ext_lt _ _ X) in Z. apply Rltb_spec in Z. congruence.
  - exact (ext_div _ _ X).
  - intros a Ha. apply (ext_sqrt _ _ X). apply Rltb_false, Ha.
  - intros a Ha. apply (ext_ln _ _ X). apply Rltb_spec, Ha.
Qed.
Lemma nan_extends : extends_reals NanNum Some.
Proof.
  constructor; try reflexivity; cbn.
  - intros x y Hy. destruct (Req_EM_T y 0); [contradiction|reflexivity].
  - intros x Hx. destruct (Rle_dec 0 x); [reflexivity|contradiction].
  - intros x Hx. destruct (Rlt_dec 0 x); [reflexivity|contradiction].
  - intros x y. apply Rltb_spec.
  - intros x y [= ->]. reflexivity.
Qed.

(** *** undefined-free values are values over the reals *)
Definition und (x : option R) : R := match x with Some a => a | None => 0%R end.
Notation hmS := (@hm RNum NanNum Some).
Notation hdS := (@hd RNum NanNum Some).
Notation hspS := (@hsp RNum NanNum Some).
Definition und_dense (d : @dmat NanNum) : @dmat RNum := @DM RNum (d_nr d) (d_nc d) (map (map und) (d_dat d)).
Definition und_csr (c : @csr NanNum) : @csr RNum := @CSR RNum (s_nr c) (s_nc c) (map und (s_data c)) (s_ind c) (s_ptr c).
Lemma und_some x : is_def x -> Some (und x) = x.  Proof. destruct x; [reflexivity|]. intros H. elim H. reflexivity. Qed.
Lemma und_list l : def_list l -> map (fun x => Some (und x)) l = l.
Proof. induction 1 as [|x l Hx Hl IH]; [reflexivity|]. cbn. rewrite und_some by exact Hx. rewrite IH. reflexivity. Qed.
Lemma list_is l : def_list l <-> exists l0, l = map Some l0.
Proof.
  split.
  - intros Hl. exists (map und l). rewrite map_map. symmetry. apply und_list, Hl.
  - intros (l0 & ->). apply Forall_forall. intros x Hx. apply in_map_iff in Hx. destruct Hx as (y & <- & _). discriminate.
Qed.
Lemma und_dense_some d : def_dense d -> hdS (und_dense d) = d.
Proof.
  destruct d as [r c dat]. unfold def_dense, und_dense, hd; cbn. intros Hd. f_equal. rewrite map_map. induction Hd as [|l ls Hl Hls IH]; [reflexivity|].
  cbn. rewrite map_map, und_list by exact Hl. rewrite IH. reflexivity.
Qed.
Lemma und_csr_some c : def_list (s_data c) -> @hs RNum NanNum Some (und_csr c) = c.
Proof. destruct c as [r c dat ind ptr]. cbn. unfold hs; cbn. intros Hd. rewrite map_map, und_list by exact Hd. reflexivity. Qed.
Lemma dense_def d : def_dense (hdS d).
Proof.
  unfold def_dense, hd; cbn. apply Forall_forall. intros l Hl. apply in_map_iff in Hl. destruct Hl as (l0 & <- & _). apply list_is.
  exists l0. reflexivity.
Qed.
Lemma matrix_is m : def_matrix m <-> exists m0, m = hmS m0.
Proof.
  split.
  - destruct m as [d|c]; cbn; intros Hm.
    + exists (MD (und_dense d)). cbn. rewrite und_dense_some by exact Hm. reflexivity.
    + exists (MS (und_csr c)). cbn. rewrite und_csr_some by exact Hm. reflexivity.
  - intros (m0 & ->). destruct m0 as [d|c]; [apply dense_def|]. cbn. apply list_is. eexists. reflexivity.
Qed.
Lemma op_is o : def_op o <-> exists o0, o = @ho RNum NanNum Some o0.
Proof.
  split.
  - destruct o as [s [[l|x]|]|d k [tm|]|c k sel orig]; cbn; intros Ho.
    + apply list_is in Ho. destruct Ho as (l0 & ->). exists (OpScale s (Some (@SCol RNum l0))). reflexivity.
    + destruct x as [x|]; [|elim Ho; reflexivity]. exists (OpScale s (Some (@SScal RNum x))). reflexivity.
    + exists (OpScale s None). reflexivity.
    + apply matrix_is in Ho. destruct Ho as (m0 & ->). exists (OpDim d k (Some m0)). reflexivity.
    + exists (OpDim d k None). reflexivity.
    + exists (OpFS c k sel orig). reflexivity.
  - intros (o0 & ->). destruct o0 as [s [[l|x]|]|d k [tm|]|c k sel orig]; cbn; try exact I; try discriminate.
    + apply list_is. eexists. reflexivity.
    + apply matrix_is. eexists. reflexivity.
Qed.
Lemma ops_is l : Forall def_op l <-> exists l0, l = map (@ho RNum NanNum Some) l0.
Proof.
  split.
  - induction 1 as [|o l Ho Hl (l0 & ->)]; [exists []; reflexivity|]. apply op_is in Ho. destruct Ho as (o0 & ->). exists (o0 :: l0). reflexivity.
  - intros (l0 & ->). apply Forall_forall. intros x Hx. apply in_map_iff in Hx. destruct Hx as (y & <- & _). apply op_is. eexists. reflexivity.
Qed.
Lemma space_is s : def_space s <-> exists s0, s = hspS s0.
Proof.
  split.
  - destruct s as [m ir ic r c ops es]. unfold def_space; cbn [s_mat s_ops]. intros (Hm & Ho). apply matrix_is in Hm. destruct Hm as (m0 & ->).
    apply ops_is in Ho. destruct Ho as (o0 & ->). exists (@SP RNum m0 ir ic r c o0 es). reflexivity.
  - intros (s0 & ->). split; [apply matrix_is|apply ops_is]; eexists; reflexivity.
Qed.
Lemma spaces_is l : Forall def_space l <-> exists l0, l = map hspS l0.
Proof.
  split.
  - induction 1 as [|o l Ho Hl (l0 & ->)]; [exists []; reflexivity|]. apply space_is in Ho. destruct Ho as (o0 & ->). exists (o0 :: l0). reflexivity.
  - intros (l0 & ->). apply Forall_forall. intros x Hx. apply in_map_iff in Hx. destruct Hx as (y & <- & _). apply space_is. eexists. reflexivity.
Qed.
Lemma args_is a : def_args a <-> exists a0, a = @ha RNum NanNum Some a0.
Proof.
  split.
  - destruct a as [s|l]; cbn; intros Ha.
    + apply space_is in Ha. destruct Ha as (s0 & ->). exists (One s0). reflexivity.
    + apply spaces_is in Ha. destruct Ha as (s0 & ->). exists (Tup s0). reflexivity.
  - intros ([s|l] & ->); cbn; [apply space_is|apply spaces_is]; eexists; reflexivity.
Qed.
Lemma learner_is L : def_learner L <-> exists L0, L = @hl RNum NanNum Some L0.
Proof.
  split.
  - destruct L as [i|i cv r p]; cbn; [exists (LLstsq i); reflexivity|]. intros (Hr & Hp). apply list_is in Hr. destruct Hr as (r0 & ->).
    destruct p as [[p|]|]; [|elim Hp; reflexivity|].
    + exists (@LRidge RNum i cv r0 (Some p)). reflexivity.
    + exists (@LRidge RNum i cv r0 None). reflexivity.
  - intros ([i|i cv r p] & ->); cbn; [exact I|]. split; [apply list_is; eexists; reflexivity|]. destruct p; cbn; [discriminate|exact I].
Qed.
Lemma def_is x : is_def x <-> exists a, x = Some a.
Proof. destruct x as [a|]; split; [exists a; reflexivity|discriminate|intros H; elim H; reflexivity|intros (a & Ha); discriminate]. Qed.
Lemma model_is m : def_model m <-> exists m0, m = @hc RNum NanNum Some m0.
Proof.
  split.
  - destruct m as [k cols]. unfold def_model; cbn [cm_kind]. destruct k as [a b| |l|ab i L].
    + intros (Ha & Hb). apply def_is in Ha, Hb. destruct Ha as (x & ->), Hb as (y & ->). exists (@CM RNum (@WAdd RNum x y) cols). reflexivity.
    + intros _. exists (@CM RNum Mult cols). reflexivity.
    + intros Hl. apply def_is in Hl. destruct Hl as (x & ->). exists (@CM RNum (@Dil RNum x) cols). reflexivity.
    + intros (Hab & HL). assert (Q : exists L0, L = option_map (@hl RNum NanNum Some) L0).
      { destruct L as [L|]; [|exists None; reflexivity]. apply learner_is in HL. destruct HL as (L0 & ->). exists (Some L0). reflexivity. }
      destruct Q as (L0 & ->). destruct ab as [[a b]|].
      * destruct Hab as (Ha & Hb). apply matrix_is in Ha, Hb. destruct Ha as (a0 & ->), Hb as (b0 & ->).
        exists (@CM RNum (FAdd (Some (a0, b0)) i L0) cols). reflexivity.
      * exists (@CM RNum (FAdd None i L0) cols). reflexivity.
  - intros ([k cols] & ->). unfold def_model; cbn [hc cm_kind]. destruct k as [a b| |l|ab i L]; cbn [hk].
    + split; discriminate.
    + exact I.
    + discriminate.
    + split.
      * destruct ab as [[a b]|]; cbn; [|exact I]. split; apply matrix_is; eexists; reflexivity.
      * destruct L as [L|]; cbn; [|exact I]. apply learner_is. eexists. reflexivity.
Qed.
Lemma lexfun_is m : def_lexfun m <-> exists m0, m = @hlf RNum NanNum Some m0.
Proof.
  split.
  - destruct m as [fs i L cols k]. unfold def_lexfun; cbn [lf_fs lf_learner]. intros (Hf & HL). apply learner_is in HL. destruct HL as (L0 & ->).
    destruct fs as [s|].
    + apply space_is in Hf. destruct Hf as (s0 & ->). exists (@LF RNum (Some s0) i L0 cols k). reflexivity.
    + exists (@LF RNum None i L0 cols k). reflexivity.
  - intros ([fs i L cols k] & ->). unfold def_lexfun; cbn. split.
    + destruct fs; cbn; [|exact I]. apply space_is. eexists. reflexivity.
    + apply learner_is. eexists. reflexivity.
Qed.

(** the libraries over the reals that a library over [NanNum] is *)
Definition und3 (r : (nat -> nat -> option R) * (nat -> option R) * (nat -> nat -> option R)) :=
  (fun i j => und (fst (fst r) i j), fun i => und (snd (fst r) i), fun i j => und (snd r i j)).
Definition und_lib (E : @Ext NanNum) : @Ext RNum := {|
  e_svd := fun d : @dmat RNum => rmap und3 (@e_svd NanNum E (hdS d));
  e_sparsesvd := fun (c : @csr RNum) k =>
    rmap (fun r => (fst (fst (fst r)), fun i j => und (snd (fst (fst r)) i j), fun i => und (snd (fst r) i), fun i j => und (snd r i j)))
         (@e_sparsesvd NanNum E (@hs RNum NanNum Some c) k);
  e_pinv := fun d : @dmat RNum => rmap (fun f i j => und (f i j)) (@e_pinv NanNum E (hdS d));
  e_lstsq := fun a b : @dmat RNum => rmap (fun f i j => und (f i j)) (@e_lstsq NanNum E (hdS a) (hdS b));
  e_rndcol := @e_rndcol NanNum E; e_rndrow := @e_rndrow NanNum E; e_timeout := @e_timeout NanNum E |}.
Lemma und_fun (f : nat -> option R) : (forall i, is_def (f i)) -> (fun i => Some (und (f i))) = f.
Proof. intros Hf. apply functional_extensionality. intros i. apply und_some, Hf. Qed.
Lemma und_fun2 (f : nat -> nat -> option R) : (forall i j, is_def (f i j)) -> (fun i j => Some (und (f i j))) = f.
Proof. intros Hf. apply functional_extensionality. intros i. apply functional_extensionality. intros j. apply und_some, Hf. Qed.
Lemma lib_agree E : def_library E -> @ext_agree RNum NanNum Some (und_lib E) E.
Proof.
  intros D. constructor; try reflexivity.
  - intros d. unfold und_lib; cbn [e_svd]. pose (q := @e_svd NanNum E (hdS d)). assert (Eq : @e_svd NanNum E (hdS d) = q) by reflexivity. setoid_rewrite Eq. destruct q as [[[u s] v]|e]; rename Eq into Q; [|reflexivity]. cbn.
    destruct (dl_svd E D _ _ _ _ (dense_def d) Q) as (Hu & Hs & Hv). rewrite (und_fun2 u), (und_fun s), (und_fun2 v) by assumption. reflexivity.
  - intros c k. unfold und_lib; cbn [e_sparsesvd]. pose (q := @e_sparsesvd NanNum E (@hs RNum NanNum Some c) k). assert (Eq : @e_sparsesvd NanNum E (@hs RNum NanNum Some c) k = q) by reflexivity. setoid_rewrite Eq. destruct q as [[[[n u] s] v]|e]; rename Eq into Q; [|reflexivity]. cbn.
    assert (Hc : def_list (s_data (@hs RNum NanNum Some c))) by (apply list_is; eexists; reflexivity).
    destruct (dl_sparsesvd E D _ _ _ _ _ _ Hc Q) as (Hu & Hs & Hv). rewrite (und_fun2 u), (und_fun s), (und_fun2 v) by assumption. reflexivity.
  - intros d. unfold und_lib; cbn [e_pinv]. pose (q := @e_pinv NanNum E (hdS d)). assert (Eq : @e_pinv NanNum E (hdS d) = q) by reflexivity. setoid_rewrite Eq. destruct q as [f|e]; rename Eq into Q; [|reflexivity]. cbn. rewrite (und_fun2 f); [reflexivity|].
    exact (dl_pinv E D _ _ (dense_def d) Q).
  - intros a b. unfold und_lib; cbn [e_lstsq]. pose (q := @e_lstsq NanNum E (hdS a) (hdS b)). assert (Eq : @e_lstsq NanNum E (hdS a) (hdS b) = q) by reflexivity. setoid_rewrite Eq. destruct q as [f|e]; rename Eq into Q; [|reflexivity]. cbn. rewrite (und_fun2 f); [reflexivity|].
    exact (dl_lstsq E D _ _ _ (dense_def a) (dense_def b) Q).
Qed.

(** ** C85, first half: whatever number system extends the reals, the results are those of the reals *)
Section Independent.
Context (N' : Num) (h : R -> @F N') (X : extends_reals N' h).
Let HX := extends_respects N' h X.

(** [carried] values: the same object with every real number [x] replaced by [h x] *)
Notation carried_matrix := (@hm RNum N' h).
Notation carried_stats := (@hst RNum N' h).
Notation carried_space := (@hsp RNum N' h).
Notation carried_args := (@ha RNum N' h).
Notation carried_model := (@hc RNum N' h).
Notation carried_lexfun := (@hlf RNum N' h).

Theorem C85_scaling : forall s m st,
  scaling_apply s (carried_matrix m) (option_map carried_stats st) = rmap carried_matrix (scaling_apply s m st).
Proof. intros. apply (hm_scaling h HX R_ordered). Qed.
Theorem C85_similarity : forall s w1 w2 sim s2,
  get_sim (carried_space s) w1 w2 sim (option_map carried_space s2) = rmap h (get_sim s w1 w2 sim s2).
Proof. intros. apply (h_get_sim h HX R_ordered). Qed.
Theorem C85_neighbours : forall s w k sim s2,
  get_neighbours (carried_space s) w k sim (option_map carried_space s2)
  = rmap (map (fun p => (fst p, h (snd p)))) (get_neighbours s w k sim s2).
Proof. intros. apply (h_get_neighbours h HX R_ordered). Qed.
Theorem C85_auc : forall g p, auc (map h g) (map h p) = rmap h (auc g p).
Proof. intros. apply (h_auc h HX R_ordered). Qed.
Theorem C85_stacking : forall s1 s2, space_vstack (carried_space s1) (carried_space s2) = rmap carried_space (space_vstack s1 s2).
Proof. intros. apply (h_vstack h HX). Qed.
Theorem C85_compose : forall m data a,
  compose (carried_model m) data (carried_args a) = (let p := compose m data a in (carried_model (fst p), rmap carried_space (snd p))).
Proof. intros. apply (h_compose h HX R_ordered). Qed.
Theorem C85_compose_lexical : forall m data arg,
  lf_compose (carried_lexfun m) data (carried_space arg) = rmap carried_space (lf_compose m data arg).
Proof. intros. apply (h_lf_compose h HX). Qed.

(** with libraries that return the same numbers on both sides *)
Context (E : @Ext RNum) (E' : @Ext N') (XE : @ext_agree RNum N' h E E').
Theorem C85_transformation : forall s t, space_apply (carried_space s) t = rmap carried_space (space_apply s t).
Proof. intros. apply (h_space_apply h HX R_ordered E E' XE). Qed.
Theorem C85_peripheral : forall core m ids rd,
  mk_peripheral (carried_space core) (carried_matrix m) ids rd = rmap carried_space (mk_peripheral core m ids rd).
Proof. intros. apply (h_peripheral h HX R_ordered). Qed.
Theorem C85_peripheral_rows : forall s m ids,
  add_rows (carried_space s) (carried_matrix m) ids = (let p := add_rows s m ids in (carried_space (fst p), snd p)).
Proof. intros. apply (h_add_rows h HX R_ordered). Qed.
Theorem C85_train : forall m data a sp,
  train (carried_model m) data (carried_args a) (carried_space sp) = (let p := train m data a sp in (carried_model (fst p), snd p)).
Proof. intros. apply (h_train h HX R_ordered E E' XE). Qed.
Theorem C85_train_lexical : forall m data arg phr,
  lf_train (carried_lexfun m) data (carried_space arg) (carried_space phr)
  = (let p := lf_train m data arg phr in (carried_lexfun (fst p), snd p)).
Proof. intros. apply (h_lf_train h HX R_ordered E E' XE). Qed.
Theorem C85_nndsvd : forall k m,
  nndsvd_init k (carried_matrix m) = rmap (fun p => (carried_matrix (fst p), carried_matrix (snd p))) (nndsvd_init k m).
Proof. intros. apply (hm_nndsvd h HX R_ordered E E' XE). Qed.
End Independent.

(** ** C85, second half: nothing undefined comes out when nothing undefined goes in *)
Lemma rmap_ok {A B} (f : A -> B) r y : rmap f r = Ok y -> exists x, r = Ok x /\ y = f x.
Proof. destruct r as [x|e]; [|discriminate]. intros [= <-]. exists x. split; reflexivity. Qed.
Lemma opt_space_is s : match s with Some x => def_space x | None => True end -> exists s0, s = option_map hspS s0.
Proof. destruct s as [s|]; [|exists None; reflexivity]. intros Hs. apply space_is in Hs. destruct Hs as (s0 & ->). exists (Some s0). reflexivity. Qed.
Theorem C85_similarity_defined : forall s w1 w2 sim s2 x,
  def_space s -> match s2 with Some s2 => def_space s2 | None => True end ->
  @get_sim NanNum s w1 w2 sim s2 = Ok x -> is_def x.
Proof.
  intros s w1 w2 sim s2 x Hs Hs2 Hx. apply space_is in Hs. destruct Hs as (s0 & ->). apply opt_space_is in Hs2. destruct Hs2 as (t0 & ->).
  rewrite (C85_similarity NanNum Some nan_extends) in Hx. apply rmap_ok in Hx. destruct Hx as (y & _ & ->). discriminate.
Qed.
Theorem C85_neighbours_defined : forall s w k sim s2 l,
  def_space s -> match s2 with Some s2 => def_space s2 | None => True end ->
  @get_neighbours NanNum s w k sim s2 = Ok l -> Forall (fun p => is_def (snd p)) l.
Proof.
  intros s w k sim s2 l Hs Hs2 Hl. apply space_is in Hs. destruct Hs as (s0 & ->). apply opt_space_is in Hs2. destruct Hs2 as (t0 & ->).
  rewrite (C85_neighbours NanNum Some nan_extends) in Hl. apply rmap_ok in Hl. destruct Hl as (y & _ & ->).
  apply Forall_forall. intros p Hp. apply in_map_iff in Hp. destruct Hp as (q & <- & _). discriminate.
Qed.
Theorem C85_auc_defined : forall g p x, def_list g -> def_list p -> @auc NanNum g p = Ok x -> is_def x.
Proof.
  intros g p x Hg Hp Hx. apply list_is in Hg, Hp. destruct Hg as (g0 & ->), Hp as (p0 & ->).
  rewrite (C85_auc NanNum Some nan_extends) in Hx. apply rmap_ok in Hx. destruct Hx as (y & _ & ->). discriminate.
Qed.
Theorem C85_transformation_defined : forall E s t s', def_library E -> def_space s -> @space_apply NanNum E s t = Ok s' -> def_space s'.
Proof.
  intros E s t s' D Hs Hx. apply space_is in Hs. destruct Hs as (s0 & ->).
  rewrite (C85_transformation NanNum Some nan_extends (und_lib E) E (lib_agree E D)) in Hx. apply rmap_ok in Hx. destruct Hx as (y & _ & ->).
  apply space_is. eexists. reflexivity.
Qed.
Theorem C85_peripheral_defined : forall core m ids rd s,
  def_space core -> def_matrix m -> @mk_peripheral NanNum core m ids rd = Ok s -> def_space s.
Proof.
  intros core m ids rd s Hs Hm Hx. apply space_is in Hs. destruct Hs as (s0 & ->). apply matrix_is in Hm. destruct Hm as (m0 & ->).
  rewrite (C85_peripheral NanNum Some nan_extends) in Hx. apply rmap_ok in Hx. destruct Hx as (y & _ & ->).
  apply space_is. eexists. reflexivity.
Qed.
Theorem C85_peripheral_rows_defined : forall s m ids,
  def_space s -> def_matrix m -> def_space (fst (@add_rows NanNum s m ids)).
Proof.
  intros s m ids Hs Hm. apply space_is in Hs. destruct Hs as (s0 & ->). apply matrix_is in Hm. destruct Hm as (m0 & ->).
  rewrite (C85_peripheral_rows NanNum Some nan_extends). cbn [fst]. apply space_is. eexists. reflexivity.
Qed.
Theorem C85_compose_defined : forall m data a, def_model m -> def_args a ->
  (forall s, snd (@compose NanNum m data a) = Ok s -> def_space s) /\ def_model (fst (@compose NanNum m data a)).
Proof.
  intros m data a Hm Ha. apply model_is in Hm. destruct Hm as (m0 & ->). apply args_is in Ha. destruct Ha as (a0 & ->).
  rewrite (C85_compose NanNum Some nan_extends). cbv zeta. cbn [fst snd]. split.
  - intros s Hx. apply rmap_ok in Hx. destruct Hx as (y & _ & ->). apply space_is. eexists. reflexivity.
  - apply model_is. eexists. reflexivity.
Qed.
Theorem C85_train_defined : forall E m data a sp, def_library E -> def_model m -> def_args a -> def_space sp ->
  def_model (fst (@train NanNum E m data a sp)).
Proof.
  intros E m data a sp D Hm Ha Hs. apply model_is in Hm. destruct Hm as (m0 & ->). apply args_is in Ha. destruct Ha as (a0 & ->).
  apply space_is in Hs. destruct Hs as (s0 & ->).
  rewrite (C85_train NanNum Some nan_extends (und_lib E) E (lib_agree E D)). cbv zeta. cbn [fst]. apply model_is. eexists. reflexivity.
Qed.
Theorem C85_lexical_defined : forall E m data arg phr, def_library E -> def_lexfun m -> def_space arg -> def_space phr ->
  def_lexfun (fst (@lf_train NanNum E m data arg phr)) /\
  (forall s, @lf_compose NanNum m data arg = Ok s -> def_space s).
Proof.
  intros E m data arg phr D Hm Ha Hs. apply lexfun_is in Hm. destruct Hm as (m0 & ->). apply space_is in Ha. destruct Ha as (a0 & ->).
  apply space_is in Hs. destruct Hs as (s0 & ->). split.
  - rewrite (C85_train_lexical NanNum Some nan_extends (und_lib E) E (lib_agree E D)). cbv zeta. cbn [fst]. apply lexfun_is. eexists. reflexivity.
  - intros s Hx. rewrite (C85_compose_lexical NanNum Some nan_extends) in Hx. apply rmap_ok in Hx. destruct Hx as (y & _ & ->).
    apply space_is. eexists. reflexivity.
Qed.

(** ** Concrete cases *)
(** undefined values exist: they are what an unguarded division by the sum of a zero row gives *)
Example C85_example_undefined : @fdiv NanNum (Some 1%R) (Some 0%R) = None.
Proof. cbn. destruct (Req_EM_T 0 0) as [_|n]; [reflexivity|]. elim n. reflexivity. Qed.
(** a library that returns defined numbers *)
Definition one1 : nat -> @F NanNum := fun _ => Some 1%R.
Definition one2 : nat -> nat -> @F NanNum := fun _ _ => Some 1%R.
Definition const_lib : @Ext NanNum := {|
  e_svd := fun _ => Ok (one2, one1, one2);
  e_sparsesvd := fun _ _ => Ok (1, one2, one1, one2);
  e_pinv := fun _ => Ok one2;
  e_lstsq := fun _ _ => Ok one2;
  e_rndcol := fun _ _ => 0; e_rndrow := fun _ _ => 0; e_timeout := fun _ => false |}.
Example C85_example_library : def_library const_lib.
Proof.
  constructor; cbn; intros.
  - injection H0 as <- <- <-. repeat split; intros; discriminate.
  - injection H0 as <- <- <- <-. repeat split; intros; discriminate.
  - injection H0 as <-. discriminate.
  - injection H1 as <-. discriminate.
Qed.
(** a space with a row and a column of zeros: normalising its rows, weighting it and comparing the zero vector with another one
    gives defined numbers only *)
Definition zero_rows : @space NanNum :=
  @SP NanNum (@MD NanNum (@DM NanNum 2 2 [[Some 3%R; Some 0%R]; [Some 0%R; Some 0%R]])) ["a"%string; "b"%string] ["x"%string; "y"%string]
     [("a"%string, 0%Z); ("b"%string, 1%Z)] [("x"%string, 0%Z); ("y"%string, 1%Z)] [] [2].
Example C85_example_space : def_space zero_rows /\
  (exists s', @space_apply NanNum const_lib zero_rows (TScale (RowNorm CSum)) = Ok s') /\
  (exists x, @get_sim NanNum zero_rows "a" "b" Euclid None = Ok x).
Proof.
  split; [|split].
  - split; cbn; repeat constructor; discriminate.
  - eexists. reflexivity.
  - eexists. reflexivity.
Qed.
(** every theorem of the first half holds in particular of the reals themselves and of the numbers with an undefined value *)
Example C85_example_extends : extends_reals NanNum Some /\ extends_reals RNum (fun x => x).
Proof.
  split; [exact nan_extends|]. constructor; try reflexivity; cbn; intros; try reflexivity; try assumption. apply Rltb_spec.
Qed.
(** ... and it is not the only one: division by zero may return any real number *)
Definition div_any (c : R) (a b : R) : R := if Req_EM_T b 0 then c else (a / b)%R.
Definition AnyDiv (c : R) : Num := {|
  F := R; f0 := 0%R; f1 := 1%R; fadd := Rplus; fsub := Rminus; fmul := Rmult; fdiv := div_any c; fopp := Ropp;
  feqb := Reqb; fltb := Rltb; fsqrt := sqrt; fln := ln; fofZ := IZR; feqb_eq := Reqb_eq |}.
Example C85_example_any : forall c, extends_reals (AnyDiv c) (fun x => x).
Proof.
  intros c. constructor; try reflexivity; cbn; intros; try reflexivity; try assumption; [|apply Rltb_spec].
  unfold div_any. destruct (Req_EM_T y 0); [contradiction|reflexivity].
Qed.
