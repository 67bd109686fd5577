(** Prop_Alias.v -- C68: what a sequence of calls on Matrix objects does to the matrices the caller holds. *)
From Verif Require Import Base PyList Dict Num Dense Sparse Matrix PMatrix Scaling Linalg Operation Similarity Space LexFun Imp PImp Prop_Imp PAlias.
Section PropAlias.
Context {N : Num} {E : Ext}.
Local Open Scope nat_scope.

(** ** specification: matrices as values *)
(** what each call returns, as a function of the values of the matrices the caller holds so far *)
Definition vresult (vs : list matrix) (k : call) : res (option matrix) :=
  let arg n := match nth_error vs n with Some m => Ok m | None => Err KeyError end in
  match k with
  | KLit m => Ok (Some m)
  | KConv t n | KTo t n => let* m := arg n in Ok (Some (conv t m))
  | KCopy n => let* m := arg n in Ok (Some m)
  | KFun1 f n => let* m := arg n in let* r := f m in Ok (Some r)
  | KFun2 f n k => let* a := arg n in let* b := arg k in let* r := f a b in Ok (Some r)
  | KPlog n | KNonNeg n | KOnes n => let* m := arg n in Ok None
  | KReshape n r c => let* m := arg n in let* _ := m_reshape m r c in Ok None
  | KApply t n => let* m := arg n in let* r := op_apply (create_operation t) m in Ok (Some (fst r))
  | KSim s n k => let* a := arg n in let* b := arg k in let* _ := sim_get s a b in Ok None
  end.
(** the in-place methods: the matrix they are called on, and its new value *)
Definition receiver (k : call) : option nat :=
  match k with KPlog n | KNonNeg n | KOnes n | KReshape n _ _ => Some n | _ => None end.
Definition effect (k : call) (m : matrix) : matrix :=
  match k with
  | KPlog _ => m_plog m | KNonNeg _ => m_to_non_negative m | KOnes _ => m_to_ones m
  | KReshape _ r c => match m_reshape m r c with Ok v => v | Err _ => m end
  | _ => m
  end.
(** a call changes the matrix it is called on if it is in-place, and appends the matrix it returns *)
Definition vstep (vs : list matrix) (k : call) : list matrix :=
  (match receiver k with
   | Some n => match nth_error vs n with Some m => upd vs n (effect k m) | None => vs end
   | None => vs end) ++ (match vresult vs k with Ok (Some m) => [m] | _ => [] end).
(** the matrix whose storage the returned matrix shares: DenseMatrix(x) of a DenseMatrix, SparseMatrix(x) of a SparseMatrix, x.to_dense_matrix()
    and x.to_sparse_matrix() of the class of x, and Normalization of a matrix whose total is 0; all other results have storage of their own *)
Definition source (vs : nat -> option matrix) (k : call) : option nat :=
  match k with
  | KConv t n | KTo t n => match vs n with Some m => if mtype_eqb (type_of m) t then Some n else None | None => None end
  | KApply (TScale (Norm c)) n =>
      match vs n with Some m => if feqb (match c with CLength => m_norm m | CSum => m_sum m end) f0 then Some n else None | None => None end
  | _ => None
  end.
(** for every matrix the caller holds, the first one with that storage *)
Definition ostep (vs : nat -> option matrix) (more : bool) (os : list nat) (k : call) : list nat :=
  if more then os ++ [match source vs k with Some n => nth n os 0 | None => length os end] else os.
Definition returns {A} (r : res (option A)) : bool := match r with Ok (Some _) => true | _ => false end.
(** a history in which in-place methods are only called on matrices that share their storage with no other one *)
Definition alone (os : list nat) (n : nat) : Prop := forall n', n' <> n -> nth_error os n' <> nth_error os n.
Fixpoint unshared (vs : list matrix) (os : list nat) (ks : list call) : Prop :=
  match ks with
  | [] => True
  | k :: ks => match receiver k with Some n => alone os n | None => True end /\
      unshared (vstep vs k) (ostep (nth_error vs) (returns (vresult vs k)) os k) ks
  end.
(** the caller starts with nothing *)
Definition nothing : mem * list nat := (MEM [] [], []).

(** ** invariant *)
Definition shows (st : mem) (env : list nat) (vs : list matrix) : Prop := Forall2 (fun i m => value st i = Some m) env vs.
Definition inv (st : mem) (env : list nat) (os : list nat) : Prop :=
  length os = length env /\
  (forall n i o, nth_error env n = Some i -> nth_error (m_objs st) i = Some o -> view_ok st o) /\
  (forall n n' i i' o o', nth_error env n = Some i -> nth_error env n' = Some i' -> nth_error (m_objs st) i = Some o -> nth_error (m_objs st) i' = Some o' ->
     mo_arr o = mo_arr o' -> nth_error os n = nth_error os n').
Lemma F2_nth {A B} (R : A -> B -> Prop) l l' n a : Forall2 R l l' -> nth_error l n = Some a -> exists b, nth_error l' n = Some b /\ R a b.
Proof. intros H. revert n. induction H as [|x y l l' Hxy H IH]; intros [|n] Hn; cbn in *; try discriminate; [injection Hn as <-; eauto|auto]. Qed.
Lemma F2_len {A B} (R : A -> B -> Prop) l l' : Forall2 R l l' -> length l = length l'.
Proof. induction 1; cbn; auto. Qed.
Lemma F2_none {A B} (R : A -> B -> Prop) l l' n : Forall2 R l l' -> nth_error l n = None -> nth_error l' n = None.
Proof. intros H Hn. apply nth_error_None. apply nth_error_None in Hn. rewrite <- (F2_len _ _ _ H). exact Hn. Qed.
Lemma shows_ext st st' env vs : ext st st' -> shows st env vs -> shows st' env vs.
Proof. intros X H. induction H as [|i m l l' H1 H2 IH]; constructor; [eapply value_ext; eassumption|exact IH]. Qed.
Lemma ext_obj st st' i o : ext st st' -> nth_error (m_objs st) i = Some o -> nth_error (m_objs st') i = Some o.
Proof. intros (xs & ys & _ & ->). apply nth_ext. Qed.
Lemma ext_arr st st' i o : ext st st' -> nth_error (m_arrs st) i = Some o -> nth_error (m_arrs st') i = Some o.
Proof. intros (xs & ys & -> & _). apply nth_ext. Qed.
Lemma shown_obj st env vs n i : shows st env vs -> nth_error env n = Some i -> exists o m, nth_error (m_objs st) i = Some o /\ nth_error vs n = Some m /\ value st i = Some m /\ mo_arr o < length (m_arrs st).
Proof.
  intros H Hn. destruct (F2_nth _ _ _ _ _ H Hn) as (m & Hm & V). destruct (value_obj _ _ _ V) as (o & Ho & HA). exists o, m. repeat split; auto.
  destruct m; [destruct HA as (d0 & HA & _)|]; eapply nth_lt; exact HA.
Qed.
Lemma view_ext st st' o : ext st st' -> mo_arr o < length (m_arrs st) -> view_ok st o -> view_ok st' o.
Proof.
  intros X L. unfold view_ok. destruct (nth_error (m_arrs st) (mo_arr o)) as [a|] eqn:HA; [rewrite (ext_arr _ _ _ _ X HA); auto|]. apply nth_error_None in HA. lia.
Qed.
Lemma inv_ext st st' env vs os : ext st st' -> shows st env vs -> inv st env os -> inv st' env os.
Proof.
  intros X S (L & HV & HS). split; [exact L|]. split.
  - intros n i o Hn Ho. destruct (shown_obj _ _ _ _ _ S Hn) as (o0 & m & Ho0 & _ & _ & La). pose proof (ext_obj _ _ _ _ X Ho0). assert (o0 = o) by congruence. subst.
    eapply view_ext; eauto.
  - intros n n' i i' o o' Hn Hn' Ho Ho' Ha. destruct (shown_obj _ _ _ _ _ S Hn) as (o0 & m & Ho0 & _). destruct (shown_obj _ _ _ _ _ S Hn') as (o1 & m' & Ho1 & _).
    pose proof (ext_obj _ _ _ _ X Ho0). pose proof (ext_obj _ _ _ _ X Ho1). assert (o0 = o) by congruence. assert (o1 = o') by congruence. subst. eauto.
Qed.
Lemma nth_snoc {A} (l : list A) x n y : nth_error (l ++ [x]) n = Some y -> nth_error l n = Some y \/ (n = length l /\ y = x).
Proof.
  intros H. destruct (Nat.lt_ge_cases n (length l)) as [Lt|Ge]; [rewrite nth_error_app1 in H by exact Lt; auto|]. right.
  rewrite nth_error_app2 in H by exact Ge. destruct (n - length l) as [|q] eqn:Q; [split; [lia|cbn in H; congruence]|]. destruct q; discriminate.
Qed.
Lemma nth_last {A} (l : list A) x : nth_error (l ++ [x]) (length l) = Some x.
Proof. rewrite nth_error_app2, Nat.sub_diag by lia. reflexivity. Qed.
(** what is known of the object a call returns *)
Definition returned (st st' : mem) (env vs : _) (k : call) (j : nat) (m : matrix) : Prop :=
  value st' j = Some m /\
  match source (nth_error vs) k with
  | Some n => exists i o, nth_error env n = Some i /\ nth_error (m_objs st) i = Some o /\ nth_error (m_objs st') j = Some o
  | None => is_new st st' j m
  end.
Lemma inv_more st st' env vs os k j m : ext st st' -> shows st env vs -> inv st env os -> returned st st' env vs k j m ->
  inv st' (env ++ [j]) (ostep (nth_error vs) true os k).
Proof.
  intros X S I (V & HR). pose proof (inv_ext _ _ _ _ _ X S I) as (L & HV & HS). pose proof I as (_ & HV0 & HS0). unfold ostep.
  set (g := match source (nth_error vs) k with Some n => nth n os 0 | None => length os end).
  assert (NEW : forall n i o, nth_error env n = Some i -> nth_error (m_objs st') i = Some o -> forall oj, nth_error (m_objs st') j = Some oj -> mo_arr o = mo_arr oj -> nth_error os n = Some g).
  { intros n i o Hn Ho oj Hj Ha. destruct (shown_obj _ _ _ _ _ S Hn) as (o0 & m0 & Ho0 & _ & _ & La). pose proof (ext_obj _ _ _ _ X Ho0). assert (o0 = o) by congruence. subst o0.
    unfold g. destruct (source (nth_error vs) k) as [n1|].
    - destruct HR as (i1 & o1 & H1 & H2 & H3). assert (oj = o1) by congruence. subst oj.
      rewrite (HS0 n n1 i i1 o o1 Hn H1 Ho0 H2 Ha). apply nth_error_nth'. rewrite L. eapply nth_lt; exact H1.
    - destruct HR as (_ & _ & ob & H1 & H2 & _). assert (ob = oj) by congruence. subst ob. lia. }
  split; [rewrite !app_length, L; reflexivity|]. split.
  - intros n i o Hn Ho. apply nth_snoc in Hn. destruct Hn as [Hn|(-> & ->)]; [eauto|].
    destruct (source (nth_error vs) k) as [n1|].
    + destruct HR as (i1 & o1 & H1 & H2 & H3). assert (o1 = o) by congruence. subst o1. destruct (shown_obj _ _ _ _ _ S H1) as (o0 & m0 & Ho0 & _ & _ & La).
      assert (o0 = o) by congruence. subst o0. eapply view_ext; eauto.
    + destruct HR as (_ & _ & ob & H1 & _ & H3). assert (ob = o) by congruence. subst ob. apply view_none, H3.
  - intros n n' i i' o o' Hn Hn' Ho Ho' Ha. pose proof (nth_lt _ _ _ Hn) as Ln. pose proof (nth_lt _ _ _ Hn') as Ln'. apply nth_snoc in Hn. apply nth_snoc in Hn'.
    destruct Hn as [Hn|(-> & ->)], Hn' as [Hn'|(-> & ->)].
    + rewrite !nth_error_app1 by (rewrite L; eapply nth_lt; eassumption). eauto.
    + rewrite nth_error_app1 by (rewrite L; eapply nth_lt; eassumption). rewrite <- L, nth_last. eapply NEW; eassumption.
    + rewrite (nth_error_app1 os _ (n := n')) by (rewrite L; eapply nth_lt; eassumption). rewrite <- L, nth_last. symmetry. eapply NEW; [exact Hn'|exact Ho'|exact Ho|auto].
    + reflexivity.
Qed.

(** ** calls that are not in-place *)
Lemma run_named {A B} st env vs n (p : nat -> prog A) (q : matrix -> res B) rel : shows st env vs ->
  (forall i m, nth_error env n = Some i -> nth_error vs n = Some m -> value st i = Some m -> run st (p i) (q m) rel) ->
  run st (pbind (named env n) p) (bind (match nth_error vs n with Some m => Ok m | None => Err KeyError end) q) rel.
Proof.
  intros S H. destruct (nth_error env n) as [i|] eqn:Hn.
  - destruct (F2_nth _ _ _ _ _ S Hn) as (m & Hm & V). rewrite Hm. cbn [bind]. unfold run, pbind, named. rewrite Hn. apply (H i m); auto.
  - rewrite (F2_none _ _ _ _ S Hn). cbn [bind]. unfold run, pbind, named. rewrite Hn. cbn. split; [apply ext_refl|reflexivity].
Qed.
Definition outcome (st : mem) (env : list nat) (vs : list matrix) (k : call) (st' : mem) (oj : option nat) (om : option matrix) : Prop :=
  match oj, om with Some j, Some m => returned st st' env vs k j m | None, None => True | _, _ => False end.
Lemma run_some st p r env vs k : run st p r (fun st' j m => returned st st' env vs k j m) ->
  run st (pbind p (fun o => ret (Some o))) (let* m := r in Ok (Some m)) (outcome st env vs k).
Proof. intros H. eapply run_bind; [exact H|]. intros st' a b X R. apply run_ret. exact R. Qed.
Lemma run_none {A B} st (p : prog A) (r : res B) rel env vs k : run st p r rel -> run st (pbind p (fun _ => ret None)) (let* _ := r in Ok None) (outcome st env vs k).
Proof. intros H. eapply run_bind; [exact H|]. intros st' a b X R. apply run_ret. exact I. Qed.
Lemma faithful_run {A B} st (p : prog A) (r : res B) rel : ext st (fst (p st)) -> faithful st p r rel -> run st p r rel.
Proof. intros X (_ & H). split; [exact X|exact H]. Qed.
Lemma perform_pure st env vs k : receiver k = None -> shows st env vs -> run st (perform env k) (vresult vs k) (outcome st env vs k).
Proof.
  intros HK S. destruct k as [m|t n|t n|n|f n|f n n2|n|n|n|n r c|t n|s n n2]; try discriminate HK; unfold perform, vresult; cbv zeta.
  - (* KLit *) apply (run_some st (fresh m) (Ok m)). eapply run_weak; [apply run_fresh|]. intros st' j v X HN. split; [apply (is_new_value _ _ _ _ HN)|exact HN].
  - (* KConv *) apply (run_named st env vs n _ (fun m => Ok (Some (conv t m))) _ S). intros i m Hn Hm V. apply (run_some st (x_conv t i) (Ok (conv t m))).
    unfold x_conv. destruct (value_obj _ _ _ V) as (o & Ho & HA). unfold run, pbind, get_obj, get. rewrite Ho, V. unfold returned. cbn [source]. rewrite Hm.
    destruct (mtype_eqb (type_of m) t) eqn:Q.
    + split; [exists [], [o]; rewrite app_nil_r; auto|]. cbn [new_obj fst snd]. split.
      * unfold value. cbn [m_arrs m_objs]. rewrite nth_last. destruct m as [d|c], t; try discriminate; cbn [conv to_dense to_sparse]; [destruct HA as (d0 & -> & ->)|rewrite HA]; reflexivity.
      * exists i, o. cbn [m_objs]. rewrite nth_last. auto.
    + destruct (run_fresh st (conv t m)) as (X & Y). split; [exact X|]. destruct (snd (fresh (conv t m) st)); [|contradiction]. split; [apply (is_new_value _ _ _ _ Y)|exact Y].
  - (* KTo *) apply (run_named st env vs n _ (fun m => Ok (Some (conv t m))) _ S). intros i m Hn Hm V. apply (run_some st (x_to t i) (Ok (conv t m))).
    unfold x_to. apply (run_get st i m _ _ _ V). unfold returned. cbn [source]. rewrite Hm. destruct (value_obj _ _ _ V) as (o & Ho & _).
    destruct (mtype_eqb (type_of m) t) eqn:Q.
    + apply run_ret. split; [|exists i, o; auto]. rewrite V. destruct m, t; try discriminate; reflexivity.
    + eapply run_weak; [apply run_fresh|]. intros st' j v X HN. split; [apply (is_new_value _ _ _ _ HN)|exact HN].
  - (* KCopy *) apply (run_named st env vs n _ (fun m => Ok (Some m)) _ S). intros i m Hn Hm V. apply (run_some st (x_copy i) (Ok m)).
    unfold x_copy. apply (run_get st i m _ _ _ V). eapply run_weak; [apply run_fresh|]. intros st' j v X HN. split; [apply (is_new_value _ _ _ _ HN)|exact HN].
  - (* KFun1 *) apply (run_named st env vs n _ (fun m => let* r := f m in Ok (Some r)) _ S). intros i m Hn Hm V. apply run_some.
    eapply run_weak; [apply run_fun1, V|]. intros st' j v X HN. split; [apply (is_new_value _ _ _ _ HN)|exact HN].
  - (* KFun2 *) apply (run_named st env vs n _ (fun a => let* b := _ in let* r := f a b in Ok (Some r)) _ S). intros i a Hn Hm V.
    apply (run_named st env vs n2 _ (fun b => let* r := f a b in Ok (Some r)) _ S). intros i2 b Hn2 Hm2 V2. apply run_some.
    eapply run_weak; [apply run_fun2; eassumption|]. intros st' j v X HN. split; [apply (is_new_value _ _ _ _ HN)|exact HN].
  - (* KApply *) apply (run_named st env vs n _ (fun m => let* r := op_apply (create_operation t) m in Ok (Some (fst r))) _ S). intros i m Hn Hm V.
    eapply run_bind; [|intros st' a b X R; apply run_ret; exact R].
    assert (ON : op_value st (x_create t) (create_operation t)) by (destruct t; cbn; auto).
    pose proof (C69_apply st (x_create t) (create_operation t) i m V ON) as FA.
    assert (XA : run st (x_op_apply (x_create t) i) (op_apply (create_operation t) m) (fun st' a b => value st' (fst a) = Some (fst b) /\ (is_new st st' (fst a) (fst b) \/ exists c, t = TScale (Norm c)))).
    { destruct t as [s|d q|c q]; cbn [x_create create_operation x_op_apply op_apply].
      - eapply run_bind; [apply (run_scaling s st i m None None V I)|]. intros st1 r v X1 (HV & HN).
        assert (G : forall st', ext st1 st' -> value st' r = Some v /\ (is_new st st' r v \/ exists c, TScale s = TScale (Norm c))).
        { intros st' X'. split; [eapply value_ext; eassumption|]. destruct HN as [HN|(_ & c & ->)]; [left; eapply is_new_ext; eassumption|right; exists c; reflexivity]. }
        destruct (uses_column_stats s); [|apply run_ret; cbn; auto using ext_refl]. apply (run_get st1 i m _ _ _ (value_ext _ _ _ _ X1 V)). destruct (get_column_stats s m).
        + eapply run_step; [apply run_new_arr|]. intros st2 a X2 R2. apply run_ret. cbn. auto.
        + apply run_ret. cbn. auto using ext_refl.
      - apply (run_get st i m _ _ _ V). eapply run_bind; [apply run_pure|]. intros st1 r r' X1 (-> & ->). destruct r' as [r tm]. cbn [fst snd].
        eapply run_step; [apply run_fresh_u|]. intros st2 a X2 HA. eapply run_step; [apply run_fresh_u|]. intros st3 b X3 HB. cbn beta in HA, HB.
        change (Ok (conv TDense r, OpDim d q (Some tm))) with (let* x := Ok (conv TDense r) in Ok (x, OpDim d q (Some tm))).
        eapply run_bind; [apply (run_conv_new st st3 TDense a r); [xt|eapply is_new_ext; eassumption]|]. intros st4 a' v X4 HN.
        apply run_ret. cbn. split; [apply (is_new_value _ _ _ _ HN)|left; exact HN].
      - eapply run_bind; [apply run_topfs; exact V|]. intros st1 [j sl] [v sl'] X1 (HN & HE). cbn [fst snd] in *. apply run_ret. cbn. split; [apply (is_new_value _ _ _ _ HN)|left; exact HN]. }
    destruct (source (nth_error vs) (KApply t n)) as [n1|] eqn:HSrc.
    + cbn [source] in HSrc. destruct t as [s| |]; try discriminate. destruct s as [| | | | |c]; try discriminate. rewrite Hm in HSrc. destruct (feqb _ f0) eqn:Z; [|discriminate]. injection HSrc as <-.
      cbn [x_create create_operation x_op_apply op_apply x_scaling scaling_apply]. unfold x_norm, norm_apply. cbv zeta. rewrite Z.
      destruct (value_obj _ _ _ V) as (o & Ho & _).
      assert (Z2 : uses_column_stats (Norm c) = true \/ uses_column_stats (Norm c) = false) by (destruct c; auto).
      unfold run, pbind, get, ret. rewrite V. rewrite Z. cbn [bind]. destruct Z2 as [-> | ->].
      * rewrite V. destruct (get_column_stats (Norm c) m); cbn [fst snd new_arr].
        -- split; [exists [AV l], []; rewrite app_nil_r; auto|]. unfold outcome, returned. cbn [fst source]. rewrite Hm, Z. split; [|exists i, o; auto].
           eapply value_ext; [|exact V]. exists [AV l], []; rewrite app_nil_r; auto.
        -- split; [apply ext_refl|]. unfold outcome, returned. cbn [fst source]. rewrite Hm, Z. split; [exact V|exists i, o; auto].
      * cbn [fst snd]. split; [apply ext_refl|]. unfold outcome, returned. cbn [fst source]. rewrite Hm, Z. split; [exact V|exists i, o; auto].
    + assert (NN : forall c, t = TScale (Norm c) -> feqb (match c with CLength => m_norm m | CSum => m_sum m end) f0 = false).
      { intros c ->. cbn [source] in HSrc. rewrite Hm in HSrc. destruct (feqb _ f0); [discriminate|reflexivity]. }
      assert (NEW : run st (x_op_apply (x_create t) i) (op_apply (create_operation t) m) (fun st' a b => is_new st st' (fst a) (fst b))).
      { assert (TD : (exists c, t = TScale (Norm c)) \/ ~ (exists c, t = TScale (Norm c))).
        { destruct t as [[]| |]; try (right; intros (cc & Hc); discriminate Hc). left. eauto. }
        destruct TD as [(c & ->)|TD].
        - cbn [x_create create_operation x_op_apply op_apply x_scaling scaling_apply]. specialize (NN c eq_refl).
          eapply run_bind; [|]. { instantiate (1 := is_new st). unfold x_norm, norm_apply. apply (run_get st i m _ _ _ V). cbv zeta. rewrite NN. apply (run_fun1 st (fun m => Ok (m_scal _ m)) i m V). }
          intros st1 r v X1 HN. destruct (uses_column_stats (Norm c)); [|apply run_ret; exact HN]. apply (run_get st1 i m _ _ _ (value_ext _ _ _ _ X1 V)).
          destruct (get_column_stats (Norm c) m).
          + eapply run_step; [apply run_new_arr|]. intros st2 a X2 R2. apply run_ret. cbn. eapply is_new_ext; eassumption.
          + apply run_ret. exact HN.
        - eapply run_weak; [exact XA|]. intros st' a b X (_ & [H|H]); [exact H|contradiction]. }
      eapply run_weak; [exact NEW|]. intros st' a b X HN. unfold outcome, returned. rewrite HSrc. split; [apply (is_new_value _ _ _ _ HN)|exact HN].
  - (* KSim *) apply (run_named st env vs n _ (fun a => let* b := _ in let* _ := sim_get s a b in Ok None) _ S). intros i a Hn Hm V.
    apply (run_named st env vs n2 _ (fun b => let* _ := sim_get s a b in Ok None) _ S). intros i2 b Hn2 Hm2 V2.
    eapply run_none with (rel := fun _ x y => x = y). apply run_sim; assumption.
Qed.

(** ** in-place calls *)
Definition in_place (k : call) (i : nat) : prog unit :=
  match k with KPlog _ => x_plog i | KNonNeg _ => x_to_non_negative i | KOnes _ => x_to_ones i | KReshape _ r c => x_reshape i r c | _ => ret tt end.
Lemma perform_in_place env k n st : receiver k = Some n ->
  perform env k st = match nth_error env n with
    | Some i => match in_place k i st with (st', Ok _) => (st', Ok None) | (st', Err e) => (st', Err e) end
    | None => (st, Err KeyError) end.
Proof. destruct k; try discriminate; intros Q; injection Q as ->; unfold perform, pbind, named, ret; cbn [in_place]; destruct (nth_error env n); reflexivity. Qed.
Definition vpart (k : call) (m : matrix) : res matrix := match k with KReshape _ r c => m_reshape m r c | _ => Ok (effect k m) end.
Lemma in_place_step st env vs os k n i m : receiver k = Some n -> shows st env vs -> inv st env os -> nth_error env n = Some i -> nth_error vs n = Some m ->
  match vpart k m with
  | Ok v => snd (perform env k st) = Ok None /\ touched st (fst (perform env k st)) i /\ value (fst (perform env k st)) i = Some v
  | Err e => perform env k st = (st, Err e)
  end.
Proof.
  intros HK S (_ & HV & _) Hn Hm. destruct (shown_obj _ _ _ _ _ S Hn) as (o & m' & Ho & Hm' & V & _). assert (m' = m) by congruence. subst m'.
  pose proof (HV _ _ _ Hn Ho) as VO. rewrite (perform_in_place _ _ _ _ HK), Hn.
  assert (G : match vpart k m with
    | Ok v => snd (in_place k i st) = Ok tt /\ touched st (fst (in_place k i st)) i /\ value (fst (in_place k i st)) i = Some v
    | Err e => in_place k i st = (st, Err e) end).
  { destruct k; try discriminate; cbn [vpart effect in_place].
    - exact (plog_ok st i m o Ho VO V). - exact (nonneg_ok st i m o Ho VO V). - exact (ones_ok st i m o Ho VO V). - exact (reshape_ok r c st i m o Ho VO V). }
  destruct (vpart k m) as [v|e]; [|rewrite G; reflexivity]. destruct (in_place k i st) as [st' [u|e]]; cbn [fst snd] in *; destruct G as (G1 & G2 & G3); [auto|discriminate].
Qed.
Lemma touched_frame st st' i o j oj m : touched st st' i -> nth_error (m_objs st) i = Some o -> nth_error (m_objs st) j = Some oj -> mo_arr oj <> mo_arr o ->
  value st j = Some m -> value st' j = Some m.
Proof.
  intros (o' & H1 & H2 & H3 & _) Ho Hj Hne V. assert (o' = o) by congruence. subst o'. assert (j <> i) by (intros ->; congruence).
  unfold value in *. rewrite H2 by assumption. rewrite Hj in *. destruct (nth_error (m_arrs st) (mo_arr oj)) as [a|] eqn:HA; [|discriminate]. rewrite (H3 _ _ Hne HA). exact V.
Qed.
Lemma touched_inv st st' env vs os n i : touched st st' i -> shows st env vs -> inv st env os -> nth_error env n = Some i -> inv st' env os.
Proof.
  intros (o & H1 & H2 & H3 & H4 & o' & H5 & H6 & H7) S (L & HV & HS) Hn. split; [exact L|].
  assert (OLD : forall n1 i1 o1, nth_error env n1 = Some i1 -> nth_error (m_objs st') i1 = Some o1 -> i1 <> i -> nth_error (m_objs st) i1 = Some o1).
  { intros n1 i1 o1 _ Ho1 Hne. rewrite <- (H2 i1 Hne). exact Ho1. }
  assert (LT : forall n1 i1 o1, nth_error env n1 = Some i1 -> nth_error (m_objs st) i1 = Some o1 -> mo_arr o1 < length (m_arrs st)).
  { intros n1 i1 o1 Hn1 Ho1. destruct (shown_obj _ _ _ _ _ S Hn1) as (o2 & ? & Ho2 & _ & _ & La). assert (o2 = o1) by congruence. subst. exact La. }
  split.
  - intros n1 i1 o1 Hn1 Ho1. destruct (Nat.eq_dec i1 i) as [->|Hne]; [assert (o1 = o') by congruence; subst; exact H6|].
    pose proof (OLD _ _ _ Hn1 Ho1 Hne) as Ho. pose proof (HV _ _ _ Hn1 Ho) as VO. unfold view_ok in *. destruct (Nat.eq_dec (mo_arr o1) (mo_arr o)) as [Q|Q].
    + rewrite Q in *. destruct (nth_error (m_arrs st) (mo_arr o)) as [a|] eqn:HA; [|apply nth_error_None in HA; pose proof (LT _ _ _ Hn1 Ho); lia].
      destruct (H4 a eq_refl) as (a' & -> & SS). destruct a, a'; cbn in SS; try contradiction; [|exact I]. destruct SS as (S1 & S2). destruct (mo_view o1) as [[r0 c0]|]; [rewrite <- S1, <- S2; exact VO|exact I].
    + destruct (nth_error (m_arrs st) (mo_arr o1)) as [a|] eqn:HA; [rewrite (H3 _ _ Q HA); exact VO|]. apply nth_error_None in HA. pose proof (LT _ _ _ Hn1 Ho). lia.
  - intros n1 n2 i1 i2 o1 o2 Hn1 Hn2 Ho1 Ho2 Ha.
    destruct (Nat.eq_dec i1 i) as [->|Hne1], (Nat.eq_dec i2 i) as [->|Hne2].
    + apply (HS n1 n2 i i o o Hn1 Hn2 H1 H1 eq_refl).
    + assert (o1 = o') by congruence. subst o1. pose proof (OLD _ _ _ Hn2 Ho2 Hne2) as P2. destruct H7 as [H7|H7]; [apply (HS n1 n2 i i2 o o2); auto; congruence|]. pose proof (LT _ _ _ Hn2 P2). lia.
    + assert (o2 = o') by congruence. subst o2. pose proof (OLD _ _ _ Hn1 Ho1 Hne1) as P1. destruct H7 as [H7|H7]; [apply (HS n1 n2 i1 i o1 o); auto; congruence|]. pose proof (LT _ _ _ Hn1 P1). lia.
    + apply (HS n1 n2 i1 i2 o1 o2); auto; eapply OLD; eauto.
Qed.
Lemma touched_shown st st' i v env vs : touched st st' i -> value st' i = Some v -> shows st env vs -> exists vs', shows st' env vs'.
Proof.
  intros T Vi S. assert (ALL : forall j m, value st j = Some m -> exists m', value st' j = Some m').
  { destruct T as (o & H1 & H2 & H3 & H4 & _). intros j m V. destruct (Nat.eq_dec j i) as [->|Hne]; [eauto|]. unfold value in *. rewrite H2 by exact Hne.
    destruct (nth_error (m_objs st) j) as [oj|]; [|discriminate]. destruct (Nat.eq_dec (mo_arr oj) (mo_arr o)) as [Q|Q].
    - rewrite Q in *. destruct (nth_error (m_arrs st) (mo_arr o)) as [a|]; [|discriminate]. destruct (H4 a eq_refl) as (a' & -> & SS). destruct a, a'; cbn in SS; try contradiction; eauto.
    - destruct (nth_error (m_arrs st) (mo_arr oj)) as [a|] eqn:HA; [|discriminate]. rewrite (H3 _ _ Q HA). eauto. }
  induction S as [|j m env vs Vj S IH]; [exists []; constructor|]. destruct IH as (vs' & IH). destruct (ALL _ _ Vj) as (m' & V'). exists (m' :: vs'). constructor; assumption.
Qed.
Lemma shows_look st env vs n : shows st env vs -> look (st, env) n = nth_error vs n.
Proof.
  intros S. unfold look. cbn [fst snd]. destruct (nth_error env n) as [i|] eqn:Hn; [|symmetry; eapply F2_none; eassumption].
  destruct (F2_nth _ _ _ _ _ S Hn) as (m & -> & V). exact V.
Qed.
Lemma nth_ext_all {A} (l l' : list A) : (forall n, nth_error l n = nth_error l' n) -> l = l'.
Proof.
  revert l'. induction l as [|a l IH]; intros [|b l'] H; auto; try (specialize (H 0); discriminate). f_equal; [specialize (H 0); cbn in H; congruence|].
  apply IH. intros n. apply (H (S n)).
Qed.
Lemma shows_of_look st env vs : (forall n, look (st, env) n = nth_error vs n) -> length env = length vs -> shows st env vs.
Proof.
  revert vs. induction env as [|i env IH]; intros [|m vs] H L; try discriminate; constructor.
  - specialize (H 0). cbn in H. exact H.
  - apply IH; [intros n; apply (H (S n))|cbn in L; lia].
Qed.

(** ** one step *)
Definition more_b (env env' : list nat) : bool := Nat.ltb (length env) (length env').
Lemma source_ext f g k : (forall n, f n = g n) -> source f k = source g k.
Proof. intros H. destruct k; cbn; auto; rewrite ?H; auto. Qed.
(** after a call that is not in-place *)
Lemma step_pure st env vs os k : receiver k = None -> shows st env vs -> inv st env os ->
  exists st' env', step_call (st, env) k = (st', env') /\ ext st st' /\ shows st' env' (vstep vs k) /\
    inv st' env' (ostep (nth_error vs) (returns (vresult vs k)) os k) /\ more_b env env' = returns (vresult vs k) /\
    (forall n m, nth_error vs n = Some m -> nth_error (vstep vs k) n = Some m).
Proof.
  intros HK S I. destruct (perform_pure st env vs k HK S) as (X & R). unfold step_call, vstep. rewrite HK.
  destruct (perform env k st) as [st' r]. cbn [fst snd] in *.
  assert (SAME : shows st' env (vs ++ []) /\ inv st' env (ostep (nth_error vs) false os k) /\ more_b env env = false /\ (forall n m, nth_error vs n = Some m -> nth_error (vs ++ []) n = Some m)).
  { rewrite app_nil_r. split; [eapply shows_ext; eassumption|]. split; [eapply inv_ext; eassumption|]. split; [unfold more_b; apply Nat.ltb_irrefl|auto]. }
  destruct SAME as (Q1 & Q2 & Q3 & Q4).
  destruct r as [[j|]|e], (vresult vs k) as [[m|]|e']; cbn in R; try contradiction; cbn [returns].
  - exists st', (env ++ [j]). split; [reflexivity|]. split; [exact X|]. split; [apply Forall2_app; [eapply shows_ext; eassumption|constructor; [exact (proj1 R)|constructor]]|].
    split; [eapply inv_more; eassumption|]. split; [unfold more_b; rewrite app_length; apply Nat.ltb_lt; cbn; lia|]. intros n m' H. apply nth_ext, H.
  - exists st', env. auto 8.
  - exists st', env. auto 8.
Qed.
(** after an in-place call *)
Lemma step_in_place st env vs os k n i m : receiver k = Some n -> shows st env vs -> inv st env os -> nth_error env n = Some i -> nth_error vs n = Some m ->
  exists st', step_call (st, env) k = (st', env) /\ inv st' env os /\ (exists vs', shows st' env vs') /\ value st' i = Some (effect k m) /\
    (forall n' m', nth_error os n' <> nth_error os n -> nth_error vs n' = Some m' -> look (st', env) n' = Some m') /\
    match vpart k m with Ok _ => snd (perform env k st) = Ok None | Err e => snd (perform env k st) = Err e end.
Proof.
  intros HK S I Hn Hm. pose proof (in_place_step st env vs os k n i m HK S I Hn Hm) as H. unfold step_call.
  destruct (shown_obj _ _ _ _ _ S Hn) as (o & m0 & Ho & Hm0 & V & _). assert (m0 = m) by congruence. subst m0.
  assert (EF : match vpart k m with Ok v => effect k m = v | Err _ => effect k m = m end) by (destruct k; try discriminate; cbn; auto; destruct (m_reshape m r c); reflexivity).
  destruct (vpart k m) as [v|e].
  - destruct H as (H1 & H2 & H3). destruct (perform env k st) as [st' r]. cbn [fst snd] in *. subst r. exists st'. split; [reflexivity|].
    split; [eapply touched_inv; eassumption|]. split; [eapply touched_shown; eassumption|]. split; [rewrite EF; exact H3|]. split; [|reflexivity].
    intros n' m' Hne Hm'. unfold look. cbn [fst snd]. destruct (nth_error env n') as [i'|] eqn:Hn'; [|rewrite (F2_none _ _ _ _ S Hn') in Hm'; discriminate].
    destruct (shown_obj _ _ _ _ _ S Hn') as (o' & m1 & Ho' & Hm1 & V' & _). assert (m1 = m') by congruence. subst m1.
    eapply touched_frame; [exact H2|exact Ho|exact Ho'| |exact V']. intros Q. apply Hne. destruct I as (_ & _ & HS). eapply HS; eassumption.
  - rewrite H. exists st. split; [reflexivity|]. split; [exact I|]. split; [eauto|]. split; [rewrite EF; exact V|]. split; [|reflexivity].
    intros n' m' _ Hm'. rewrite (shows_look _ _ _ _ S). exact Hm'.
Qed.
Lemma step_absent st env vs k n : receiver k = Some n -> shows st env vs -> nth_error env n = None -> step_call (st, env) k = (st, env) /\ vstep vs k = vs /\ returns (vresult vs k) = false
  /\ perform env k st = (st, Err KeyError) /\ vresult vs k = Err KeyError.
Proof.
  intros HK S Hn. pose proof (F2_none _ _ _ _ S Hn) as Hv. unfold step_call. rewrite (perform_in_place _ _ _ _ HK), Hn. unfold vstep. rewrite HK, Hv.
  assert (vresult vs k = Err KeyError) as -> by (destruct k; try discriminate; injection HK as ->; cbn; rewrite Hv; reflexivity). rewrite app_nil_r. auto.
Qed.
Lemma vstep_in_place vs k n m : receiver k = Some n -> nth_error vs n = Some m -> vstep vs k = upd vs n (effect k m) /\ returns (vresult vs k) = false.
Proof.
  intros HK Hm. unfold vstep. rewrite HK, Hm.
  assert (Q : returns (vresult vs k) = false).
  { destruct k; try discriminate; injection HK as ->; cbn; rewrite Hm; cbn; auto. destruct (m_reshape m r c); reflexivity. }
  split; [|exact Q]. destruct (vresult vs k) as [[x|]|]; try discriminate; apply app_nil_r.
Qed.
(** in an unshared history the memory shows the values *)
Lemma unshared_steps ks : forall st env vs os, shows st env vs -> inv st env os -> unshared vs os ks ->
  exists os', shows (fst (fold_left step_call ks (st, env))) (snd (fold_left step_call ks (st, env))) (fold_left vstep ks vs) /\ inv (fst (fold_left step_call ks (st, env))) (snd (fold_left step_call ks (st, env))) os'.
Proof.
  induction ks as [|k ks IH]; intros st env vs os S I U; [exists os; auto|]. destruct U as (U1 & U2). cbn [fold_left].
  destruct (receiver k) as [n|] eqn:HK.
  - destruct (nth_error env n) as [i|] eqn:Hn.
    + destruct (F2_nth _ _ _ _ _ S Hn) as (m & Hm & V). destruct (step_in_place st env vs os k n i m HK S I Hn Hm) as (st' & -> & I' & (vs' & S') & V' & FR & _).
      destruct (vstep_in_place vs k n m HK Hm) as (VS & RV). rewrite RV in U2. unfold ostep in U2. rewrite VS in *. apply (IH st' env (upd vs n (effect k m)) os); auto.
      apply shows_of_look; [|rewrite upd_length; apply (F2_len _ _ _ S)]. intros n'. destruct (Nat.eq_dec n' n) as [->|Hne].
      * rewrite upd_eq by (eapply nth_lt; exact Hm). unfold look. cbn [fst snd]. rewrite Hn. exact V'.
      * rewrite upd_ne by auto. destruct (nth_error vs n') as [m'|] eqn:Hm'; [apply FR; [apply U1, Hne|exact Hm']|].
        unfold look. cbn [fst snd]. destruct (nth_error env n') eqn:Hn'; [|reflexivity]. destruct (F2_nth _ _ _ _ _ S Hn') as (mm & Hmm & _). congruence.
    + destruct (step_absent st env vs k n HK S Hn) as (-> & VS & RV & _). rewrite VS, RV in *. apply (IH st env vs os); assumption.
  - destruct (step_pure st env vs os k HK S I) as (st' & env' & -> & X & S' & I' & _). eapply IH; eassumption.
Qed.
(** ** histories *)
Lemma start_shows : shows (fst nothing) (snd nothing) [].
Proof. constructor. Qed.
Lemma start_inv : inv (fst nothing) (snd nothing) [].
Proof. split; [reflexivity|]. split; [intros [|n] i o H; discriminate|intros [|n] n' i i' o o' H; discriminate]. Qed.
Lemma perform_like st env vs os k : shows st env vs -> inv st env os ->
  ends (perform env k st) (vresult vs k) (fun st' oj om => opt_rel (has_value st') oj om).
Proof.
  intros S I. destruct (receiver k) as [n|] eqn:HK.
  - destruct (nth_error env n) as [i|] eqn:Hn.
    + destruct (F2_nth _ _ _ _ _ S Hn) as (m & Hm & V). destruct (step_in_place st env vs os k n i m HK S I Hn Hm) as (st' & _ & _ & _ & _ & _ & H).
      assert (EQ : vresult vs k = match vpart k m with Ok _ => Ok None | Err e => Err e end).
      { destruct k; try discriminate; injection HK as ->; cbn; rewrite Hm; cbn; auto. }
      rewrite EQ. unfold ends. destruct (vpart k m); rewrite H; cbn; auto.
    + destruct (step_absent st env vs k n HK S Hn) as (_ & _ & _ & H1 & H2). rewrite H1, H2. reflexivity.
  - destruct (perform_pure st env vs k HK S) as (_ & R). unfold ends. destruct (snd (perform env k st)) as [[j|]|e], (vresult vs k) as [[m|]|e']; cbn in *; try contradiction; auto. exact (proj1 R).
Qed.
(** If in-place methods are only called on matrices that share storage with no other one, then every matrix the caller holds always has
    the value it would have if matrices were values -- in particular in-place methods change the matrix they are called on and no other --
    and every further call returns a matrix of the expected value, or raises the expected exception. *)
Theorem C68_partial : forall ks, unshared [] [] ks ->
  let u := fold_left step_call ks nothing in let vs := fold_left vstep ks [] in
  (forall n, look u n = nth_error vs n) /\
  forall k, ends (perform (snd u) k (fst u)) (vresult vs k) (fun st' oj om => opt_rel (has_value st') oj om).
Proof.
  intros ks U. destruct (unshared_steps ks _ _ _ _ start_shows start_inv U) as (os' & S & I). cbv zeta.
  change (fst nothing, snd nothing) with nothing in *. destruct (fold_left step_call ks nothing) as [st env]. cbn [fst snd] in *.
  split; [intros n; apply shows_look, S|]. intros k. eapply perform_like; eassumption.
Qed.
(** ** any history *)
(** the caller's memory, and for every matrix held the first one with that storage *)
Definition play (u : (mem * list nat) * list nat) (k : call) : (mem * list nat) * list nat :=
  let u' := step_call (fst u) k in (u', ostep (look (fst u)) (more_b (snd (fst u)) (snd u')) (snd u) k).
(** no in-place call on a matrix that shares storage with the one whose storage is [g] *)
Fixpoint untouched (u : (mem * list nat) * list nat) (ks : list call) (g : nat) : Prop :=
  match ks with
  | [] => True
  | k :: ks => match receiver k with Some n => nth_error (snd u) n <> Some g | None => True end /\ untouched (play u k) ks g
  end.
Definition good (u : (mem * list nat) * list nat) : Prop := inv (fst (fst u)) (snd (fst u)) (snd u) /\ exists vs, shows (fst (fst u)) (snd (fst u)) vs.
Lemma play_good u k : good u -> good (play u k) /\
  (forall n g, nth_error (snd u) n = Some g -> nth_error (snd (play u k)) n = Some g) /\
  (forall n g, nth_error (snd u) n = Some g -> match receiver k with Some n' => nth_error (snd u) n' <> Some g | None => True end -> look (fst (play u k)) n = look (fst u) n).
Proof.
  destruct u as [[st env] os]. intros (I & vs & S). cbn [fst snd] in *. unfold play. cbn [fst snd].
  assert (SL : forall n, look (st, env) n = nth_error vs n) by (intros n; apply shows_look, S).
  assert (OE : forall b, ostep (look (st, env)) b os k = ostep (nth_error vs) b os k).
  { intros b. unfold ostep. rewrite (source_ext _ _ k SL). reflexivity. }
  rewrite OE.
  assert (LT : forall n g, nth_error os n = Some g -> exists i, nth_error env n = Some i).
  { intros n g Hg. destruct (nth_error env n) eqn:Hn; [eauto|]. apply nth_lt in Hg. apply nth_error_None in Hn. destruct I as (L & _). lia. }
  destruct (receiver k) as [n|] eqn:HK.
  - destruct (nth_error env n) as [i|] eqn:Hn.
    + destruct (F2_nth _ _ _ _ _ S Hn) as (m & Hm & V). destruct (step_in_place st env vs os k n i m HK S I Hn Hm) as (st' & -> & I' & S' & V' & FR & _).
      cbn [fst snd]. unfold more_b. rewrite Nat.ltb_irrefl. cbn [ostep]. unfold good. cbn [fst snd]. split; [auto|]. split; [auto|].
      intros n' g Hg Hne. rewrite SL. destruct (LT _ _ Hg) as (i' & Hi'). destruct (F2_nth _ _ _ _ _ S Hi') as (m' & Hm' & _). rewrite Hm'. apply FR; [congruence|exact Hm'].
    + destruct (step_absent st env vs k n HK S Hn) as (-> & _ & RV & _). cbn [fst snd]. unfold more_b. rewrite Nat.ltb_irrefl. cbn [ostep]. split; [unfold good; cbn [fst snd]; eauto|]. auto.
  - destruct (step_pure st env vs os k HK S I) as (st' & env' & -> & X & S' & I' & MB & KEEP). cbn [fst snd]. rewrite MB. split; [unfold good; cbn [fst snd]; eauto|]. split.
    + intros n g Hg. unfold ostep. destruct (returns _); [apply nth_ext, Hg|exact Hg].
    + intros n g Hg _. rewrite (shows_look _ _ _ _ S'), SL. destruct (LT _ _ Hg) as (i' & Hi'). destruct (F2_nth _ _ _ _ _ S Hi') as (m' & Hm' & _). rewrite Hm'. apply KEEP, Hm'.
Qed.
Lemma plays_good ks : forall u, good u -> good (fold_left play ks u).
Proof. induction ks as [|k ks IH]; intros u G; [exact G|]. apply IH. apply play_good, G. Qed.
Lemma start_good : good (nothing, []).
Proof. split; [apply start_inv|exists []; constructor]. Qed.
(** Whatever was done before: as long as in-place methods are called only on matrices that do not share storage with the matrix [n], [n] keeps its value,
    whatever else is done -- conversions, copies, arithmetic, transformations, similarities with it or with others. *)
Theorem C68_elsewhere : forall ks1 ks2 n g, let u := fold_left play ks1 (nothing, []) in
  nth_error (snd u) n = Some g -> untouched u ks2 g -> look (fst (fold_left play ks2 u)) n = look (fst u) n.
Proof.
  intros ks1 ks2 n g u. assert (G : good u) by (apply plays_good, start_good). clearbody u. revert u G. induction ks2 as [|k ks IH]; intros u G Hg HU; [reflexivity|].
  destruct HU as (H1 & H2). cbn [fold_left]. destruct (play_good u k G) as (G' & K1 & K2). rewrite (IH (play u k) G' (K1 _ _ Hg) H2). apply (K2 n g Hg H1).
Qed.
(** Whatever was done before: an in-place method gives the matrix it is called on the right value. *)
Theorem C68_receiver : forall ks k n m, let u := fst (fold_left play ks (nothing, [])) in
  receiver k = Some n -> look u n = Some m -> look (step_call u k) n = Some (effect k m).
Proof.
  intros ks k n m u HK L. assert (G : good (fold_left play ks (nothing, []))) by (apply plays_good, start_good). subst u.
  destruct (fold_left play ks (nothing, [])) as [[st env] os]. destruct G as (I & vs & S). cbn [fst snd] in *.
  assert (LL := L). unfold look in LL. cbn [fst snd] in LL. destruct (nth_error env n) as [i|] eqn:Hn; [|discriminate].
  rewrite (shows_look _ _ _ _ S) in L. destruct (step_in_place st env vs os k n i m HK S I Hn L) as (st' & -> & _ & _ & V' & _). unfold look. cbn [fst snd]. rewrite Hn. exact V'.
Qed.
End PropAlias.
From Coq Require Import Reals Lra.
(** ** sharing matters *)
(** a = DenseMatrix([[0.5, 2]]); b = DenseMatrix(a); b.plog(): a becomes [[1, 2]], which is neither a nor plog(a).  So the claim is false without the
    restriction on sharing. *)
Definition half : @matrix RNum := MD (DM 1 2 [[(1 / 2)%R; 2%R]]).
Definition surprise : list (@call RNum) := [KLit half; KConv TDense 0; KPlog 1].
Theorem C68_refuted_dense : forall E : @Ext RNum,
  look (fold_left step_call surprise nothing) 0 = Some (MD (DM 1 2 [[1%R; 2%R]])) /\
  look (fold_left step_call surprise nothing) 1 = Some (MD (DM 1 2 [[0%R; ln 2]])) /\
  nth_error (fold_left vstep surprise []) 0 = Some half /\ half <> MD (DM 1 2 [[1%R; 2%R]]).
Proof.
  intros E. assert (A1 : @at_least1 RNum (1 / 2)%R = 1%R).
  { unfold at_least1. cbn [fltb f1 RNum]. unfold Rltb. destruct (Rlt_dec (1 / 2) 1) as [_|H]; [reflexivity|exfalso; lra]. }
  assert (A2 : @at_least1 RNum 2%R = 2%R).
  { unfold at_least1. cbn [fltb f1 RNum]. unfold Rltb. destruct (Rlt_dec 2 1) as [H|_]; [exfalso; lra|reflexivity]. }
  split; [|split; [|split]].
  - cbn -[Rltb at_least1 ln Rdiv]. unfold d_map, tab, dent. cbn -[Rltb at_least1 ln Rdiv]. rewrite A1, A2. reflexivity.
  - cbn -[Rltb at_least1 ln Rdiv]. unfold d_map, tab, dent. cbn -[Rltb at_least1 ln Rdiv]. rewrite A1, A2, ln_1. reflexivity.
  - reflexivity.
  - unfold half. intros H. injection H as H. lra.
Qed.
(** the same with csr matrices: the change is complete, and shows through the other name *)
Definition small_csr : @matrix QNum := MS (CSR 1 2 [fopp f1; f1] [0; 1] [0; 2]).
Theorem C68_refuted_sparse : forall E : @Ext QNum, let ks := [KLit small_csr; KTo TSparse 0; KNonNeg 1] in
  look (fold_left step_call ks nothing) 0 = Some (MS (CSR 1 2 [f1] [1] [0; 1])) /\ nth_error (fold_left vstep ks []) 0 = Some small_csr.
Proof. intros E. split; vm_compute; reflexivity. Qed.

(** ** a history that meets the hypotheses of C68_partial: b = a.copy(); c = SparseMatrix(a); b.reshape((1, 4)); c.to_non_negative(); d = DenseMatrix(b); e = a + a *)
Definition qsq : @matrix QNum := MD (DM 2 2 [[f1; fopp f1]; [fofZ 3; f0]]).
Definition hist : list (@call QNum) := [KLit qsq; KCopy 0; KConv TSparse 0; KReshape 1 1 4; KNonNeg 2; KConv TDense 1; KFun2 m_add 0 0; KNonNeg 0].
Example C68_example : forall E : @Ext QNum, unshared [] [] hist /\
  nth_error (fold_left vstep hist []) 0 = Some (MD (DM 2 2 [[f1; f0]; [fofZ 3; f0]])) /\
  nth_error (fold_left vstep hist []) 1 = Some (MD (DM 1 4 [[f1; fopp f1; fofZ 3; f0]])) /\
  nth_error (fold_left vstep hist []) 3 = Some (MD (DM 1 4 [[f1; fopp f1; fofZ 3; f0]])).
Proof.
  intros E. split; [|vm_compute; auto]. unfold hist. cbn [unshared receiver].
  assert (AL : forall os n, match nth_error os n with Some g => count_occ Nat.eq_dec os g = 1 | None => False end -> alone os n).
  { intros os n H n' Hne Q. destruct (nth_error os n) as [g|] eqn:Hn; [|contradiction].
    assert (forall l a b, a < b -> nth_error l a = Some g -> nth_error l b = Some g -> 2 <= count_occ Nat.eq_dec l g) as TWO.
    { clear. induction l as [|x l IH]; intros a b Hab Ha Hb; [destruct a; discriminate|]. cbn. destruct a as [|a], b as [|b]; try lia; cbn in Ha, Hb.
      - injection Ha as ->. destruct (Nat.eq_dec g g) as [_|]; [|contradiction]. assert (0 < count_occ Nat.eq_dec l g) by (apply count_occ_In; eapply nth_error_In; exact Hb). lia.
      - specialize (IH a b ltac:(lia) Ha Hb). destruct (Nat.eq_dec x g); lia. }
    destruct (Nat.lt_ge_cases n' n) as [Hlt|Hge]; [specialize (TWO os n' n Hlt Q Hn)|specialize (TWO os n n' ltac:(lia) Hn Q)]; lia. }
  repeat split; try exact I; apply AL; vm_compute; reflexivity.
Qed.
