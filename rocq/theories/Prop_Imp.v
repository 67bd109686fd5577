(** Prop_Imp.v -- C69: the toolkit never changes the matrices it is given, although it works with in-place methods. *)
From Verif Require Import Base PyList Dict Num Dense Sparse Matrix PMatrix Scaling Linalg Operation Similarity Space LexFun Imp PImp.
Section PropImp.
Context {N : Num} {E : Ext}.
Local Open Scope nat_scope.

(** ** specification *)
(** Everything that exists in memory [st] (numpy arrays, csr matrices, Matrix objects and what they refer to) is the same in [st'];
    [st'] may have more. *)
Definition unchanged (st st' : mem) : Prop :=
  (forall i a, nth_error (m_arrs st) i = Some a -> nth_error (m_arrs st') i = Some a) /\
  (forall i o, nth_error (m_objs st) i = Some o -> nth_error (m_objs st') i = Some o).
(** The program ends like the function on values: with the same exception, or with a result of that value. *)
Definition ends {A B} (out : mem * res A) (r : res B) (rel : mem -> A -> B -> Prop) : Prop :=
  match snd out, r with Ok a, Ok b => rel (fst out) a b | Err e, Err e' => e = e' | _, _ => False end.
Definition faithful {A B} (st : mem) (p : prog A) (r : res B) (rel : mem -> A -> B -> Prop) : Prop :=
  unchanged st (fst (p st)) /\ ends (p st) r rel.
Definition has_value (st : mem) (i : nat) (m : matrix) : Prop := value st i = Some m.
(** the statistics object has the value [c] *)
Definition stats_value (st : mem) (x : xstats) (c : cstats) : Prop :=
  match x, c with XCol a, SCol l => vector st a = Some l | XScal x, SScal y => x = y | _, _ => False end.
Definition opt_rel {A B} (R : A -> B -> Prop) (x : option A) (y : option B) : Prop :=
  match x, y with Some a, Some b => R a b | None, None => True | _, _ => False end.
Definition op_value (st : mem) (x : xop) (o : operation) : Prop :=
  match x, o with
  | XScale s c, OpScale s' c' => s = s' /\ opt_rel (stats_value st) c c'
  | XDim d k t, OpDim d' k' t' => d = d' /\ k = k' /\ opt_rel (has_value st) t t'
  | XFS c k s o, OpFS c' k' s' o' => c = c' /\ k = k' /\ s = s' /\ o = o'
  | _, _ => False
  end.
(** an object that did not exist, around memory that did not exist *)
Definition brand_new (st st' : mem) (i : nat) : Prop :=
  length (m_objs st) <= i /\ exists o, nth_error (m_objs st') i = Some o /\ length (m_arrs st) <= mo_arr o.

Lemma ext_unchanged st st' : ext st st' -> unchanged st st'.
Proof. intros (xs & ys & Ha & Ho). split; intros i a H; [rewrite Ha|rewrite Ho]; apply nth_ext, H. Qed.
Lemma run_faithful {A B} st (p : prog A) (r : res B) rel : run st p r rel -> faithful st p r rel.
Proof. intros (X & H). split; [apply ext_unchanged, X|exact H]. Qed.
Lemma new_brand st st' o m : is_new st st' o m -> brand_new st st' o.
Proof. intros (_ & L & ob & H1 & H2 & _). split; [exact L|]. exists ob. auto. Qed.

(** ** scalings *)
Lemma run_epmi st i m mo ml : value st i = Some m -> opt_rel (fun a l => vector st a = Some l) mo ml -> run st (x_epmi i mo) (epmi_apply m ml) (is_new st).
Proof.
  intros V HM. unfold x_epmi, epmi_apply. apply (run_get st i m _ _ _ V).
  eapply run_bind; [apply run_pure|]. intros st0 u u' X0 (-> & _). clear X0.
    eapply run_step; [apply run_new_arr|]. intros st1 rs X1 R1.
    set (cl := match ml with Some c => c | None => m_sum0 m end).
    eapply (run_step _ _ (fun st' j => vector st' j = Some cl)).
    { destruct mo as [a|], ml as [l|]; cbn in HM; try contradiction; [apply run_ret; eapply vector_ext; eassumption|apply run_new_arr]. }
    intros st2 cs X2 R2. apply (run_getv st2 cs cl _ _ _ R2).
    eapply run_step; [apply run_nonzero_invert; eapply vector_ext; [|exact R1]; xt|]. intros st3 rs' X3 R3.
    eapply run_step; [apply run_nonzero_invert; eapply vector_ext; [|exact R2]; xt|]. intros st4 cs' X4 R4.
    apply (run_getv st4 cs' _ _ _ _ R4). eapply run_step; [apply run_new_arr|]. intros st5 cs2 X5 R5.
    assert (X05 : ext st st5) by xt.
    apply (run_getv st5 rs' (nonzero_invert (m_sum1 m))). { eapply vector_ext; [|exact R3]. xt. }
    eapply run_bind; [apply (run_fun1 st5 (fun m => m_scale_rows m _) i m); eapply value_ext; eassumption|]. intros st6 i1 m1 X6 R6.
    eapply run_getv; [eapply vector_ext; [|exact R5]; xt|]. eapply run_weak; [apply (run_fun1 st6 (fun m => m_scale_cols m _) i1 m1); apply (is_new_value _ _ _ _ R6)|].
    intros st7 o v X7 HN. eapply is_new_older; [|exact HN]. xt.
Qed.
Lemma run_ppmi st i m mo ml : value st i = Some m -> opt_rel (fun a l => vector st a = Some l) mo ml -> run st (x_ppmi i mo) (ppmi_apply m ml) (is_new st).
Proof.
  intros V HM. unfold x_ppmi, ppmi_apply. apply (run_mut st _ _ (fun e => x_plog e) m_plog (fun e => ret e) (fun m => Ok m)).
  - apply run_epmi; assumption.
  - intros st' o m' X HN. apply plog_new; assumption.
  - intros st' o m' X HN. apply run_ret. exact HN.
Qed.
Lemma run_scaling s st i m xo co : value st i = Some m -> opt_rel (stats_value st) xo co ->
  run st (x_scaling s i xo) (scaling_apply s m co) (fun st' j v => value st' j = Some v /\ (is_new st st' j v \/ (j = i /\ exists c, s = Norm c))).
Proof.
  intros V HS. assert (NW : forall p r, run st p r (is_new st) -> run st p r (fun st' j v => value st' j = Some v /\ (is_new st st' j v \/ (j = i /\ exists c, s = Norm c)))).
  { intros p r H. eapply run_weak; [exact H|]. intros st' a b X HN. split; [apply (is_new_value _ _ _ _ HN)|left; exact HN]. }
  assert (PL : forall mo ml, opt_rel (fun a l => vector st a = Some l) mo ml -> run st (x_plmi i mo) (plmi_apply m ml) (is_new st)).
  { intros mo ml HM. unfold x_plmi, plmi_apply. eapply run_bind; [apply run_ppmi; eassumption|]. intros st1 p v X1 HN.
    eapply run_weak; [apply run_fun2; [eapply value_ext; eassumption|apply (is_new_value _ _ _ _ HN)]|]. intros st2 o w X2 H2. eapply is_new_older; eassumption. }
  assert (NO : forall c t, run st (x_norm c i t) (norm_apply c m t) (fun st' j v => value st' j = Some v /\ (is_new st st' j v \/ (j = i /\ exists c, Norm c = Norm c)))).
  { intros c t. unfold x_norm, norm_apply. apply (run_get st i m _ _ _ V). destruct (feqb _ f0).
    - apply run_ret. split; [exact V|]. right. split; [reflexivity|exists c; reflexivity].
    - eapply run_weak; [apply (run_fun1 st (fun m => Ok (m_scal _ m)) i m V)|]. intros st' a b X HN. split; [apply (is_new_value _ _ _ _ HN)|left; exact HN]. }
  destruct s as [| | | |c|c], xo as [[a|x]|], co as [[l|y]|]; cbn [opt_rel stats_value] in HS; try contradiction; cbn [x_scaling scaling_apply]; try apply run_raise;
    try (apply NW; first [apply run_epmi; [exact V|exact HS] | apply run_ppmi; [exact V|exact HS] | apply PL; exact HS]).
  - apply NW. unfold x_plog_apply, plog_apply. change (Ok (m_plog m)) with (let* m := Ok m in Ok (m_plog m)).
    apply (run_mut st _ (Ok m) (fun e => x_plog e) m_plog (fun e => ret e) (fun m => Ok m)).
    + unfold x_copy. apply (run_get st i m _ _ _ V). apply run_fresh.
    + intros st' o m' X HN. apply plog_new; assumption.
    + intros st' o m' X HN. apply run_ret. exact HN.
  - apply NW. unfold x_rownorm, rownorm_apply. apply (run_get st i m _ _ _ V). eapply run_step; [apply run_new_arr|]. intros st1 v X1 R1.
    eapply run_step; [apply run_nonzero_invert; exact R1|]. intros st2 w X2 R2. apply (run_getv st2 w _ _ _ _ R2).
    eapply run_weak; [apply (run_fun1 st2 (fun m => m_scale_rows m _) i m); eapply value_ext; [|exact V]; xt|].
    intros st3 o x X3 HN. eapply is_new_older; [|exact HN]. xt.
  - subst y. eapply run_weak; [apply NO|]. intros st' a b X (H1 & [H2|(H2 & _)]); split; auto. right. split; [exact H2|eauto].
  - eapply run_weak; [apply NO|]. intros st' a b X (H1 & [H2|(H2 & _)]); split; auto. right. split; [exact H2|eauto].
Qed.
(** Every scaling: nothing existing changes -- neither the matrix given nor the column statistics -- and the result is the value of the model, in a matrix
    of its own except that Normalization returns its argument itself when the total is 0. *)
Theorem C69_scaling : forall s st i m xo co, has_value st i m -> opt_rel (stats_value st) xo co ->
  faithful st (x_scaling s i xo) (scaling_apply s m co)
    (fun st' j v => has_value st' j v /\ (brand_new st st' j \/ (j = i /\ exists c, s = Norm c))).
Proof.
  intros s st i m xo co V HS. apply run_faithful. eapply run_weak; [apply run_scaling; eassumption|].
  intros st' a b X (H1 & [H2|H2]); split; auto. left. eapply new_brand; exact H2.
Qed.

(** ** operations *)
Lemma run_topfs st c k i m : value st i = Some m -> run st (x_topfs c k i) (topfs_apply c k m) (fun st' js vs => is_new st st' (fst js) (fst vs) /\ snd js = snd vs).
Proof.
  intros V. unfold x_topfs. apply (run_get st i m _ _ _ V). eapply run_bind_r; [apply run_pure|]. intros st1 a b X1 (-> & ->).
  eapply run_step; [apply run_fresh_u|]. intros st2 j X2 HN. apply run_ret. auto.
Qed.
Lemma op_value_ext st st' x o : ext st st' -> op_value st x o -> op_value st' x o.
Proof.
  intros X. destruct x as [s c|d k t|c k s' o'], o as [s0 c0|d0 k0 t0|c0 k0 s0 o0]; cbn [op_value]; auto.
  - intros (-> & H). split; [reflexivity|]. destruct c as [[a|y]|], c0 as [[l|z]|]; cbn in *; auto. eapply vector_ext; eassumption.
  - intros (-> & -> & H). repeat split; auto. destruct t, t0; cbn in *; auto. unfold has_value in *. eapply value_ext; eassumption.
Qed.
Definition same_or_new (st st' : mem) (x : xop) (i j : nat) : Prop :=
  brand_new st st' j \/ (j = i /\ exists c, match x with XScale (Norm c') _ => c = c' | _ => False end).
(** apply: the result, the operation object with what it remembers, nothing else *)
Theorem C69_apply : forall st x o i m, has_value st i m -> op_value st x o ->
  faithful st (x_op_apply x i) (op_apply o m)
    (fun st' jx vo => has_value st' (fst jx) (fst vo) /\ op_value st' (snd jx) (snd vo) /\ same_or_new st st' x i (fst jx)).
Proof.
  intros st x o i m V HO. apply run_faithful. destruct x as [s c|d k t|c k sel og], o as [s0 c0|d0 k0 t0|c0 k0 s0 o0]; cbn [op_value] in HO; try contradiction; cbn [x_op_apply op_apply].
  - destruct HO as (<- & HS). destruct c as [c|], c0 as [c0|]; cbn in HS; try contradiction; [apply run_raise|].
    eapply run_bind; [apply (run_scaling s st i m None None V I)|]. intros st1 r v X1 (HV & HN).
    assert (SN : forall st', ext st1 st' -> same_or_new st st' (XScale s None) i r).
    { intros st' X'. destruct HN as [HN|(-> & c & ->)].
      - left. eapply new_brand. eapply is_new_ext; eassumption.
      - right. split; [reflexivity|]. exists c. reflexivity. }
    destruct (uses_column_stats s) eqn:U; [|apply run_ret; cbn; auto using ext_refl].
    apply (run_get st1 i m _ _ _ (value_ext _ _ _ _ X1 V)). destruct (get_column_stats s m) as [l|y].
    + eapply run_step; [apply run_new_arr|]. intros st2 a X2 R2. apply run_ret. cbn. repeat split; auto. eapply value_ext; eassumption.
    + apply run_ret. cbn. auto using ext_refl.
  - destruct HO as (<- & <- & HT). destruct t, t0; cbn in HT; try contradiction; [apply run_raise|].
    apply (run_get st i m _ _ _ V). eapply run_bind; [apply run_pure|]. intros st1 r r' X1 (-> & ->). destruct r' as [r tm]. cbn [fst snd].
    eapply run_step; [apply run_fresh_u|]. intros st2 a X2 HA. eapply run_step; [apply run_fresh_u|]. intros st3 b X3 HB. cbn beta in HA, HB.
    change (Ok (conv TDense r, OpDim d k (Some tm))) with (let* x := Ok (conv TDense r) in Ok (x, OpDim d k (Some tm))).
    eapply run_bind; [apply (run_conv_new st st3 TDense a r); [xt|eapply is_new_ext; eassumption]|]. intros st4 a' v X4 HN.
    apply run_ret. cbn. split; [apply (is_new_value _ _ _ _ HN)|]. split; [repeat split; unfold has_value; eapply value_ext; [|apply (is_new_value _ _ _ _ HB)]; xt|].
    left. eapply new_brand; exact HN.
  - destruct HO as (<- & <- & <- & <-). destruct sel as [sel|]; [apply run_raise|].
    eapply run_bind; [apply run_topfs; exact V|]. intros st1 [j sl] [v sl'] X1 (HN & HE). cbn [fst snd] in *. subst sl'. apply run_ret. cbn.
    split; [apply (is_new_value _ _ _ _ HN)|]. split; [auto|]. left. eapply new_brand; exact HN.
Qed.
(** project *)
Theorem C69_project : forall st x o i m, has_value st i m -> op_value st x o ->
  faithful st (x_op_project x i) (op_project o m)
    (fun st' j v => has_value st' j v /\ op_value st' x o /\ same_or_new st st' x i j).
Proof.
  intros st x o i m V HO. apply run_faithful.
  assert (G : run st (x_op_project x i) (op_project o m) (fun st' j v => value st' j = Some v /\ (is_new st st' j v \/ (j = i /\ exists c, match x with XScale (Norm c') _ => c = c' | _ => False end)))).
  2: { eapply run_weak; [exact G|]. intros st' j v X (H1 & H2). split; [exact H1|]. split; [eapply op_value_ext; eassumption|]. destruct H2 as [H2|H2]; [left; eapply new_brand; exact H2|right; exact H2]. }
  destruct x as [s c|d k t|c k sel og], o as [s0 c0|d0 k0 t0|c0 k0 s0 o0]; cbn [op_value] in HO; try contradiction; cbn [x_op_project op_project].
  - destruct HO as (<- & HS).
    assert (W : forall xo co, opt_rel (stats_value st) xo co -> run st (x_scaling s i xo) (scaling_apply s m co) (fun st' j v => value st' j = Some v /\ (is_new st st' j v \/ (j = i /\ exists c', match s with Norm c'' => c' = c'' | _ => False end)))).
    { intros xo co H. eapply run_weak; [apply run_scaling; eassumption|]. intros st' j v X (H1 & [H2|(H2 & cc & ->)]); split; auto. right. split; [exact H2|exists cc; reflexivity]. }
    destruct (uses_column_stats s); [|apply (W None None I)]. destruct c as [c|], c0 as [c0|]; cbn in HS; try contradiction; [apply (W (Some c) (Some c0) HS)|apply run_raise].
  - destruct HO as (<- & <- & HT). destruct t as [t|], t0 as [tm|]; cbn in HT; try contradiction; [|apply run_raise]. unfold x_dim_project, dim_project.
    apply (run_get st i m _ _ _ V).
    assert (AS : run st (match d with DNmf => pure (m_assert_positive m) | DSvd => ret tt end) (match d with DNmf => m_assert_positive m | DSvd => Ok tt end) (fun st' _ _ => st' = st)).
    { destruct d; [apply run_ret; reflexivity|]. eapply run_weak; [apply run_pure|]. intros st' a b X (-> & _). reflexivity. }
    eapply run_bind; [exact AS|]. intros st1 u u' X1 ->.
    eapply run_bind; [apply run_resolve2; eassumption|]. intros st2 [i' t'] [m' tm'] X2 (V1 & V2). cbn [fst snd] in *.
    assert (FIN : forall st3 r v, ext st2 st3 -> is_new st st3 r v -> run st3 (x_conv TDense r) (Ok (conv TDense v)) (fun st' j v => value st' j = Some v /\ (is_new st st' j v \/ (j = i /\ exists c : crit, False)))).
    { intros st3 r v X3 HN. eapply run_weak; [apply (run_conv_new st st3 TDense r v); [xt|exact HN]|]. intros st4 j w X4 H4. split; [apply (is_new_value _ _ _ _ H4)|left; exact H4]. }
    destruct d.
    + eapply run_bind; [apply run_fun2; eassumption|]. intros st3 r v X3 HN.
      eapply run_step; [apply (run_ret st3 tt tt (fun st' _ _ => st' = st3)); reflexivity|]. intros st4 [] X4 ->. apply FIN; [exact X3|]. eapply is_new_older; [|exact HN]. xt.
    + apply (run_mut st2 _ _ (fun r => x_to_non_negative r) m_to_non_negative (fun r => x_conv TDense r) (fun v => Ok (conv TDense v))).
      * apply run_fun2; eassumption.
      * intros st' o w X HN. apply nonneg_new; assumption.
      * intros st' o w X HN. apply FIN; [exact X|]. eapply is_new_older; [|exact HN]. xt.
  - destruct HO as (<- & <- & <- & <-). destruct sel as [sel|]; [|apply run_raise].
    eapply run_weak; [apply (run_fun1 st (fun m => m_get_cols m sel) i m V)|]. intros st' j v X HN. split; [apply (is_new_value _ _ _ _ HN)|left; exact HN].
Qed.
(** ** similarities *)
Lemma run_sim s st i j a b : value st i = Some a -> value st j = Some b -> run st (x_sim s i j) (sim_get s a b) (fun _ x y => x = y).
Proof.
  intros Va Vb. unfold x_sim, sim_get, to_compatible, x_compatible.
  assert (C : run st (pbind (get i) (fun a => pbind (x_conv (type_of a) j) (fun j' => ret (i, j')))) (Ok tt)
     (fun st' ij _ => value st' (fst ij) = Some a /\ value st' (snd ij) = Some (conv (type_of a) b))).
  { apply (run_get st i a _ _ _ Va). eapply run_step.
    - destruct (run_conv st (type_of a) j b Vb) as (X & H). split; [exact X|]. instantiate (1 := fun st' j' => value st' j' = Some (conv (type_of a) b)). destruct (snd (x_conv (type_of a) j st)); [exact (proj1 H)|contradiction].
    - intros st1 j' X1 H1. apply run_ret. cbn. split; [eapply value_ext; eassumption|exact H1]. }
  eapply (run_step _ _ (fun st' ij => value st' (fst ij) = Some a /\ value st' (snd ij) = Some (conv (type_of a) b))); [exact C|].
  intros st1 [v1 v2] X1 (V1 & V2). cbn [fst snd] in *. set (b' := conv (type_of a) b) in *.
  apply (run_get st1 v1 a _ _ _ V1). apply (run_get st1 v2 b' _ _ _ V2). eapply run_bind; [apply run_pure|]. intros st2 u u' X2 (-> & _). clear X2.
  assert (PU : run st1 (pure (sim_raw s a b')) (sim_raw s a b') (fun _ x y => x = y)) by (eapply run_weak; [apply run_pure|]; intros ? ? ? ? (_ & ->); reflexivity).
  destruct s; try exact PU. cbn [sim_raw]. unfold x_lin_sim, lin_sim.
  apply (run_mut st1 _ _ (fun c => x_to_ones c) m_to_ones _
    (fun common => if feqb (fadd (m_sum a) (m_sum b')) f0 then Ok f0 else let* s := m_add a b' in let* cs := m_multiply common s in Ok (fdiv (m_sum cs) (fadd (m_sum a) (m_sum b'))))).
  - apply run_fun2; assumption.
  - intros st' o w X HN. apply ones_new; assumption.
  - intros st2 o w X2 HN. apply (run_get st2 v1 a _ _ _ (value_ext _ _ _ _ X2 V1)). apply (run_get st2 v2 b' _ _ _ (value_ext _ _ _ _ X2 V2)).
    destruct (feqb _ f0); [apply run_ret; reflexivity|].
    eapply run_bind; [apply run_fun2; eapply value_ext; eassumption|]. intros st3 s v X3 HS.
    eapply run_bind; [apply run_fun2; [eapply value_ext; [exact X3|]; apply (is_new_value _ _ _ _ HN)|apply (is_new_value _ _ _ _ HS)]|]. intros st4 p q X4 HP.
    apply (run_get st4 p q _ _ _ (is_new_value _ _ _ _ HP)). apply run_ret. reflexivity.
Qed.
Theorem C69_similarity : forall s st i j a b, has_value st i a -> has_value st j b ->
  faithful st (x_sim s i j) (sim_get s a b) (fun _ x y => x = y).
Proof. intros s st i j a b Va Vb. apply run_faithful, run_sim; assumption. Qed.
(** ** lexical functions *)
Lemma reshape_new st0 st o m r c : ext st0 st -> is_new st0 st o m ->
  ext st0 (fst (x_reshape o r c st)) /\ match snd (x_reshape o r c st), m_reshape m r c with
    | Ok _, Ok v => value (fst (x_reshape o r c st)) o = Some v
    | Err e, Err e' => e = e' | _, _ => False end.
Proof.
  intros X (V & L & ob & H1 & H2 & H3). destruct (value_obj _ _ _ V) as (ob' & Ho & HA). rewrite H1 in Ho. injection Ho as <-.
  unfold x_reshape, pbind, get_obj, get_arr. rewrite H1. destruct m as [d|s].
  - destruct HA as (d0 & Ha & ->). rewrite Ha. unfold get. rewrite V, H3. cbn [view_of m_reshape m_nr m_nc]. unfold pure.
    destruct (Nat.eqb (d_nr d0 * d_nc d0) (r * c)); cbn [check bind]; [|cbn; auto]. unfold set_obj. cbn [fst snd]. split; [apply ext_set_obj; assumption|].
    unfold value. cbn [m_arrs m_objs]. rewrite upd_eq by (eapply nth_lt; exact H1). cbn [mo_arr mo_view]. rewrite Ha. reflexivity.
  - rewrite HA. unfold pure. cbn [m_reshape]. destruct (s_reshape s r c) as [s'|e]; cbn [rmap bind]; [|cbn; auto]. unfold new_arr, set_obj. cbn [fst snd m_arrs m_objs].
    destruct (rebind_new st0 st o (MS s') None) as (Y1 & Y2); auto. { eapply nth_lt; exact H1. }
    cbn [arr_of] in Y1, Y2. split; [exact Y1|]. apply (is_new_value _ _ _ _ Y2).
Qed.
(** one composed vector: the rows are copied, the function vector is reshaped in place; neither space changes *)
Theorem C69_lexical_function : forall st icpt fm am i j shape f a, has_value st fm f -> has_value st am a ->
  faithful st (x_lf_compose1 icpt fm am i j shape)
    (let* fv := m_get_row f i in let* av := m_get_row a j in
     let* (fv, av) := resolve2 fv av (get_type_of_largest [fv; av]) in lf_apply icpt fv av shape)
    (fun st' o v => has_value st' o v /\ brand_new st st' o).
Proof.
  intros st icpt fm am i j shape f a Vf Va. apply run_faithful. match goal with |- run _ ?p ?r ?rel => change (run_from st st p r rel) end. unfold x_lf_compose1.
  eapply run_from_bind; [apply run_run_from; [apply ext_refl|apply (run_fun1 st (fun m => m_get_row m i) fm f Vf)]|]. intros st1 fv fr X1 N1.
  eapply run_from_bind; [apply run_run_from; [exact X1|apply (run_and _ _ _ (is_new st1) (fun st' _ _ => ext st1 st')); [apply (run_fun1 st1 (fun m => m_get_row m j) am a); eapply value_ext; eassumption|]]|].
  { destruct (run_fun1 st1 (fun m => m_get_row m j) am a (value_ext _ _ _ _ X1 Va)) as (Y & H). split; [exact Y|]. destruct (snd (x_fun1 (fun m => m_get_row m j) am st1)), (m_get_row a j); auto. }
  intros st2 av ar X2 (N2 & X12).
  pose proof (is_new_ext _ _ _ _ _ X12 N1) as N1'. pose proof (is_new_older _ _ _ _ _ X1 N2) as N2'.
  assert (Lt0 : fv < av). { destruct N2 as (_ & N2l & _). pose proof (value_lt _ _ _ (is_new_value _ _ _ _ N1)). lia. }
  clear N1 N2 X1 X12 st1.
  assert (GET : forall A' B' o m (k : matrix -> prog A') (r : res B') rel st', value st' o = Some m -> run_from st st' (k m) r rel -> run_from st st' (pbind (get o) k) r rel).
  { intros A' B' o m k r rel st' V H. unfold run_from, pbind, get in *. rewrite V. exact H. }
  apply (GET _ _ fv fr _ _ _ st2 (is_new_value _ _ _ _ N1')). apply (GET _ _ av ar _ _ _ st2 (is_new_value _ _ _ _ N2')).
  eapply run_from_bind; [apply run_run_from; [exact X2|apply (run_resolve2_new st st2 fv av fr ar); [exact X2|exact N1'|exact N2'|exact Lt0]]|].
  intros st3 [fv' av'] [fr' ar'] X3 (N3 & N4 & Lt). cbn [fst snd] in N3, N4, Lt. clear N1' N2' X2 Lt0 st2 fv av fr ar.
  assert (CHECK : forall A' B' b e (k : unit -> prog A') (k' : unit -> res B') rel st', ext st st' -> run_from st st' (k tt) (k' tt) rel ->
    run_from st st' (pbind (pure (check b e)) k) (bind (check b e) k') rel).
  { intros A' B' b e k k' rel st' X H. destruct b; cbn [check bind]; [exact H|]. split; [exact X|reflexivity]. }
  unfold x_lf_apply, lf_apply. apply CHECK; [exact X3|]. apply (GET _ _ fv' fr' _ _ _ st3 (is_new_value _ _ _ _ N3)). apply CHECK; [exact X3|].
  set (r := list_prod_nat (removelast shape)). set (c := last shape 0).
  eapply (run_from_bind st st3 (x_reshape fv' r c) (m_reshape fr' r c) (fun st' _ v => value st' fv' = Some v /\ value st' av' = Some ar')).
  { destruct (reshape_new st st3 fv' fr' r c X3 N3) as (Y & H). split; [exact Y|]. destruct (snd (x_reshape fv' r c st3)), (m_reshape fr' r c); auto.
    split; [exact H|]. apply reshape_frame; [lia|]. apply (is_new_value _ _ _ _ N4). }
  intros st4 u v X4 (V1 & V2).
  apply run_run_from; [exact X4|].
  assert (TR : run st4 (pbind (x_fun1 (fun m => Ok (m_transpose m)) av') (fun t => if icpt then x_fun1 (fun m => padd_matrix m 0 f1) t else ret t))
     (if icpt then padd_matrix (m_transpose ar') 0 f1 else Ok (m_transpose ar')) (fun st' t v => value st' t = Some v)).
  { eapply run_step.
    - destruct (run_fun1 st4 (fun m => Ok (m_transpose m)) av' ar' V2) as (Y & H). split; [exact Y|]. instantiate (1 := fun st' t => value st' t = Some (m_transpose ar')).
      destruct (snd (x_fun1 (fun m => Ok (m_transpose m)) av' st4)); [apply (is_new_value _ _ _ _ H)|contradiction].
    - intros st5 t X5 V5. destruct icpt; [|apply run_ret; exact V5]. eapply run_weak; [apply (run_fun1 st5 (fun m => padd_matrix m 0 f1) t _ V5)|]. intros ? ? ? ? HN. apply (is_new_value _ _ _ _ HN). }
  assert (ASSOC : forall A B C (p : prog A) (q : A -> prog B) (k : B -> prog C) s, pbind (pbind p q) k s = pbind p (fun a => pbind (q a) k) s).
  { intros A B C p q k s. unfold pbind. destruct (p s) as [s' [x|e]]; reflexivity. }
  match goal with |- run _ _ ?r ?rel => cut (run st4 (pbind (pbind (x_fun1 (fun m => Ok (m_transpose m)) av') (fun t => if icpt then x_fun1 (fun m => padd_matrix m 0 f1) t else ret t))
     (fun t => pbind (x_fun2 m_mul fv' t) (fun c => x_fun1 (fun m => Ok (m_transpose m)) c))) r rel); [unfold run; rewrite ASSOC; auto|] end.
  eapply run_bind; [exact TR|]. intros st5 t tv X5 V5.
  eapply run_bind; [apply run_fun2; [eapply value_ext; eassumption|exact V5]|]. intros st6 o w X6 N6.
  eapply run_weak; [apply (run_fun1 st6 (fun m => Ok (m_transpose m)) o w (is_new_value _ _ _ _ N6))|].
  intros st7 o' w' X7 N7. split; [apply (is_new_value _ _ _ _ N7)|]. apply (new_brand _ _ _ w'). eapply is_new_older; [|exact N7]. xt.
Qed.
(** a trained function as a row of the function space: the learned matrix itself is not reshaped *)
Theorem C69_function_row : forall st x size m, has_value st x m ->
  faithful st (x_lf_row x size) (m_reshape (m_transpose m) 1 size) (fun st' o v => has_value st' o v).
Proof.
  intros st x size m V. apply run_faithful. unfold run, x_lf_row, pbind.
  destruct (run_fun1 st (fun m => Ok (m_transpose m)) x m V) as (X & H). destruct (x_fun1 (fun m => Ok (m_transpose m)) x st) as [st1 [t|e]]; cbn [fst snd] in *; [|contradiction].
  destruct (reshape_new st st1 t (m_transpose m) 1 size X H) as (Y & R). destruct (x_reshape t 1 size st1) as [st2 [u|e]]; cbn [fst snd] in *;
    destruct (m_reshape (m_transpose m) 1 size); try contradiction; auto.
Qed.
End PropImp.
(** a matrix in memory, its epmi, and the matrix afterwards *)
Definition ex_cnt : @matrix QNum := MD (DM 2 2 [[fofZ 1; fofZ 3]; [fofZ 2; fofZ 2]]).
Definition ex_at (st : mem) (i r c : nat) : option (@F QNum) := match value st i with Some (MD d) => Some (dent d r c) | _ => None end.
Definition ex_check {E : @Ext QNum} : bool :=
  match fresh ex_cnt (MEM [] []) with
  | (st, Ok i) =>
      match x_op_apply (XScale Epmi None) i st with
      | (st', Ok (j, o)) => negb (Nat.eqb i j) &&
          match ex_at st' i 0 0, ex_at st' j 0 0, ex_at st' j 0 1 with
          | Some a, Some b, Some c => feqb a (fofZ 1) && feqb b (fdiv (fofZ 8) (fofZ 12)) && feqb c (fdiv (fofZ 24) (fofZ 20)) | _, _, _ => false end &&
          match x_op_project o i st' with
          | (st2, Ok k) => match ex_at st2 k 0 0, ex_at st2 i 1 1 with Some a, Some b => feqb a (fdiv (fofZ 8) (fofZ 12)) && feqb b (fofZ 2) | _, _ => false end
          | _ => false end
      | _ => false
      end
  | _ => false
  end.
Example C69_example : forall E : @Ext QNum, (exists st, fresh ex_cnt (MEM [] []) = (st, Ok 0) /\ has_value st 0 ex_cnt) /\ ex_check = true.
Proof. intros E. split; [eexists; split; reflexivity|]. vm_compute. reflexivity. Qed.
