(** Prop_Periph.v -- properties C26, C27, C28, C29, C31, C32, C59: operations and peripheral spaces. *)
From Coq Require Import Reals Lra.
From Verif Require Import Base PyList Dict Num SpecReal Dense Sparse Matrix PSparse PMatrix PMatOps PShape PVals Scaling Linalg Operation
  Similarity Space Peripheral SpecSpace PDictList PSpace Prop_Space PCols PReal PPos Prop_Scaling Prop_Svd Prop_Nmf PProj.
Open Scope string_scope.
Open Scope list_scope.
Open Scope nat_scope.

(** ** C27, C29, C31, C32, C59: for every arithmetic *)
Section Any.
Context {N : Num} {E : Ext}.

(** *** C27 *)
(** a peripheral space takes over the column labels, the column ids and the operations of its core, whatever the history of
    the core, and keeps them through every successful add_rows *)
Theorem C27_columns : forall core m id2row row2id p, built core -> mk_peripheral core m id2row row2id = Ok p ->
  s_id2col p = s_id2col core /\ s_col2id p = s_col2id core /\ s_ops p = s_ops core.
Proof.
  intros core m r r2i p Hb H. destruct (periph_stable _ _ _ _ _ (built_stable _ Hb) H) as (E1 & E2). unfold cols in E1. injection E1 as E1 E3. auto.
Qed.
Theorem C27_add_rows : forall s m id2row s', built s -> add_rows s m id2row = (s', Ok tt) ->
  s_id2col s' = s_id2col s /\ s_col2id s' = s_col2id s /\ s_ops s' = s_ops s.
Proof.
  intros s m r s' Hb H. destruct (add_rows_stable _ _ _ _ (built_stable _ Hb) H) as (E1 & E2). unfold cols in E1. injection E1 as E1 E3. auto.
Qed.
(** core: two labelled columns, the second one selected *)
Definition fs_core : space :=
  SP (MD (DM 2 1 [[f1]; [f0]])) ["car"; "dog"] ["y"] [("car", 0%Z); ("dog", 1%Z)] [("y", 0%Z)] [OpFS CSum 1 (Some [1]) (Some ["x"; "y"])] [1].
Example C27_example : exists p, stable fs_core /\ mk_peripheral fs_core m22 ["a"; "b"] None = Ok p /\ s_id2col p = ["y"] /\ s_col2id p = [("y", 0%Z)].
Proof. eexists. split; [reflexivity|]. split; [reflexivity|]. split; reflexivity. Qed.

(** *** C29 *)
(** a failing add_rows can leave the space inconsistent: words stay in the dictionary that are not in the row list, and a later
    attempt to add exactly those words is refused *)
Theorem C29_refuted : exists s m id2row s' e, built s /\ consistent s /\ mwf m /\ add_rows s m id2row = (s', Err e) /\
  ~ consistent s' /\ (exists w, In w (dkeys (s_row2id s')) /\ ~ In w (s_id2row s') /\ get_row s' w = Err IndexError) /\
  (exists m' w s'', mwf m' /\ m_nr m' = 1 /\ ~ In w (s_id2row s) /\ add_rows s' m' [w] = (s'', Err ValueError)) .
Proof.
  exists sp_dog, m22, ["cow"; "car"]. eexists _, ValueError. split; [|split; [|split; [apply m22_wf|split; [reflexivity|split; [|split]]]]].
  - eapply (B_new m22 ["car"; "dog"] ["x"; "y"] None None None). reflexivity.
  - eapply (mk_space_consistent m22 ["car"; "dog"] ["x"; "y"] None None [] None); [apply m22_wf|constructor|exact I|exact I|reflexivity].
  - intros (_&_&_&(_&L&_)&_). cbn in L. discriminate.
  - exists "cow". split; [cbn; tauto|]. split; [cbn; intuition discriminate|reflexivity].
  - exists m12, "cow". eexists. split; [apply m12_wf|]. split; [reflexivity|]. split; [cbn; intuition discriminate|reflexivity].
Qed.

Lemma add_items_keep l : forall n idx d d' o w k, add_items_aux l n idx d = (d', o) -> dget d w = Some k -> dget d' w = Some k.
Proof.
  induction l as [|x l IH]; intros n idx d d' o w k H Hk; cbn [add_items_aux] in H; [injection H as <- _; exact Hk|].
  destruct (dmem d x) eqn:Em; [injection H as <- _; exact Hk|]. eapply IH; [exact H|]. rewrite dget_dset.
  destruct (String.eqb_spec w x) as [->|]; [|exact Hk]. unfold dmem in Em. rewrite Hk in Em. discriminate.
Qed.
(** what does survive: matrix, operations and element shape, and the vector of every word that was in the space *)
Theorem C29_failed_add_rows_partial : forall s m id2row s' e, built s -> consistent s -> positional_rows s -> mwf m -> add_rows s m id2row = (s', Err e) ->
  s_mat s' = s_mat s /\ s_ops s' = s_ops s /\ s_eshape s' = s_eshape s /\
  forall w, In w (s_id2row s) -> get_row s' w = get_row s w.
Proof.
  intros s m r s' e Hb Hc Hp Hm H. pose proof (built_stable _ Hb) as Hs. pose proof Hc as (Cm&Cr&Cc&Ci&Cd&Cj&Ce&Cp&Co). unfold add_rows in H.
  destruct (add_items_to_dict (s_row2id s) r) as [d o] eqn:Ea.
  assert (K : forall s1, s_mat s1 = s_mat s -> s_row2id s1 = d -> forall w, In w (s_id2row s) -> get_row s1 w = get_row s w).
  { intros s1 E1 E2 w Hw. unfold get_row, dlookup. rewrite E1, E2.
    destruct Ci as (_&_&Hk&_). apply Hk in Hw. apply dmem_In in Hw. unfold dmem in Hw. destruct (dget (s_row2id s) w) as [k|] eqn:Hk'; [|discriminate].
    unfold add_items_to_dict in Ea. rewrite (add_items_keep _ _ _ _ _ _ _ _ Ea Hk'). reflexivity. }
  destruct o as [u|e0].
  - destruct (Nat.eqb (m_nr m) (length r)) eqn:El; cbn [negb] in H.
    + cbn [set_id2row set_row2id s_ops s_id2col s_col2id s_mat s_id2row s_row2id s_eshape] in H.
      destruct (project_ops (s_ops s) _ m) as [c [pm|e1]] eqn:Ep.
      * cbn [set_cols s_ops s_id2col s_col2id s_mat s_id2row s_row2id s_eshape] in H.
        change (s_mat (set_id2row (set_row2id s d) (s_id2row s ++ r))) with (s_mat s) in H.
        destruct (m_vstack (s_mat s) pm) as [vm|e2] eqn:Ev.
        -- exfalso. apply (f_equal snd) in H. cbn [snd set_mat set_cols set_id2row set_row2id s_id2row s_id2col s_row2id s_col2id] in H.
           destruct (project_ops_ok _ (CS (s_id2col s) (s_col2id s)) _ _ _ Co (conj Cj Ce) Hm Ep) as ((Hci & Hcd) & Hw & Hnr).
           pose proof (project_ops_inv _ _ _ _ _ Ep) as (Ef & _). fold (cols s) in Ef. rewrite Hs in Ef. injection Ef as <-.
           apply m_vstack_ok in Ev; [|assumption|assumption]. destruct Ev as (_ & Hnc & Hi). apply is_mat_has in Hi. destruct Hi as (_&_&Hvr&Hvc).
           cbn [d_vstack tab d_nr d_nc] in Hvr, Hvc. rewrite !to_dense_nr in Hvr. rewrite to_dense_nc in Hvc.
           destruct (add_items_positional _ _ _ _ _ Cd Hp (mutually_inverse_length _ _ Ci) Ea) as (_&_&P4&_&_).
           apply Nat.eqb_eq in El. cbn [cols c_id2col c_col2id] in H.
           rewrite shape_consistent_total in H; [discriminate| | |].
           ++ rewrite app_length. lia.
           ++ rewrite Hvr. rewrite app_length in P4. lia.
           ++ pose proof (mutually_inverse_length _ _ Cj) as L. destruct Cc as [Cc|Cc]; [left; rewrite Cc in *; auto|right; lia].
        -- injection H as <- _. cbn. repeat (split; [reflexivity|]). apply K; reflexivity.
      * injection H as <- _. cbn. repeat (split; [reflexivity|]). apply K; reflexivity.
    + injection H as <- _. cbn. repeat (split; [reflexivity|]). apply K; reflexivity.
  - injection H as <- _. cbn. repeat (split; [reflexivity|]). apply K; reflexivity.
Qed.
Example C29_example : exists s' e, consistent sp_dog /\ positional_rows sp_dog /\ add_rows sp_dog m12 ["cow"; "pig"] = (s', Err e).
Proof.
  eexists _, _. split; [|split; [|reflexivity]].
  - eapply (mk_space_consistent m22 ["car"; "dog"] ["x"; "y"] None None [] None); [apply m22_wf|constructor|exact I|exact I|reflexivity].
  - apply (list2dict_inverse ["car"; "dog"]). reflexivity.
Qed.

(** *** C31 *)
Inductive event := EApply (m : matrix) | EProject (m : matrix).
(** one call on an operation object: the object afterwards and what the caller sees *)
Definition call (o : operation) (e : event) : operation * res matrix :=
  match e with
  | EApply m => match op_apply o m with Ok (r, o') => (o', Ok r) | Err x => (o, Err x) end
  | EProject m => (o, op_project o m)
  end.
Fixpoint calls (o : operation) (es : list event) : operation :=
  match es with [] => o | e :: es => calls (fst (call o e)) es end.
(** the calls before this point contained a successful apply *)
Fixpoint applied_in (o : operation) (es : list event) : bool :=
  match es with
  | [] => false
  | e :: es => match e, call o e with EApply _, (_, Ok _) => true | _, (o', _) => applied_in o' es end
  end.
(** operations that learn something from the matrix they are applied to, other than feature selection *)
Definition learns (t : transformation) : bool :=
  match t with TScale s => uses_column_stats s | TDim _ _ => true | TFS _ _ => false end.
Theorem C31_learning_operations_partial : forall t es m, learns t = true ->
  let o := calls (create_operation t) es in
  if applied_in (create_operation t) es
  then call o (EApply m) = (o, Err IllegalStateError)
  else call o (EProject m) = (o, Err IllegalStateError) /\ o = create_operation t.
Proof.
  intros t es m Ht. cbn zeta.
  set (done := fun o => match o with OpScale _ (Some _) | OpDim _ _ (Some _) => true | _ => false end).
  assert (D : forall es o, done o = true -> calls o es = o /\ call o (EApply m) = (o, Err IllegalStateError)).
  { clear. intros es o Ho. destruct o as [s [st|]|d k [tm|]|c k [sel|] orig]; try discriminate; (split; [|reflexivity]);
      induction es as [|[x|x] es IH]; [reflexivity|exact IH|exact IH|reflexivity|exact IH|exact IH]. }
  assert (A : forall x, match op_apply (create_operation t) x with Ok (_, o') => done o' = true | Err _ => True end).
  { intros x. destruct t as [s|d k|c k]; cbn [learns create_operation op_apply] in *; [| |discriminate].
    - destruct (scaling_apply s x None); cbn [bind]; [|exact I]. rewrite Ht. reflexivity.
    - destruct (dimred_apply d k x) as [[r tm]|]; cbn [bind]; [reflexivity|exact I]. }
  induction es as [|e es IH]; cbn [calls applied_in].
  - split; [|reflexivity]. destruct t as [s|d k|c k]; cbn [learns create_operation call op_project] in *; [| |discriminate].
    + rewrite Ht. reflexivity.
    + reflexivity.
  - destruct e as [x|x].
    + specialize (A x). cbn [call]. destruct (op_apply (create_operation t) x) as [[r o']|err]; cbn [fst].
      * destruct (D es o' A) as (-> & Hd). exact Hd.
      * exact IH.
    + cbn [call fst]. destruct (op_project (create_operation t) x); exact IH.
Qed.
(** feature selection is protected against double application; projecting never changes any operation *)
Theorem C31_selection_partial : forall c k es m, applied_in (create_operation (TFS c k)) es = true ->
  let o := calls (create_operation (TFS c k)) es in call o (EApply m) = (o, Err IllegalStateError).
Proof.
  intros c k es m. cbn zeta. cbn [create_operation].
  assert (D : forall es sel orig, calls (OpFS c k (Some sel) orig) es = OpFS c k (Some sel) orig) by (induction es0 as [|[x|x] q IH]; intros; [reflexivity|apply IH|apply IH]).
  induction es as [|[x|x] es IH]; cbn [calls applied_in]; [discriminate| |].
  - cbn [call op_apply]. destruct (topfs_apply c k x) as [[r sel]|err]; cbn [bind fst].
    + intros _. rewrite D. reflexivity.
    + exact IH.
  - cbn [call fst op_project]. exact IH.
Qed.
(** ... but the rest of the claim is false: an unapplied selection fails with AttributeError, and operations without column
    statistics accept any sequence of calls *)
Theorem C31_refuted :
  (exists t m, call (create_operation t) (EProject m) = (create_operation t, Err AttributeError)) /\
  (exists t m r1 r2, applied_in (create_operation t) [EApply m] = true /\ snd (call (create_operation t) (EProject m)) = Ok r1 /\
     snd (call (calls (create_operation t) [EApply m]) (EApply m)) = Ok r2).
Proof.
  split.
  - exists (TFS CSum 1), m22. reflexivity.
  - exists (TScale (RowNorm CSum)), m22. eexists _, _. split; [reflexivity|]. split; reflexivity.
Qed.
Example C31_example : learns (TScale Ppmi) = true /\ learns (TDim DSvd 2) = true.  Proof. split; reflexivity. Qed.

(** *** C32 *)
(** peripheral_space.py:127-159 (PeripheralSpace.build): the data files are first read as a space of their own (Space.build),
    whose column labels are then dropped *)
Definition peripheral_build (core data : space) : res space := mk_peripheral core (s_mat data) (s_id2row data) (Some (s_row2id data)).
(** swapped columns are accepted, and the entries end up under the wrong labels *)
Definition swapped : space := SP m12 ["cow"] ["y"; "x"] [("cow", 0%Z)] [("y", 0%Z); ("x", 1%Z)] [] [2].
Theorem C32_refuted : exists core data p, built core /\ built data /\ consistent core /\ consistent data /\ peripheral_build core data = Ok p /\
  (* the label "x" : id 1 in the data, id 0 in the peripheral space, same matrix *)
  dget (s_col2id data) "x" = Some 1%Z /\ dget (s_col2id p) "x" = Some 0%Z /\ s_mat p = s_mat data.
Proof.
  exists sp_dog, swapped. eexists. split; [eapply (B_new m22 ["car"; "dog"] ["x"; "y"] None None None); reflexivity|].
  split; [eapply (B_new m12 ["cow"] ["y"; "x"] None None None); reflexivity|].
  split; [eapply (mk_space_consistent m22 ["car"; "dog"] ["x"; "y"] None None [] None); [apply m22_wf|constructor|exact I|exact I|reflexivity]|].
  split; [eapply (mk_space_consistent m12 ["cow"] ["y"; "x"] None None [] None); [apply m12_wf|constructor|exact I|exact I|reflexivity]|].
  split; [reflexivity|]. split; [reflexivity|]. split; reflexivity.
Qed.
(** even a different number of columns can be accepted: after a feature selection (or with no labels and no operation) *)
Theorem C32_width_refuted : exists core m p, stable core /\ mk_peripheral core m ["a"] None = Ok p /\ m_nc m = 3 /\ s_ops core = [OpFS CSum 1 (Some [1]) (Some ["x"; "y"])].
Proof. exists fs_core, (MD (DM 1 3 [[f1; f0; f1]])). eexists. split; [reflexivity|]. split; [reflexivity|]. split; reflexivity. Qed.
Fixpoint apply_all (s : space) (ts : list transformation) : res space :=
  match ts with [] => Ok s | t :: ts => let* s' := space_apply s t in apply_all s' ts end.
(** transformations whose projection looks at the number of columns *)
Definition width_checked (t : transformation) : bool :=
  match t with TScale s => match s with Epmi | Ppmi | Plmi => true | _ => false end | TDim _ _ => true | TFS _ _ => false end.
Definition width_neutral (t : transformation) : bool := match t with TScale s => match s with Epmi | Ppmi | Plmi => false | _ => true end | _ => false end.

Lemma neutral_project s st m z : width_neutral (TScale s) = true -> mwf m -> op_project (OpScale s st) m = Ok z -> mwf z /\ m_nc z = m_nc m.
Proof.
  intros Hn Hm H. cbn [op_project] in H. destruct (uses_column_stats s).
  - destruct st as [st|]; [|discriminate]. apply (scaling_has _ _ _ _ _ _ _ (has_self m Hm)) in H. destruct H as (?&?&?&?). auto.
  - apply (scaling_has _ _ _ _ _ _ _ (has_self m Hm)) in H. destruct H as (?&?&?&?). auto.
Qed.
Lemma epmi_width m l z : mwf m -> epmi_apply m (Some l) = Ok z -> length l = m_nc m.
Proof.
  intros Hm H. unfold epmi_apply in H. apply bind_ok in H. destruct H as (u & _ & H). apply bind_ok in H. destruct H as (m1 & H1 & H).
  apply m_scale_rows_ok in H1; [|exact Hm]. destruct H1 as (_ & H1). pose proof (is_mat_has _ _ _ H1) as (W1&_&_&C1).
  apply m_scale_cols_ok in H; [|exact W1]. destruct H as (H & _). unfold nonzero_invert in H. rewrite !map_length in H. rewrite H, C1. apply to_dense_nc.
Qed.
Lemma apply_all_ops ts : forall s core, apply_all s ts = Ok core -> exists rest, s_ops core = (s_ops s ++ rest)%list.
Proof.
  induction ts as [|t ts IH]; intros s core H; cbn [apply_all] in H; [injection H as <-; exists []; rewrite app_nil_r; reflexivity|].
  apply bind_ok in H. destruct H as (s1 & H1 & H). destruct (IH _ _ H) as (rest & ->). unfold space_apply in H1. apply bind_ok in H1. destruct H1 as ([m o] & _ & H1).
  apply bind_ok in H1. destruct H1 as ([[o' a] b] & _ & H1). apply mk_space_fields in H1. destruct H1 as (_&_&_&->&_). exists (o' :: rest). rewrite <- app_assoc. reflexivity.
Qed.
(** partial: if the first transformation that is not Plog / normalisation is a PMI-style weighting or a reduction, peripheral data
    with the wrong number of columns is rejected *)
Theorem C32_width_partial : forall ts1 t ts2 raw core m id2row row2id p, consistent raw -> s_ops raw = [] ->
  forallb width_neutral ts1 = true -> width_checked t = true -> Forall tr_ok (ts1 ++ t :: ts2) ->
  apply_all raw (ts1 ++ t :: ts2) = Ok core -> mwf m -> mk_peripheral core m id2row row2id = Ok p -> m_nc m = m_nc (s_mat raw).
Proof.
  intros ts1 t ts2 raw core m r r2i p Hc Hops Hn Hk Ht Ha Hm Hp.
  assert (Hpa : exists pm, project_all (s_ops core) m = Ok pm).
  { unfold mk_peripheral in Hp. apply bind_ok in Hp. destruct Hp as (d & _ & Hp). destruct (project_ops (s_ops core) _ m) as [c rm] eqn:Ep.
    apply bind_ok in Hp. destruct Hp as (pm & -> & _). apply project_ops_inv in Ep. destruct Ep as (_ & Ep). eauto. }
  clear Hp. destruct Hpa as (pm & Hpa).
  (* strengthen: start from any space whose operations [pre] have been projected on m already *)
  assert (G : forall ts1 raw m pre, consistent raw -> forallb width_neutral ts1 = true -> Forall tr_ok (ts1 ++ t :: ts2) -> s_ops raw = pre ->
     apply_all raw (ts1 ++ t :: ts2) = Ok core -> mwf m -> (forall rest, s_ops core = (pre ++ rest)%list -> exists z, project_all rest m = Ok z) -> m_nc m = m_nc (s_mat raw)).
  { clear raw m ts1 Hc Hops Hn Ht Ha Hm Hpa. induction ts1 as [|t1 ts1 IH]; intros raw m pre Hc Hn Ht Hpre Ha Hm Hpa; cbn [app apply_all forallb] in *.
    - apply bind_ok in Ha. destruct Ha as (s1 & H1 & Ha). inversion Ht as [|? ? T1 T2]; subst.
      destruct (space_apply_ok _ _ _ Hc T1 H1) as (m1 & o & o0 & ic & ci & Hop & -> & Ho & _ & _ & Hw & _).
      destruct (apply_all_ops _ _ _ Ha) as (rest & Er). cbn [s_ops] in Er. rewrite <- app_assoc in Er. cbn [app] in Er.
      destruct (Hpa _ Er) as (z & Hz). cbn [project_all] in Hz. apply bind_ok in Hz. destruct Hz as (m' & Hz & _).
      pose proof Hc as (Cm & _).
      destruct t as [s|d k|cc k]; cbn [width_checked create_operation op_apply] in *; [| |discriminate].
      + apply bind_ok in Hop. destruct Hop as (r0 & _ & Hop). injection Hop as <- <-. subst o. cbn [op_project] in Hz.
        destruct s; try discriminate; cbn [uses_column_stats get_column_stats scaling_apply] in Hz.
        * apply epmi_width in Hz; [|exact Hm]. rewrite m_sum0_length in Hz. auto.
        * unfold ppmi_apply in Hz. apply bind_ok in Hz. destruct Hz as (? & Hz & _). apply epmi_width in Hz; [|exact Hm]. rewrite m_sum0_length in Hz. auto.
        * unfold plmi_apply, ppmi_apply in Hz. apply bind_ok in Hz. destruct Hz as (? & Hz & _). apply bind_ok in Hz. destruct Hz as (? & Hz & _). apply epmi_width in Hz; [|exact Hm]. rewrite m_sum0_length in Hz. auto.
      + apply bind_ok in Hop. destruct Hop as ([r0 tm] & Hd & Hop). injection Hop as <- <-. subst o. cbn [op_project] in Hz.
        destruct (dimred_apply_has d k _ _ _ Cm T1 Hd) as (n & _ & _ & (Wt&_&Rt&_)). apply dim_project_has in Hz; [|exact Hm|exact Wt]. destruct Hz as (-> & _). exact Rt.
    - apply andb_true_iff in Hn. destruct Hn as (N1 & N2). inversion Ht as [|? ? T1 T2]; subst.
      apply bind_ok in Ha. destruct Ha as (s1 & H1 & Ha). destruct (space_apply_ok _ _ _ Hc T1 H1) as (m1 & o & o0 & ic & ci & Hop & Es & Ho & _ & _ & Hw & Hc1).
      destruct t1 as [s|d k|cc k]; try discriminate. cbn [create_operation op_apply] in Hop. apply bind_ok in Hop. destruct Hop as (r0 & Hsc & Hop).
      assert (r0 = m1) as -> by congruence. assert (o0 = OpScale s (if uses_column_stats s then Some (get_column_stats s (s_mat raw)) else None)) as -> by congruence.
      subst o. destruct (apply_all_ops _ _ _ Ha) as (rest & Er). rewrite Es in Er. cbn [s_ops] in Er. rewrite <- app_assoc in Er. cbn [app] in Er.
      destruct (Hpa _ Er) as (z & Hz). cbn [project_all] in Hz. apply bind_ok in Hz. destruct Hz as (m' & Hz & Hz').
      destruct (neutral_project _ _ _ _ N1 Hm Hz) as (Wm' & Cm'). rewrite <- Cm'.
      assert (Cs : m_nc (s_mat s1) = m_nc (s_mat raw)).
      { rewrite Es. cbn [s_mat]. pose proof Hc as (Cm & _). apply (scaling_has _ _ _ _ _ _ _ (has_self _ Cm)) in Hsc. apply Hsc. }
      rewrite <- Cs. apply (IH s1 m' _ Hc1 N2 T2 eq_refl Ha Wm').
      intros rest' Er'. rewrite Er in Er'. rewrite Es in Er'. cbn [s_ops] in Er'. rewrite <- app_assoc in Er'. cbn [app] in Er'.
      apply app_inv_head in Er'. injection Er' as <-. eauto. }
  apply (G ts1 raw m [] Hc Hn Ht Hops Ha Hm). intros rest Er. cbn [app] in Er. subst rest. eauto.
Qed.

(** *** C59 *)
(** reducing a space of matrices/tensors never succeeds ... *)
Theorem C59_always_fails_partial : forall s t, length (s_eshape s) >= 2 -> (match t with TScale _ => False | _ => True end) ->
  exists e, space_apply s t = Err e /\ (forall r o, op_apply (create_operation t) (s_mat s) = Ok (r, o) -> e = TypeError).
Proof.
  intros s t Hl Ht. unfold space_apply. destruct (op_apply (create_operation t) (s_mat s)) as [[r o]|e] eqn:Eo; cbn [bind].
  - exists TypeError. split; [|reflexivity].
    assert (A : assert_1dim_element s = Err TypeError) by (unfold assert_1dim_element; destruct (Nat.ltb_spec 1 (length (s_eshape s))); [reflexivity|lia]).
    destruct t as [sc|d k|c k]; [contradiction| |]; cbn [create_operation op_apply] in Eo.
    + apply bind_ok in Eo. destruct Eo as ([r0 tm] & _ & Eo). injection Eo as _ <-. rewrite A. reflexivity.
    + apply bind_ok in Eo. destruct Eo as ([r0 sel] & _ & Eo). injection Eo as _ <-. rewrite A. reflexivity.
  - exists e. split; [reflexivity|]. discriminate.
Qed.
(** ... but it is reported as TypeError, not IllegalOperationError *)
Theorem C59_refuted : exists s t, consistent s /\ tr_ok t /\ length (s_eshape s) = 2 /\ space_apply s t = Err TypeError.
Proof.
  exists (SP m14 ["a"] [] [("a", 0%Z)] [] [] [2; 2]), (TFS CSum 2). split; [|split; [cbn; lia|split; [reflexivity|]]].
  - eapply (mk_space_consistent m14 ["a"] [] None None [] (Some [2; 2])); [apply m14_wf|constructor|exact I|exact I|reflexivity].
  - unfold space_apply. cbn [create_operation op_apply s_mat]. destruct (topfs_total CSum 2 m14 m14_wf ltac:(lia)) as (r & sel & ->). reflexivity.
Qed.
Example C59_example : length (s_eshape (SP m14 ["a"] [] [("a", 0%Z)] [] [] [2; 2])) >= 2.  Proof. cbn. lia. Qed.
End Any.

(** ** C26, C28: over exact reals *)
#[local] Existing Instance RNum.
Section Reals.
Context {E : @Ext RNum}.

(** *** C26 *)
(** every transformation except NMF: NMF's projection is only a least-squares estimate *)
Definition not_nmf (t : transformation) : Prop := match t with TDim DNmf _ => False | _ => True end.
Lemma apply_then_project t m r o : numpy_svd_correct -> sparsesvd_correct -> mwf m -> tr_ok t -> not_nmf t ->
  op_apply (create_operation t) m = Ok (r, o) -> op_project o m = Ok r.
Proof.
  intros H1 H2 Hm Ht Hn H. destruct t as [s|[|] k|c k]; cbn [create_operation op_apply dimred_apply not_nmf tr_ok] in *; [| |contradiction|].
  - apply bind_ok in H. destruct H as (z & Hz & H). injection H as -> <-. cbn [op_project].
    destruct s as [| | | |cr|cr]; cbn [uses_column_stats get_column_stats scaling_apply] in *; try exact Hz. destruct cr; exact Hz.
  - apply bind_ok in H. destruct H as ([us v] & Hs & H). injection H as <- <-. destruct m as [d|c].
    + destruct (e_svd d) as [[[u s] vt]|e] eqn:Es.
      * pose proof (dense_svd_value k d Hm Ht H1 u s vt Es) as HV. cbn zeta in HV. destruct (Nat.eqb _ 0); [rewrite HV in Hs; discriminate|].
        destruct HV as (us' & v' & z & HV & Hz & HR). rewrite HV in Hs. injection Hs as -> ->.
        destruct (H1 d u s vt Hm Es) as (HT & _). eapply svd_project_value; [exact Hm|exact HR| |exact Hz|exact HT]. unfold dense_dims. lia.
      * exfalso. unfold svd_apply, linalg_svd in Hs. destruct (Nat.eqb_spec k 0); [lia|]. cbn [negb check bind] in Hs. unfold dense_svd in Hs. rewrite Es in Hs. discriminate.
    + destruct (e_sparsesvd c (k + k / 10)) as [[[[dim ut] s] vt]|e] eqn:Es.
      * pose proof (sparse_svd_value k c Hm Ht dim ut s vt Es) as HV. cbn zeta in HV. destruct (Nat.eqb _ 0); [rewrite HV in Hs; discriminate|].
        destruct HV as (us' & v' & z & HV & Hz & HR). rewrite HV in Hs. injection Hs as -> ->.
        pose proof (H2 c _ dim ut s vt Hm Es) as HT. eapply svd_project_value; [exact Hm|exact HR| |exact Hz|exact HT]. lia.
      * exfalso. unfold svd_apply, linalg_svd in Hs. destruct (Nat.eqb_spec k 0); [lia|]. cbn [negb check bind] in Hs. unfold sparse_svd in Hs. rewrite Es in Hs. discriminate.
  - apply bind_ok in H. destruct H as ([z sel] & Hf & H). injection H as -> <-. cbn [op_project]. unfold topfs_apply in Hf.
    apply bind_ok in Hf. destruct Hf as (z' & Hz & Hf). injection Hf as -> <-. exact Hz.
Qed.
Lemma project_set_original o l m : op_project (op_set_original o l) m = op_project o m.
Proof. destruct o as [| |c k [sel|] orig]; reflexivity. Qed.
Lemma apply_all_project ts : forall s core M, numpy_svd_correct -> sparsesvd_correct -> Forall tr_ok ts -> Forall not_nmf ts -> consistent s -> stable s ->
  project_all (s_ops s) M = Ok (s_mat s) -> apply_all s ts = Ok core ->
  consistent core /\ stable core /\ project_all (s_ops core) M = Ok (s_mat core) /\ s_id2row core = s_id2row s /\ s_row2id core = s_row2id s.
Proof.
  induction ts as [|t ts IH]; intros s core M H1 H2 Ht Hn Hc Hst Hp H; cbn [apply_all] in H; [injection H as <-; auto 10|].
  inversion Ht as [|? ? T1 T2]; subst. inversion Hn as [|? ? N1 N2]; subst. apply bind_ok in H. destruct H as (s1 & Hs & H).
  pose proof (apply_stable _ _ _ Hst Hs) as Hst1.
  destruct (space_apply_ok _ _ _ Hc T1 Hs) as (m1 & o & o0 & ic & ci & Hop & Es & Ho & _ & _ & _ & Hc1).
  destruct (IH s1 core M H1 H2 T2 N2 Hc1 Hst1) as (A&B&C&D&G); [|exact H|].
  - rewrite Es. cbn [s_ops s_mat]. rewrite project_all_app, Hp. cbn [bind project_all].
    assert (Ep : op_project o (s_mat s) = Ok m1).
    { subst o. pose proof Hc as (Cm & _). rewrite <- (apply_then_project t (s_mat s) m1 o0 H1 H2 Cm T1 N1 Hop). destruct t; try reflexivity. apply project_set_original. }
    rewrite Ep. reflexivity.
  - rewrite Es in D, G. auto.
Qed.
(** For every sequence of scalings, selections and SVD reductions on a raw space: projecting the raw data onto the resulting core
    space succeeds and gives literally the matrix, the columns, the rows and the operations of the core space. *)
Theorem C26_core_data : forall ts raw core row2id, numpy_svd_correct -> sparsesvd_correct -> consistent raw -> s_ops raw = [] ->
  Forall tr_ok ts -> Forall not_nmf ts -> apply_all raw ts = Ok core -> row2id = None \/ row2id = Some (s_row2id raw) ->
  exists p, mk_peripheral core (s_mat raw) (s_id2row raw) row2id = Ok p /\
    s_mat p = s_mat core /\ s_id2row p = s_id2row core /\ s_id2col p = s_id2col core /\ s_col2id p = s_col2id core /\ s_ops p = s_ops core /\
    (row2id = Some (s_row2id raw) -> s_row2id p = s_row2id core) /\ mutually_inverse (s_id2row p) (s_row2id p).
Proof.
  intros ts raw core r2i H1 H2 Hc Hops Ht Hn Ha Hr.
  destruct (apply_all_project ts raw core (s_mat raw) H1 H2 Ht Hn Hc) as (Cc & Sc & Pc & Er & Ed); [unfold stable; rewrite Hops; reflexivity|rewrite Hops; reflexivity|exact Ha|].
  pose proof Hc as (_&_&_&Ri&Rd&_). pose proof Cc as (Cm&Cr&Cl&_&_&Cj&_&_&_).
  assert (Hd : exists d, match r2i with None => list2dict (s_id2row raw) | Some d => let* _ := assert_dict_match_list d (s_id2row raw) in Ok d end = Ok d /\
     mutually_inverse (s_id2row raw) d /\ (r2i = Some (s_row2id raw) -> d = s_row2id raw)).
  { destruct Hr as [-> | ->].
    - pose proof Ri as (Nd & _). destruct (list2dict_total _ Nd) as (d & Ed'). exists d. split; [exact Ed'|]. split; [|discriminate].
      destruct (list2dict_ok _ _ Ed') as (K1 & K2 & K3 & K4). apply positional_inverse; auto.
    - exists (s_row2id raw). rewrite (assert_match_total _ _ Rd Ri). auto. }
  destruct Hd as (d & E1 & E2 & E3). unfold mk_peripheral. rewrite E1. cbn [bind]. fold (cols core).
  rewrite (proj1 (project_ops_split _ _ _ _ Sc) _ Pc). cbn [bind].
  rewrite shape_consistent_total.
  - cbn [bind]. eexists. split; [reflexivity|]. cbn. rewrite Ed, Er. repeat (split; [solve [auto]|]). exact E2.
  - congruence.
  - rewrite (mutually_inverse_length _ _ E2). congruence.
  - cbn [cols c_id2col c_col2id]. pose proof (mutually_inverse_length _ _ Cj) as L. destruct Cl as [Cl|Cl]; [left; rewrite Cl in *; auto|right; split; congruence].
Qed.

(** *** C28 *)
(** two spaces that no observer distinguishes: same type and entries of the matrix, everything else identical *)
Definition same_space (a b : space) : Prop :=
  type_of (s_mat a) = type_of (s_mat b) /\ to_dense (s_mat a) = to_dense (s_mat b) /\
  s_id2row a = s_id2row b /\ s_id2col a = s_id2col b /\ s_row2id a = s_row2id b /\ s_col2id a = s_col2id b /\ s_ops a = s_ops b /\ s_eshape a = s_eshape b.
Lemma same_refl a : same_space a a.  Proof. repeat split. Qed.
Lemma same_trans a b c : same_space a b -> same_space b c -> same_space a c.
Proof. unfold same_space. intros (?&?&?&?&?&?&?&?) (?&?&?&?&?&?&?&?). repeat split; congruence. Qed.
Lemma same_sym a b : same_space a b -> same_space b a.
Proof. unfold same_space. intros (?&?&?&?&?&?&?&?). repeat split; congruence. Qed.

Definition numbered (l : list string) : dict Z := combine l (map Z.of_nat (seq 0 (length l))).
Lemma list2dict_numbered l d : list2dict l = Ok d -> d = numbered l /\ NoDup l.
Proof.
  intros H. unfold list2dict in H. apply list2dict_aux_ok in H. destruct H as (-> & Hn & _). split; [|exact Hn]. cbn [app]. reflexivity.
Qed.
Lemma numbered_total l : NoDup l -> list2dict l = Ok (numbered l).
Proof. intros H. destruct (list2dict_total l H) as (d & Hd). rewrite Hd. apply list2dict_numbered in Hd. destruct Hd as (-> & _). reflexivity. Qed.
Lemma numbered_length l : length (numbered l) = length l.
Proof. unfold numbered. rewrite combine_length, map_length, seq_length. lia. Qed.
Lemma numbered_keys l : dkeys (numbered l) = l.
Proof. apply dkeys_combine. reflexivity. Qed.
Lemma combine_app_eq {A B} (a1 a2 : list A) (b1 b2 : list B) : length a1 = length b1 -> combine (a1 ++ a2) (b1 ++ b2) = (combine a1 b1 ++ combine a2 b2)%list.
Proof. revert b1. induction a1 as [|x a1 IH]; intros [|y b1] H; try discriminate; [reflexivity|]. cbn. f_equal. apply IH. cbn in H. lia. Qed.
Lemma numbered_app a b : numbered (a ++ b) = (numbered a ++ combine b (map (fun i => Z.of_nat (length a) + Z.of_nat i)%Z (seq 0 (length b))))%list.
Proof.
  unfold numbered. rewrite app_length, seq_app, map_app, combine_app_eq by (rewrite map_length, seq_length; reflexivity). f_equal. f_equal.
  cbn [plus]. assert (G : forall n s, map Z.of_nat (seq s n) = map (fun i => Z.of_nat s + Z.of_nat i)%Z (seq 0 n)).
  { clear. induction n as [|n IH]; intros s; [reflexivity|]. cbn [seq map]. f_equal; [lia|]. rewrite IH. rewrite <- (seq_shift n 0), map_map. apply map_ext. intros; lia. }
  apply G.
Qed.
Lemma add_items_numbered a b : NoDup (a ++ b) -> add_items_to_dict (numbered a) b = (numbered (a ++ b), Ok tt).
Proof.
  intros H. unfold add_items_to_dict. destruct (add_items_aux_total b (Z.of_nat (length (numbered a))) 0 (numbered a)) as (d & Hd).
  - clear -H. induction a as [|x a IH]; [exact H|]. cbn in H. inversion H; subst. auto.
  - rewrite numbered_keys. intros w Hw Ha. clear -H Hw Ha. induction a as [|x a IH]; [contradiction|]. cbn in H. inversion H; subst.
    destruct Ha as [->|Ha]; [apply H2, in_or_app; right; exact Hw|auto].
  - rewrite Hd. apply add_items_aux_ok in Hd. destruct Hd as (-> & _). f_equal. rewrite numbered_app, numbered_length. rewrite Z.add_0_r. reflexivity.
Qed.
Lemma add_items_numbered_inv a b d : NoDup a -> add_items_to_dict (numbered a) b = (d, Ok tt) -> NoDup (a ++ b).
Proof.
  intros Ha H. unfold add_items_to_dict in H. apply add_items_aux_ok in H. destruct H as (_ & Hb & Hd). rewrite numbered_keys in Hd.
  induction a as [|x a IH]; [exact Hb|]. inversion Ha; subst. cbn. constructor.
  - rewrite in_app_iff. intros [K|K]; [contradiction|]. apply (Hd x K). left; reflexivity.
  - apply IH; [assumption|]. intros w Hw K. apply (Hd w Hw). right; exact K.
Qed.

(** mk_peripheral without a dictionary, spelled out *)
Definition fits (core : space) (z : matrix) : Prop := (length (s_id2col core) = 0 /\ length (s_col2id core) = 0) \/ (m_nc z = length (s_id2col core) /\ m_nc z = length (s_col2id core)).
Lemma mk_peripheral_iff core m r p : stable core ->
  (mk_peripheral core m r None = Ok p <->
   NoDup r /\ exists z, project_all (s_ops core) m = Ok z /\ m_nr z = length r /\ fits core z /\
     p = SP z r (s_id2col core) (numbered r) (s_col2id core) (s_ops core) [m_nc z]).
Proof.
  intros Hs. unfold mk_peripheral. split.
  - intros H. apply bind_ok in H. destruct H as (d & H1 & H). apply list2dict_numbered in H1. destruct H1 as (-> & Hn). split; [exact Hn|].
    destruct (project_ops _ _ m) as [c rm] eqn:Ep. apply bind_ok in H. destruct H as (z & -> & H). apply bind_ok in H. destruct H as (u & H2 & H). injection H as <-.
    apply shape_consistent_ok in H2. destruct H2 as (L1 & L2 & L3). apply project_ops_inv in Ep. destruct Ep as (Ef & Ep). fold (cols core) in Ef. rewrite Hs in Ef. injection Ef as <-.
    exists z. cbn [cols c_id2col c_col2id] in *. split; [exact Ep|]. split; [exact L1|]. split; [exact L3|]. reflexivity.
  - intros (Hn & z & Hz & Hr & Hf & ->). rewrite (numbered_total _ Hn). cbn [bind]. fold (cols core). rewrite (proj1 (project_ops_split _ _ _ _ Hs) _ Hz). cbn [bind].
    rewrite shape_consistent_total; [reflexivity|exact Hr|rewrite numbered_length; exact Hr|exact Hf].
Qed.
Lemma add_rows_iff s m r s' : consistent s -> stable s -> s_row2id s = numbered (s_id2row s) -> mwf m ->
  (add_rows s m r = (s', Ok tt) <->
   NoDup (s_id2row s ++ r) /\ m_nr m = length r /\ exists z v, project_all (s_ops s) m = Ok z /\ m_vstack (s_mat s) z = Ok v /\
    s' = SP v (s_id2row s ++ r) (s_id2col s) (numbered (s_id2row s ++ r)) (s_col2id s) (s_ops s) (s_eshape s)).
Proof.
  intros Hc Hs Hnum Hm. pose proof Hc as (Cm&Cr&Cc&Ci&Cd&Cj&Ce&Cp&Co). pose proof Ci as (Hnd & _). split.
  - intros H. destruct (add_rows_ok _ _ _ _ Hc Hm H) as (d & c & z & v & Hd & Hl & Hp & Hv & _&_&_&_&_&_&_&_& Es & _).
    rewrite Hnum in Hd. pose proof (add_items_numbered_inv _ _ _ Hnd Hd) as Hn. rewrite (add_items_numbered _ _ Hn) in Hd. injection Hd as <-.
    split; [exact Hn|]. split; [exact Hl|]. exists z, v. apply project_ops_inv in Hp. destruct Hp as (Ef & Hp). fold (cols s) in Ef. rewrite Hs in Ef. injection Ef as <-. auto.
  - intros (Hn & Hl & z & v & Hz & Hv & ->). unfold add_rows. rewrite Hnum, (add_items_numbered _ _ Hn).
    destruct (Nat.eqb_spec (m_nr m) (length r)); [|contradiction]. cbn [negb set_row2id set_id2row s_mat s_id2row s_id2col s_row2id s_col2id s_ops s_eshape].
    fold (cols s). rewrite (proj1 (project_ops_split _ _ _ _ Hs) _ Hz). cbn [set_cols set_row2id set_id2row s_mat s_id2row s_id2col s_row2id s_col2id s_ops s_eshape]. rewrite Hv.
    cbn [set_mat set_cols set_row2id set_id2row s_id2row s_id2col s_row2id s_col2id s_mat s_ops s_eshape cols c_id2col c_col2id]. f_equal.
    assert (Hw : mwf z /\ m_nr z = m_nr m).
    { destruct (project_ops_ok (s_ops s) (cols s) m (cols s) z Co (conj Cj Ce) Hm (proj1 (project_ops_split _ _ _ _ Hs) _ Hz)) as (_ & ? & ?). auto. }
    destruct Hw as (Wz & Rz). apply m_vstack_ok in Hv; [|assumption|assumption]. destruct Hv as (_ & Hnc & Hi). apply is_mat_has in Hi. destruct Hi as (_&_&Hvr&Hvc).
    cbn [d_vstack tab d_nr d_nc] in Hvr, Hvc. rewrite !to_dense_nr in Hvr. rewrite to_dense_nc in Hvc.
    apply shape_consistent_total.
    + rewrite app_length. lia.
    + rewrite numbered_length, app_length. lia.
    + pose proof (mutually_inverse_length _ _ Cj) as L. destruct Cc as [Cc|Cc]; [left; rewrite Cc in *; auto|right; lia].
Qed.

Lemma vstack_vals m1 m2 m12 : mwf m1 -> mwf m2 -> m_vstack m1 m2 = Ok m12 ->
  vals m1 (type_of m1) (m_nr m1) (m_nc m1) (ment m1) /\ vals m2 (type_of m1) (m_nr m2) (m_nc m1) (ment m2) /\
  vals m12 (type_of m1) (m_nr m1 + m_nr m2) (m_nc m1) (stacked (m_nr m1) (ment m1) (ment m2)).
Proof.
  intros W1 W2 H. destruct (m_vstack_ok _ _ _ W1 W2 H) as (Ht & Hn & _). pose proof (vals_self m1 W1) as V1. pose proof (vals_self m2 W2) as V2.
  rewrite Ht, <- Hn in V2. split; [exact V1|]. split; [exact V2|]. destruct (vals_vstack _ _ _ _ _ _ _ _ V1 V2) as (z & E1 & V). rewrite H in E1. injection E1 as <-.
  eapply vals_ext; [exact V|]. intros i j _ _. unfold stacked. destruct (Nat.ltb i (m_nr m1)); reflexivity.
Qed.
Lemma project_wf core m z : consistent core -> stable core -> mwf m -> project_all (s_ops core) m = Ok z -> mwf z /\ m_nr z = m_nr m.
Proof.
  intros (_&_&_&_&_&Cj&Ce&_&Co) Hs Hm H. destruct (project_ops_ok (s_ops core) (cols core) m (cols core) z Co (conj Cj Ce) Hm (proj1 (project_ops_split _ _ _ _ Hs) _ H)) as (_ & ? & ?). auto.
Qed.
(** one batch: first the top rows, then the rest, against everything at once -- both ways *)
Lemma one_batch core m1 m2 m12 r1 r2 : consistent core -> stable core -> mwf m1 -> mwf m2 -> m_vstack m1 m2 = Ok m12 -> length r1 = m_nr m1 ->
  (forall p, mk_peripheral core m12 (r1 ++ r2) None = Ok p ->
     exists p1 p2, mk_peripheral core m1 r1 None = Ok p1 /\ add_rows p1 m2 r2 = (p2, Ok tt) /\ same_space p p2) /\
  (forall p1 p2, mk_peripheral core m1 r1 None = Ok p1 -> add_rows p1 m2 r2 = (p2, Ok tt) ->
     exists p, mk_peripheral core m12 (r1 ++ r2) None = Ok p /\ same_space p p2).
Proof.
  intros Hc Hs W1 W2 Hv Hl. destruct (vstack_vals _ _ _ W1 W2 Hv) as (V1 & V2 & V12). pose proof Hc as (_&_&_&_&_&_&_&_&Co).
  destruct (project_all_stack (s_ops core) m1 m2 m12 _ _ _ _ _ _ Co V1 V2 V12) as (S1 & S2).
  assert (W12 : mwf m12) by exact (vals_wf _ _ _ _ _ V12).
  (* what the combined projections look like *)
  assert (J : forall z1 z2 z12, project_all (s_ops core) m1 = Ok z1 -> project_all (s_ops core) m2 = Ok z2 -> project_all (s_ops core) m12 = Ok z12 ->
     exists v, m_vstack z1 z2 = Ok v /\ type_of z12 = type_of v /\ to_dense z12 = to_dense v /\ m_nc z12 = m_nc z1).
  { intros z1 z2 z12 E1 E2 E12. destruct (S2 _ _ E1 E2) as (z12' & E12' & t' & c' & f' & g' & U1 & U2 & U12). rewrite E12 in E12'. injection E12' as <-.
    destruct (vals_vstack _ _ _ _ _ _ _ _ U1 U2) as (v & Ev & U). exists v. split; [exact Ev|]. split; [rewrite (vals_type _ _ _ _ _ U), (vals_type _ _ _ _ _ U12); reflexivity|].
    split; [|rewrite (vals_nc _ _ _ _ _ U12), (vals_nc _ _ _ _ _ U1); reflexivity]. eapply vals_dense_eq; [exact U12|]. eapply vals_ext; [exact U|].
    intros i j _ _. unfold stacked. destruct (Nat.ltb i (m_nr m1)); reflexivity. }
  (* the space built from the top rows *)
  assert (P1 : forall z1, project_all (s_ops core) m1 = Ok z1 -> NoDup r1 -> fits core z1 ->
     let p1 := SP z1 r1 (s_id2col core) (numbered r1) (s_col2id core) (s_ops core) [m_nc z1] in mk_peripheral core m1 r1 None = Ok p1 /\ consistent p1 /\ stable p1).
  { intros z1 E1 Hn Hf p1. destruct (project_wf _ _ _ Hc Hs W1 E1) as (Wz & Rz). assert (K : mk_peripheral core m1 r1 None = Ok p1).
    { apply mk_peripheral_iff; [exact Hs|]. split; [exact Hn|]. exists z1. split; [exact E1|]. split; [lia|]. split; [exact Hf|reflexivity]. }
    split; [exact K|]. split; [|exact Hs]. destruct (mk_peripheral_ok core m1 r1 None p1 Hc W1 I K) as (?&?&?&_&_&_&_&_&K'). exact K'. }
  split.
  - intros p Hp. apply mk_peripheral_iff in Hp; [|exact Hs]. destruct Hp as (Hn & z12 & E12 & R12 & Hf & ->).
    destruct (S1 _ E12) as (z1 & z2 & E1 & E2). destruct (J _ _ _ E1 E2 E12) as (v & Ev & Tv & Dv & Cv).
    assert (Hn1 : NoDup r1). { clear -Hn. induction r1 as [|x q IH]; [constructor|]. cbn in Hn. inversion Hn; subst. constructor; [|auto]. intros K. apply H1, in_or_app. left; exact K. }
    assert (Hf1 : fits core z1) by (unfold fits in *; rewrite <- Cv; exact Hf).
    destruct (P1 z1 E1 Hn1 Hf1) as (K1 & K2 & K3). destruct (project_wf _ _ _ Hc Hs W12 E12) as (_ & R12').
    eexists _, _. split; [exact K1|]. split; [|split]; [apply add_rows_iff; [exact K2|exact K3|reflexivity|exact W2|]| |].
    + cbn [s_id2row s_ops s_mat]. split; [exact Hn|]. split.
      * rewrite (vals_nr _ _ _ _ _ V12) in R12'. rewrite app_length in R12. lia.
      * exists z2, v. split; [exact E2|]. split; [exact Ev|]. reflexivity.
    + exact Tv.
    + cbn. rewrite Cv. auto 10.
  - intros p1 p2 H1 H2. apply mk_peripheral_iff in H1; [|exact Hs]. destruct H1 as (Hn1 & z1 & E1 & R1 & Hf & ->). destruct (P1 z1 E1 Hn1 Hf) as (K1 & K2 & K3).
    apply add_rows_iff in H2; [|exact K2|exact K3|reflexivity|exact W2]. cbn [s_id2row s_ops s_mat s_id2col s_col2id s_eshape] in H2. destruct H2 as (Hn & Hl2 & z2 & v & E2 & Ev & ->).
    destruct (S2 _ _ E1 E2) as (z12 & E12 & _). destruct (J _ _ _ E1 E2 E12) as (v' & Ev' & Tv & Dv & Cv). rewrite Ev in Ev'. injection Ev' as <-.
    destruct (project_wf _ _ _ Hc Hs W12 E12) as (_ & R12). rewrite (vals_nr _ _ _ _ _ V12) in R12.
    eexists. split; [apply mk_peripheral_iff; [exact Hs|]; split; [exact Hn|]; exists z12; split; [exact E12|]; split; [rewrite app_length; lia|]; split; [unfold fits in *; rewrite Cv; exact Hf|reflexivity]|].
    split; [exact Tv|]. cbn. rewrite Cv. auto 10.
Qed.
Lemma add_rows_same s s' m r s2 : same_space s s' -> add_rows s m r = (s2, Ok tt) -> exists s2', add_rows s' m r = (s2', Ok tt) /\ same_space s2 s2'.
Proof.
  intros (T&D&A1&A2&A3&A4&A5&A6) H. unfold add_rows in *. rewrite <- A3. destruct (add_items_to_dict (s_row2id s) r) as [d [u|e]]; [|discriminate].
  destruct (Nat.eqb (m_nr m) (length r)); cbn [negb] in *; [|discriminate]. cbn [set_id2row set_row2id s_ops s_id2col s_col2id s_mat s_id2row s_row2id s_eshape] in *.
  rewrite <- A1, <- A2, <- A4, <- A5. destruct (project_ops (s_ops s) _ m) as [c [pm|e]]; [|discriminate]. cbn [set_cols s_ops s_id2col s_col2id s_mat s_id2row s_row2id s_eshape] in *.
  assert (Ev : m_vstack (s_mat s') pm = m_vstack (s_mat s) pm).
  { unfold m_vstack, same_type. rewrite <- T, <- D. rewrite <- (to_dense_nc (s_mat s)), <- (to_dense_nc (s_mat s')), D. reflexivity. }
  cbn [set_mat set_cols set_row2id set_id2row s_id2row s_id2col s_row2id s_col2id s_mat s_ops s_eshape] in *. rewrite Ev.
  destruct (m_vstack (s_mat s) pm) as [vm|]; [|discriminate]. injection H as <- H. rewrite H. eexists. split; [reflexivity|].
  unfold same_space. cbn. repeat split; congruence.
Qed.
(** any number of batches *)
Fixpoint add_batches (s : space) (bs : list (matrix * list string)) : space * res unit :=
  match bs with [] => (s, Ok tt) | (m, r) :: bs => match add_rows s m r with (s', Ok _) => add_batches s' bs | (s', Err e) => (s', Err e) end end.
Fixpoint stack_all (m : matrix) (ms : list matrix) : res matrix :=
  match ms with [] => Ok m | x :: ms => let* m' := m_vstack m x in stack_all m' ms end.
Lemma add_batches_same bs : forall s s' s2, same_space s s' -> add_batches s bs = (s2, Ok tt) -> exists s2', add_batches s' bs = (s2', Ok tt) /\ same_space s2 s2'.
Proof.
  induction bs as [|[m r] bs IH]; intros s s' s2 Hs H; cbn [add_batches] in *; [injection H as <-; eauto|].
  destruct (add_rows s m r) as [s1 [[]|e]] eqn:Ea; [|discriminate]. destruct (add_rows_same _ _ _ _ _ Hs Ea) as (s1' & -> & Hs1). eapply IH; eassumption.
Qed.
Lemma batches : forall bs core m1 r1 M, consistent core -> stable core -> mwf m1 -> length r1 = m_nr m1 ->
  Forall (fun b => mwf (fst b) /\ length (snd b) = m_nr (fst b)) bs -> stack_all m1 (map fst bs) = Ok M ->
  (forall p, mk_peripheral core M (r1 ++ concat (map snd bs)) None = Ok p ->
     exists p1 p2, mk_peripheral core m1 r1 None = Ok p1 /\ add_batches p1 bs = (p2, Ok tt) /\ same_space p p2) /\
  (forall p1 p2, mk_peripheral core m1 r1 None = Ok p1 -> add_batches p1 bs = (p2, Ok tt) ->
     exists p, mk_peripheral core M (r1 ++ concat (map snd bs)) None = Ok p /\ same_space p p2).
Proof.
  induction bs as [|[m2 r2] bs IH]; intros core m1 r1 M Hc Hs W1 L1 Hb HM; cbn [map concat stack_all add_batches fst snd] in *.
  - injection HM as <-. rewrite app_nil_r. split.
    + intros p Hp. exists p, p. split; [exact Hp|]. split; [reflexivity|apply same_refl].
    + intros p1 p2 Hp H. injection H as <-. exists p1. split; [exact Hp|apply same_refl].
  - apply bind_ok in HM. destruct HM as (m12 & Hv & HM). inversion Hb as [|? ? (W2 & L2) Hb']; subst. cbn [fst snd] in *.
    destruct (one_batch core m1 m2 m12 r1 r2 Hc Hs W1 W2 Hv L1) as (O1 & O2).
    assert (W12 : mwf m12 /\ m_nr m12 = m_nr m1 + m_nr m2) by (destruct (vstack_vals _ _ _ W1 W2 Hv) as (_ & _ & V); split; [exact (vals_wf _ _ _ _ _ V)|exact (vals_nr _ _ _ _ _ V)]).
    destruct W12 as (W12 & N12). destruct (IH core m12 (r1 ++ r2)%list M Hc Hs W12 ltac:(rewrite app_length; lia) Hb' HM) as (I1 & I2). rewrite app_assoc. split.
    + intros p Hp. destruct (I1 p Hp) as (p12 & p2 & A & B & C). destruct (O1 _ A) as (p1 & p12' & A1 & A2 & A3). exists p1.
      destruct (add_batches_same _ _ _ _ A3 B) as (p2' & B' & C'). exists p2'. split; [exact A1|]. rewrite A2. split; [exact B'|]. eapply same_trans; eassumption.
    + intros p1 p2 Hp H. destruct (add_rows p1 m2 r2) as [p12' [[]|e]] eqn:Ea; [|discriminate]. destruct (O2 _ _ Hp Ea) as (p12 & A & B).
      destruct (add_batches_same _ _ _ _ (same_sym _ _ B) H) as (p2' & C & D). destruct (I2 _ _ A C) as (p & F & G). exists p. split; [exact F|]. eapply same_trans; [exact G|]. apply same_sym; exact D.
Qed.

(** Whatever the history of the core space: adding the batches one after the other to the space built from the first rows succeeds
    exactly when building from the stacked matrix does, and gives the same space. *)
Theorem C28_batches : forall bs core m1 r1 M, consistent core -> built core -> mwf m1 -> length r1 = m_nr m1 ->
  Forall (fun b => mwf (fst b) /\ length (snd b) = m_nr (fst b)) bs -> stack_all m1 (map fst bs) = Ok M ->
  (forall p, mk_peripheral core M (r1 ++ concat (map snd bs)) None = Ok p ->
     exists p1 p2, mk_peripheral core m1 r1 None = Ok p1 /\ add_batches p1 bs = (p2, Ok tt) /\ same_space p p2) /\
  (forall p1 p2, mk_peripheral core m1 r1 None = Ok p1 -> add_batches p1 bs = (p2, Ok tt) ->
     exists p, mk_peripheral core M (r1 ++ concat (map snd bs)) None = Ok p /\ same_space p p2).
Proof. intros bs core m1 r1 M Hc Hb. apply batches; [exact Hc|apply built_stable, Hb]. Qed.
Example C28_example : exists p p2 M, consistent sp_dog /\ built sp_dog /\ mk_peripheral sp_dog m12 ["a"] None = Ok p /\ add_batches p [(m12, ["b"]); (m22, ["c"; "d"])] = (p2, Ok tt) /\
  stack_all m12 [m12; m22] = Ok M /\ s_id2row p2 = ["a"; "b"; "c"; "d"].
Proof.
  eexists _, _, _. split; [|split; [|split; [reflexivity|split; [reflexivity|split; reflexivity]]]].
  - eapply (mk_space_consistent m22 ["car"; "dog"] ["x"; "y"] None None [] None); [apply m22_wf|constructor|exact I|exact I|reflexivity].
  - eapply (B_new m22 ["car"; "dog"] ["x"; "y"] None None None). reflexivity.
Qed.
End Reals.
(** C26 on the 2x2 identity with an exact SVD routine, then a selection *)
Definition eye_raw : @space RNum := SP (MD eye2) ["car"; "dog"] ["x"; "y"] [("car", 0%Z); ("dog", 1%Z)] [("x", 0%Z); ("y", 1%Z)] [] [2].
Example C26_example : exists core, @consistent RNum eye_raw /\ @apply_all RNum Eex eye_raw [TDim DSvd 2; TFS CSum 1] = Ok core /\ m_nc (s_mat core) = 1.
Proof.
  destruct C21_example as (Wm & HC & _ & (([u s] & vt) & Es) & _).
  assert (Hc : @consistent RNum eye_raw) by (eapply (mk_space_consistent (MD eye2) ["car"; "dog"] ["x"; "y"] None None [] None); [exact Wm|constructor|exact I|exact I|reflexivity]).
  assert (Er : count (Rltb tolerance) (map s (seq 0 (Nat.min (d_nr eye2) (d_nc eye2)))) = 2).
  { cbn in Es. unfold Reqb, dent in Es; cbn in Es. destruct (Req_EM_T 1 1), (Req_EM_T 0 0); try (exfalso; lra). cbn in Es. injection Es as _ <- _.
    unfold count. cbn. unfold Rltb, tolerance. destruct (Rlt_dec _ _); [reflexivity|lra]. }
  destruct (proj2 (@C21_apply_dense Eex 2 eye2 u s vt Wm ltac:(lia) HC Es)) as (r & o & z & Ha & _ & Wr & Tr & Rr & Cr & _); [rewrite Er; lia|]. rewrite Er in Cr. cbn in Cr.
  cbn [apply_all].
  assert (S1 : exists o', @space_apply RNum Eex eye_raw (TDim DSvd 2) = Ok (SP r ["car"; "dog"] [] [("car", 0%Z); ("dog", 1%Z)] [] [o'] [2])).
  { unfold space_apply. change (s_mat eye_raw) with (MD eye2). rewrite Ha. cbn [bind]. cbn [create_operation op_apply] in Ha. apply bind_ok in Ha. destruct Ha as ([r0 tm] & _ & Ha). injection Ha as _ <-.
    cbn [bind assert_1dim_element eye_raw s_eshape length Nat.ltb Nat.leb s_ops s_id2row s_row2id app]. unfold mk_space. cbn [bind]. rewrite Rr, Cr. cbn. eexists. reflexivity. }
  destruct S1 as (o' & ->). cbn [bind]. unfold space_apply. cbn [s_mat create_operation op_apply].
  destruct (topfs_total CSum 1 r Wr ltac:(lia)) as (r1 & sel & Hf). rewrite Hf. destruct (topfs_ok _ _ _ _ _ Wr Hf) as (_&_&Hl&_&_&Hi). apply is_mat_has in Hi. destruct Hi as (_&_&Hr1&Hc1).
  cbn [d_cols tab d_nr d_nc] in Hr1, Hc1. rewrite to_dense_nr, Rr in Hr1. rewrite Hl, Cr in Hc1. cbn in Hr1, Hc1.
  cbn [bind assert_1dim_element s_eshape length Nat.ltb Nat.leb op_set_original s_id2col s_ops s_id2row s_row2id app]. unfold mk_space. cbn [bind]. rewrite Hr1, Hc1. cbn. eexists. split; [exact Hc|]. split; [reflexivity|]. exact Hc1.
Qed.
