(** PCols.v -- the projection loop split into its matrix part and its column-label part; column bookkeeping of histories. *)
From Verif Require Import Base PyList Dict Num Dense Sparse Matrix Scaling Linalg Operation Similarity Space Peripheral SpecSpace.
Section PCols.
Context {N : Num} {E : Ext}.
Local Open Scope nat_scope.

(** the matrix part of the projection loop *)
Fixpoint project_all (ops : list operation) (m : matrix) : res matrix :=
  match ops with [] => Ok m | o :: rest => let* m' := op_project o m in project_all rest m' end.
(** the column part: succeeds or not whatever the matrix *)
Fixpoint fold_cols (ops : list operation) (c : colst) : res colst :=
  match ops with [] => Ok c | o :: rest => let (c', r) := op_columns o c in let* _ := r in fold_cols rest c' end.
Lemma project_ops_split ops : forall c c' m, fold_cols ops c = Ok c' ->
  (forall pm, project_all ops m = Ok pm -> project_ops ops c m = (c', Ok pm)) /\
  (forall e, project_all ops m = Err e -> exists c2, project_ops ops c m = (c2, Err e)).
Proof.
  induction ops as [|o ops IH]; intros c c' m Hf; cbn [fold_cols project_all project_ops] in *.
  - injection Hf as <-. split; [intros pm H; injection H as <-; reflexivity|discriminate].
  - destruct (op_columns o c) as [c1 r1]. apply bind_ok in Hf. destruct Hf as (u & -> & Hf).
    destruct (op_project o m) as [m'|e0]; cbn [bind].
    + apply IH, Hf.
    + split; [discriminate|]. intros e H. exists c1. congruence.
Qed.
Lemma project_ops_inv ops : forall c m c' pm, project_ops ops c m = (c', Ok pm) -> fold_cols ops c = Ok c' /\ project_all ops m = Ok pm.
Proof.
  induction ops as [|o ops IH]; intros c m c' pm H; cbn [fold_cols project_all project_ops] in *.
  - split; congruence.
  - destruct (op_columns o c) as [c1 [u|e]]; [|discriminate]. cbn [bind]. destruct (op_project o m) as [m'|e]; [|discriminate]. cbn [bind]. apply (IH _ _ _ _ H).
Qed.

Definition cols (s : space) : colst := CS (s_id2col s) (s_col2id s).
(** replaying the operations' column bookkeeping on the space's own columns changes nothing *)
Definition stable (s : space) : Prop := fold_cols (s_ops s) (cols s) = Ok (cols s).

Lemma op_columns_out o c d : snd (op_columns o c) = snd (op_columns o d).
Proof.
  destruct o as [s st|dd k tm|cr k sel orig]; try reflexivity. cbn [op_columns]. destruct orig as [[|c0 cs]|]; try reflexivity.
  destruct (select_labels _ _) as [l|]; [|reflexivity]. destruct (list2dict l); reflexivity.
Qed.
Lemma fold_cols_total ops : forall c c' d, fold_cols ops c = Ok c' -> exists d', fold_cols ops d = Ok d'.
Proof.
  induction ops as [|o ops IH]; intros c c' d H; cbn [fold_cols] in *; [eauto|].
  pose proof (op_columns_out o c d) as Ho. destruct (op_columns o c) as [c1 r1], (op_columns o d) as [d1 r2]. cbn [snd] in Ho. subst r2.
  apply bind_ok in H. destruct H as (u & -> & H). cbn [bind]. exact (IH _ _ _ H).
Qed.
Lemma fold_cols_app o1 o2 : forall c, fold_cols (o1 ++ o2) c = let* c' := fold_cols o1 c in fold_cols o2 c'.
Proof.
  induction o1 as [|o o1 IH]; intros c; cbn [app fold_cols bind]; [reflexivity|].
  destruct (op_columns o c) as [c1 [u|e]]; cbn [bind]; [apply IH|reflexivity].
Qed.
Lemma project_all_app o1 o2 : forall m, project_all (o1 ++ o2) m = let* m' := project_all o1 m in project_all o2 m'.
Proof.
  induction o1 as [|o o1 IH]; intros m; cbn [app project_all bind]; [reflexivity|].
  destruct (op_project o m) as [m'|e]; cbn [bind]; [apply IH|reflexivity].
Qed.

(** Everything a user can do, where constructors are not handed operation objects. *)
Inductive built : space -> Prop :=
| B_new m r c r2i c2i es s : mk_space m r c r2i c2i [] es = Ok s -> built s
| B_apply s t s' : built s -> space_apply s t = Ok s' -> built s'
| B_vstack s1 s2 s' : built s1 -> built s2 -> space_vstack s1 s2 = Ok s' -> built s'
| B_dense s : built s -> built (space_to_dense s)
| B_sparse s : built s -> built (space_to_sparse s)
| B_set s m s' : built s -> set_cooccurrence_matrix s m = Ok s' -> built s'
| B_periph core m r r2i s : built core -> mk_peripheral core m r r2i = Ok s -> built s
| B_add s m r s' : built s -> add_rows s m r = (s', Ok tt) -> built s'.

Lemma mk_space_fields m r c r2i c2i ops es s : mk_space m r c r2i c2i ops es = Ok s ->
  s_mat s = m /\ s_id2row s = r /\ s_id2col s = c /\ s_ops s = ops /\ (forall d, c2i = Some d -> s_col2id s = d) /\ (forall d, r2i = Some d -> s_row2id s = d).
Proof.
  intros H. unfold mk_space in H. apply bind_ok in H. destruct H as (dr & H1 & H). apply bind_ok in H. destruct H as (dc & H2 & H).
  apply bind_ok in H. destruct H as (u & H3 & H). apply bind_ok in H. destruct H as (e & H4 & H). injection H as <-. cbn.
  repeat (split; [reflexivity|]). split.
  - intros d ->. apply bind_ok in H2. destruct H2 as (? & _ & H2). congruence.
  - intros d ->. apply bind_ok in H1. destruct H1 as (? & _ & H1). congruence.
Qed.
Lemma apply_stable s t s' : stable s -> space_apply s t = Ok s' -> stable s'.
Proof.
  unfold stable. intros Hs H. unfold space_apply in H. apply bind_ok in H. destruct H as ([m o] & Ha & H).
  apply bind_ok in H. destruct H as ([[o' id2col] col2id] & Hc & H).
  apply mk_space_fields in H. destruct H as (_ & _ & F1 & F2 & F3 & _). specialize (F3 _ eq_refl).
  unfold cols. rewrite F1, F2, F3. rewrite fold_cols_app.
  destruct t as [sc|d k|c k]; cbn [create_operation op_apply] in Ha.
  - apply bind_ok in Ha. destruct Ha as (r & _ & Ha). injection Ha as <- <-. injection Hc as <- <- <-.
    unfold cols in Hs. rewrite Hs. reflexivity.
  - apply bind_ok in Ha. destruct Ha as ([r tm] & _ & Ha). injection Ha as <- <-. apply bind_ok in Hc. destruct Hc as (u & _ & Hc). injection Hc as <- <- <-.
    destruct (fold_cols_total _ _ _ (CS [] []) Hs) as (d' & ->). reflexivity.
  - apply bind_ok in Ha. destruct Ha as ([r sel] & _ & Ha). injection Ha as <- <-. apply bind_ok in Hc. destruct Hc as (u & _ & Hc).
    cbn [op_set_original] in Hc. destruct (s_id2col s) as [|c0 cs] eqn:Ec.
    + injection Hc as <- <- <-. destruct (fold_cols_total _ _ _ (CS [] []) Hs) as (d' & ->). reflexivity.
    + apply bind_ok in Hc. destruct Hc as (l & H1 & Hc). apply bind_ok in Hc. destruct Hc as (dd & H2 & Hc). injection Hc as <- <- <-.
      destruct (fold_cols_total _ _ _ (CS l dd) Hs) as (d' & ->). cbn [bind fold_cols op_columns]. rewrite H1, H2. reflexivity.
Qed.
Lemma periph_stable core m r r2i s : stable core -> mk_peripheral core m r r2i = Ok s -> cols s = cols core /\ s_ops s = s_ops core.
Proof.
  unfold stable. intros Hs H. unfold mk_peripheral in H. apply bind_ok in H. destruct H as (d & _ & H).
  destruct (project_ops (s_ops core) _ m) as [c rm] eqn:Ep. apply bind_ok in H. destruct H as (pm & -> & H). apply bind_ok in H. destruct H as (u & _ & H).
  injection H as <-. apply project_ops_inv in Ep. destruct Ep as (Ef & _). fold (cols core) in Ef. rewrite Hs in Ef. injection Ef as <-. auto.
Qed.
Lemma add_rows_stable s m r s' : stable s -> add_rows s m r = (s', Ok tt) -> cols s' = cols s /\ s_ops s' = s_ops s.
Proof.
  unfold stable. intros Hs H. unfold add_rows in H. destruct (add_items_to_dict (s_row2id s) r) as [d [u|e]]; [|discriminate].
  destruct (Nat.eqb (m_nr m) (length r)); cbn [negb] in H; [|discriminate]. cbn [set_id2row set_row2id s_ops s_id2col s_col2id s_mat s_id2row s_row2id s_eshape] in H.
  destruct (project_ops (s_ops s) _ m) as [c [pm|e]] eqn:Ep; [|discriminate]. cbn [set_cols s_ops s_id2col s_col2id s_mat s_id2row s_row2id s_eshape] in H.
  destruct (m_vstack _ pm) as [vm|e] in H; [|discriminate]. apply (f_equal fst) in H. cbn [fst] in H. subst s'. cbn.
  apply project_ops_inv in Ep. destruct Ep as (Ef & _). fold (cols s) in Ef. rewrite Hs in Ef. injection Ef as <-. auto.
Qed.
Lemma built_stable s : built s -> stable s.
Proof.
  induction 1 as [m r c r2i c2i es s H|s t s' _ IH H|s1 s2 s' _ IH1 _ IH2 H|s _ IH|s _ IH|s m s' _ IH H|core m r r2i s _ IH H|s m r s' _ IH H].
  - apply mk_space_fields in H. destruct H as (_&_&_&F2&_). unfold stable. rewrite F2. reflexivity.
  - eapply apply_stable; eassumption.
  - unfold space_vstack in H. apply bind_ok in H. destruct H as (? & _ & H). apply bind_ok in H. destruct H as (? & _ & H).
    destruct (add_items_to_dict _ _) as [d r]. apply bind_ok in H. destruct H as (? & _ & H). apply bind_ok in H. destruct H as ([a b] & _ & H).
    apply bind_ok in H. destruct H as (? & _ & H). apply mk_space_fields in H. destruct H as (_&_&_&F2&_). unfold stable. rewrite F2. reflexivity.
  - exact IH.
  - exact IH.
  - unfold set_cooccurrence_matrix in H. apply bind_ok in H. destruct H as (? & _ & H). injection H as <-. exact IH.
  - destruct (periph_stable _ _ _ _ _ IH H) as (E1 & E2). unfold stable. rewrite E1, E2. exact IH.
  - destruct (add_rows_stable _ _ _ _ IH H) as (E1 & E2). unfold stable. rewrite E1, E2. exact IH.
Qed.
End PCols.
