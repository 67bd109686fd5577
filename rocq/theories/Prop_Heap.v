(** Prop_Heap.v -- property C30: spaces do not interfere. *)
From Verif Require Import Base PyList Dict Num Dense Sparse Matrix PSparse PMatrix PMatOps Scaling Linalg Operation
  Similarity Space Peripheral SpecSpace PShape PDictList PSpace Prop_Space Heap.
Open Scope string_scope.
Open Scope list_scope.
Open Scope nat_scope.

Lemma list_set_length {A} (l : list A) : forall i x, length (list_set l i x) = length l.
Proof. induction l as [|y l IH]; intros [|i] x; cbn; auto. Qed.
Lemma nth_error_list_set {A} (l : list A) : forall i x j, nth_error (list_set l i x) j = if Nat.eqb i j then option_map (fun _ => x) (nth_error l j) else nth_error l j.
Proof.
  induction l as [|y l IH]; intros [|i] x [|j]; cbn; try reflexivity.
  - destruct (Nat.eqb i j); reflexivity.
  - apply IH.
Qed.
Lemma nth_list_set {A} (l : list A) d : forall i x j, j <> i -> nth j (list_set l i x) d = nth j l d.
Proof. induction l as [|y l IH]; intros [|i] x [|j] H; cbn; try reflexivity; try lia. apply IH. lia. Qed.
Lemma nth_list_set_same {A} (l : list A) d : forall i x, i < length l -> nth i (list_set l i x) d = x.
Proof. induction l as [|y l IH]; intros [|i] x H; cbn in *; try lia; [reflexivity|]. apply IH. lia. Qed.

Section Any.
Context {N : Num} {E : Ext}.

(** the object a call is made on and may change *)
Definition target (e : event) : option nat := match e with EDense i | ESparse i | ESet i _ | EAdd i _ _ => Some i | _ => None end.

(** addresses in use are allocated *)
Definition heap_ok (st : store) : Prop := Forall (fun o => h_addr o < length (st_dicts st)) (st_objs st).
(** dictionary arguments name existing dictionaries *)
Definition valid_args (st : store) (e : event) : Prop :=
  match e with ENew _ _ _ (Some a) _ _ _ | EPeriph _ _ _ (Some a) => a < length (st_dicts st) | _ => True end.
(** ... that no existing space holds: no sharing is set up by the caller *)
Definition own_dict (st : store) (e : event) : Prop :=
  match e with ENew _ _ _ (Some a) _ _ _ | EPeriph _ _ _ (Some a) => ~ In a (map h_addr (st_objs st)) | _ => True end.
Fixpoint along (P : store -> event -> Prop) (st : store) (es : list event) : Prop :=
  match es with [] => True | e :: es => P st e /\ along P (fst (step st e)) es end.

Lemma obj_app st ds o i : i < length (st_objs st) -> heap_ok st -> obj (ST (st_dicts st ++ ds) (st_objs st ++ o)) i = obj st i.
Proof.
  intros Hi Ho. unfold obj. cbn [st_objs]. rewrite nth_error_app1 by exact Hi. destruct (nth_error (st_objs st) i) as [x|] eqn:En; [|reflexivity]. cbn.
  unfold view, deref. cbn [st_dicts]. rewrite app_nth1; [reflexivity|]. unfold heap_ok in Ho. rewrite Forall_forall in Ho. apply Ho. eapply nth_error_In; eauto.
Qed.
Lemma heap_ok_grow st ds o : heap_ok st -> Forall (fun x => h_addr x < length (st_dicts st ++ ds)) o -> heap_ok (ST (st_dicts st ++ ds) (st_objs st ++ o)).
Proof.
  intros H Ho. unfold heap_ok in *. cbn. apply Forall_app. split; [|exact Ho]. eapply Forall_impl; [|exact H]. cbn. intros x Hx. rewrite app_length. lia.
Qed.
Lemma Forall_list_set {A} (P : A -> Prop) l : forall i x, Forall P l -> P x -> Forall P (list_set l i x).
Proof. induction l as [|y l IH]; intros [|i] x H Hx; cbn; inversion H; subst; constructor; auto. Qed.
Lemma install_grow st r a st' out : install st r a = (st', out) -> (forall b, a = Some b -> b < length (st_dicts st)) ->
  exists ds o, st' = ST (st_dicts st ++ ds) (st_objs st ++ o) /\ Forall (fun x => h_addr x < length (st_dicts st ++ ds)) o /\
    map h_addr o = (match out with Err _ => [] | Ok _ => [match a with Some b => b | None => length (st_dicts st) end] end).
Proof.
  intros H Ha. unfold install in H. destruct r as [s|e].
  - injection H as <- <-. destruct a as [b|].
    + exists [], [HO s b]. rewrite app_nil_r. split; [reflexivity|]. split; [constructor; [apply Ha; reflexivity|constructor]|reflexivity].
    + exists [s_row2id s], [HO s (length (st_dicts st))]. split; [reflexivity|]. split; [constructor; [cbn; rewrite app_length; cbn; lia|constructor]|reflexivity].
  - injection H as <- <-. exists [], []. rewrite !app_nil_r. split; [destruct st; reflexivity|]. split; [constructor|reflexivity].
Qed.
(** calls that create something only extend the heap *)
Lemma step_create st e : heap_ok st -> valid_args st e -> target e = None ->
  exists ds o, fst (step st e) = ST (st_dicts st ++ ds) (st_objs st ++ o) /\ Forall (fun x => h_addr x < length (st_dicts st ++ ds)) o /\
   (map h_addr o = [] \/ map h_addr o = [length (st_dicts st)] \/ exists a, map h_addr o = [a] /\ a < length (st_dicts st) /\ (own_dict st e -> ~ In a (map h_addr (st_objs st)))).
Proof.
  intros Ho Hv Ht.
  assert (G : forall r a, (forall b, a = Some b -> b < length (st_dicts st) /\ (own_dict st e -> ~ In b (map h_addr (st_objs st)))) ->
     exists ds o, fst (install st r a) = ST (st_dicts st ++ ds) (st_objs st ++ o) /\ Forall (fun x => h_addr x < length (st_dicts st ++ ds)) o /\
   (map h_addr o = [] \/ map h_addr o = [length (st_dicts st)] \/ exists a, map h_addr o = [a] /\ a < length (st_dicts st) /\ (own_dict st e -> ~ In a (map h_addr (st_objs st))))).
  { intros r a Ha. destruct (install st r a) as [st' out] eqn:Ei. cbn [fst]. destruct (install_grow _ _ _ _ _ Ei (fun b K => proj1 (Ha b K))) as (ds & o & -> & F & M).
    exists ds, o. split; [reflexivity|]. split; [exact F|]. rewrite M. destruct out; [|auto]. destruct a as [b|]; [|auto]. right; right. exists b. destruct (Ha b eq_refl). auto. }
  assert (Z : exists ds o, st = ST (st_dicts st ++ ds) (st_objs st ++ o) /\ Forall (fun x => h_addr x < length (st_dicts st ++ ds)) o /\
   (map h_addr o = [] \/ map h_addr o = [length (st_dicts st)] \/ exists a, map h_addr o = [a] /\ a < length (st_dicts st) /\ (own_dict st e -> ~ In a (map h_addr (st_objs st))))).
  { exists [], []. rewrite !app_nil_r. split; [destruct st; reflexivity|]. split; [constructor|auto]. }
  destruct e as [d|m r c a c2i ops es|i t|i j|i|i|i m|i m r a|i m r]; cbn [target] in Ht; try discriminate; cbn [step].
  - exists [d], []. cbn [fst]. rewrite app_nil_r. split; [reflexivity|]. split; [constructor|auto].
  - apply G. intros b ->. cbn in *. auto.
  - destruct (obj st i); [|exact Z]. apply G. discriminate.
  - destruct (obj st i); [|exact Z]. destruct (obj st j); [|exact Z]. apply G. discriminate.
  - destruct (obj st i); [|exact Z]. apply G. intros b ->. cbn in *. auto.
Qed.

Lemma step_ok st e : heap_ok st -> valid_args st e -> heap_ok (fst (step st e)).
Proof.
  intros Ho Hv. destruct (target e) as [i|] eqn:Et.
  - assert (P : forall s a, a < length (st_dicts st) -> heap_ok (put st i s a)) by (intros s a Ha; unfold heap_ok, put; cbn; apply Forall_list_set; assumption).
    assert (A : forall o, nth_error (st_objs st) i = Some o -> h_addr o < length (st_dicts st)).
    { intros o K. unfold heap_ok in Ho. rewrite Forall_forall in Ho. apply Ho. eapply nth_error_In; eauto. }
    destruct e; try discriminate; injection Et as ->; cbn [step]; destruct (nth_error (st_objs st) i) as [o|] eqn:En; try exact Ho.
    + apply P, A; reflexivity.
    + apply P, A; reflexivity.
    + destruct (set_cooccurrence_matrix (view st o) m); cbn [fst]; [apply P, A; reflexivity|exact Ho].
    + destruct (add_rows (view st o) m r) as [s out]. cbn [fst]. unfold heap_ok. cbn. apply Forall_list_set.
      * eapply Forall_impl; [|exact Ho]. cbn. intros x Hx. rewrite list_set_length. exact Hx.
      * cbn. rewrite list_set_length. apply A; reflexivity.
  - destruct (step_create st e Ho Hv Et) as (ds & o & -> & F & _). apply heap_ok_grow; assumption.
Qed.
Lemma run_ok es : forall st, heap_ok st -> along valid_args st es -> heap_ok (run st es).
Proof. induction es as [|e es IH]; intros st Ho Hv; cbn in *; [exact Ho|]. destruct Hv as (H1 & H2). apply IH; [apply step_ok; assumption|exact H2]. Qed.

(** ** what a call can change *)
(** Frame: whatever has happened before and however dictionaries are shared, one call leaves every existing space other than the
    one it is made on alone, except that add_rows also changes the row dictionary -- and nothing else -- of the spaces holding
    the very same dictionary object. *)
Theorem C30_frame_partial : forall hist e j s, along valid_args empty (hist ++ [e]) -> let st := run empty hist in
  obj st j = Some s -> target e <> Some j ->
  exists s', obj (fst (step st e)) j = Some s' /\
    s_mat s' = s_mat s /\ s_id2row s' = s_id2row s /\ s_id2col s' = s_id2col s /\ s_col2id s' = s_col2id s /\ s_ops s' = s_ops s /\ s_eshape s' = s_eshape s /\
    (s' = s \/ exists i m r, e = EAdd i m r /\ exists oi oj, nth_error (st_objs st) i = Some oi /\ nth_error (st_objs st) j = Some oj /\ h_addr oi = h_addr oj).
Proof.
  intros hist e j s Hv st Hj Ht.
  assert (HH : heap_ok st /\ valid_args st e).
  { unfold st. assert (H0 : heap_ok empty) by constructor. revert Hv H0. generalize empty. clear. induction hist as [|a h IH]; intros st Hv H0; cbn in *.
    - destruct Hv; auto.
    - destruct Hv as (H1 & H2). apply IH; [exact H2|apply step_ok; assumption]. }
  destruct HH as (Ho & Hve). clear Hv. clearbody st.
  assert (Hlen : j < length (st_objs st)).
  { apply nth_error_Some. unfold obj in Hj. destruct (nth_error (st_objs st) j); [discriminate|discriminate]. }
  destruct (target e) as [i|] eqn:Et.
  - assert (Hij : Nat.eqb i j = false) by (apply Nat.eqb_neq; congruence).
    assert (P : forall x a, obj (put st i x a) j = Some s).
    { intros x a. unfold obj, put. cbn [st_objs]. rewrite nth_error_list_set, Hij. exact Hj. }
    destruct e; try discriminate; injection Et as ->; cbn [step].
    + exists s. destruct (nth_error (st_objs st) i); cbn [fst no_object]; [rewrite P|]; auto 10.
    + exists s. destruct (nth_error (st_objs st) i); cbn [fst no_object]; [rewrite P|]; auto 10.
    + exists s. destruct (nth_error (st_objs st) i) as [o|]; cbn [fst no_object]; [|auto 10]. destruct (set_cooccurrence_matrix (view st o) m); cbn [fst]; [rewrite P|]; auto 10.
    + destruct (nth_error (st_objs st) i) as [o|] eqn:En; cbn [fst no_object]; [|exists s; auto 10].
      destruct (add_rows (view st o) m r) as [s1 out]. cbn [fst]. unfold obj. cbn [st_objs]. rewrite nth_error_list_set, Hij.
      unfold obj in Hj. destruct (nth_error (st_objs st) j) as [oj|] eqn:Ej; [|discriminate]. cbn in *. injection Hj as <-. eexists. split; [reflexivity|].
      unfold view, deref. cbn. repeat (split; [reflexivity|]).
      destruct (Nat.eq_dec (h_addr o) (h_addr oj)) as [Ea|Ea].
      * right. exists i, m, r. split; [reflexivity|]. exists o, oj. auto.
      * left. rewrite nth_list_set by auto. reflexivity.
  - destruct (step_create st e Ho Hve Et) as (ds & o & -> & F & _). exists s. rewrite obj_app by assumption. auto 10.
Qed.

(** If the caller never passes a dictionary that another space already holds, nothing is ever shared and no call changes any
    other space -- for every history of calls. *)
Definition separate (st : store) : Prop := NoDup (map h_addr (st_objs st)).
Lemma map_list_set {A B} (f : A -> B) l : forall i x y, nth_error l i = Some y -> f x = f y -> map f (list_set l i x) = map f l.
Proof. induction l as [|z l IH]; intros [|i] x y H Hf; cbn in *; try discriminate; [injection H as ->; congruence|]. f_equal. eapply IH; eassumption. Qed.
Lemma NoDup_snoc {A} (l : list A) x : NoDup l -> ~ In x l -> NoDup (l ++ [x]).
Proof.
  intros H Hx. induction l as [|y l IH]; [constructor; [intros []|constructor]|]. cbn. inversion H; subst. constructor.
  - rewrite in_app_iff. intros [K|[K|[]]]; [contradiction|]. subst. apply Hx. left; reflexivity.
  - apply IH; [assumption|]. intros K. apply Hx. right; exact K.
Qed.
Lemma step_separate st e : heap_ok st -> separate st -> valid_args st e -> own_dict st e -> separate (fst (step st e)).
Proof.
  intros Ho Hs Hv Hown. unfold separate in *. destruct (target e) as [i|] eqn:Et.
  - destruct e; try discriminate; injection Et as ->; cbn [step]; destruct (nth_error (st_objs st) i) as [o|] eqn:En; try exact Hs.
    + cbn [fst put st_objs]. rewrite (map_list_set h_addr _ _ _ o En); [exact Hs|reflexivity].
    + cbn [fst put st_objs]. rewrite (map_list_set h_addr _ _ _ o En); [exact Hs|reflexivity].
    + destruct (set_cooccurrence_matrix (view st o) m); cbn [fst put st_objs]; [|exact Hs]. rewrite (map_list_set h_addr _ _ _ o En); [exact Hs|reflexivity].
    + destruct (add_rows (view st o) m r) as [s out]. cbn [fst st_objs]. rewrite (map_list_set h_addr _ _ _ o En); [exact Hs|reflexivity].
  - destruct (step_create st e Ho Hv Et) as (ds & o & -> & F & M). cbn [st_objs]. rewrite map_app.
    destruct M as [-> | [-> | (a & -> & Ha & Hn)]].
    + rewrite app_nil_r. exact Hs.
    + apply NoDup_snoc; [exact Hs|]. intros K. apply in_map_iff in K. destruct K as (x & Ex & Hx). unfold heap_ok in Ho. rewrite Forall_forall in Ho. apply Ho in Hx. lia.
    + apply NoDup_snoc; [exact Hs|]. apply Hn, Hown.
Qed.
Theorem C30_separate_partial : forall hist e j s, along valid_args empty (hist ++ [e]) -> along own_dict empty (hist ++ [e]) -> let st := run empty hist in
  obj st j = Some s -> target e <> Some j -> obj (fst (step st e)) j = Some s.
Proof.
  intros hist e j s Hv Hown st Hj Ht.
  destruct (C30_frame_partial hist e j s Hv Hj Ht) as (s' & E1 & A1 & A2 & A3 & A4 & A5 & A6 & C). fold st in E1.
  destruct C as [->|(i & m & r & -> & oi & oj & Hi & Hjj & Ea)]; [exact E1|]. exfalso. apply Ht. cbn. f_equal.
  assert (S : separate st).
  { unfold st. assert (H0 : heap_ok empty) by constructor. assert (S0 : separate empty) by constructor. clear -Hv Hown H0 S0. revert Hv Hown H0 S0. generalize empty. induction hist as [|a h IH]; intros st Hv Hown H0 S0; cbn in *; [exact S0|].
    destruct Hv as (H1 & H2), Hown as (K1 & K2). apply IH; [exact H2|exact K2|apply step_ok; assumption|apply step_separate; assumption]. }
  unfold separate in S. fold st in Hi, Hjj. rewrite NoDup_nth_error in S. apply S.
  - rewrite map_length. apply nth_error_Some. congruence.
  - rewrite !nth_error_map, Hi, Hjj. cbn. congruence.
Qed.

(** ** the claim itself is false *)
(** build_space_batch: two peripheral spaces are built from one raw space, whose dictionary is handed to both; adding a row to the
    first damages the raw space and the second peripheral space *)
Definition batch : list event :=
  [ ENew m22 ["car"; "dog"] ["x"; "y"] None None [] None;          (* 0: core *)
    ENew m22 ["a"; "b"] [] None None [] None;                      (* 1: raw *)
    EPeriph 0 m22 ["a"; "b"] (Some 1);                             (* 2: PeripheralSpace(core, raw.matrix, raw.id2row, raw.row2id) *)
    EPeriph 0 m22 ["a"; "b"] (Some 1) ].                           (* 3 *)
Theorem C30_refuted : exists hist e j s s', along valid_args empty (hist ++ [e]) /\ obj (run empty hist) j = Some s /\ consistent s /\ target e <> Some j /\
  snd (step (run empty hist) e) = Ok tt /\ obj (run empty (hist ++ [e])) j = Some s' /\ ~ consistent s' /\
  (exists w, get_row s w = Err KeyError /\ get_row s' w = Err IndexError).
Proof.
  exists batch, (EAdd 2 m12 ["cow"]), 1. eexists _, _. split; [cbn; repeat split; apply Nat.ltb_lt; reflexivity|]. split; [reflexivity|].
  split; [eapply (mk_space_consistent m22 ["a"; "b"] [] None None [] None); [apply m22_wf|constructor|exact I|exact I|reflexivity]|].
  split; [discriminate|]. split; [reflexivity|]. split; [reflexivity|]. split.
  - intros (_&_&_&(_&L&_)&_). cbn in L. discriminate.
  - exists "cow". split; reflexivity.
Qed.
Example C30_example : exists s, along valid_args empty ([ENew m22 ["car"; "dog"] [] None None [] None; EPeriph 0 m12 ["a"] None] ++ [EAdd 1 m12 ["cow"]]) /\
  along own_dict empty ([ENew m22 ["car"; "dog"] [] None None [] None; EPeriph 0 m12 ["a"] None] ++ [EAdd 1 m12 ["cow"]]) /\
  obj (run empty [ENew m22 ["car"; "dog"] [] None None [] None; EPeriph 0 m12 ["a"] None]) 0 = Some s.
Proof. eexists. split; [cbn; repeat split|]. split; [cbn; repeat split|]. reflexivity. Qed.
End Any.
