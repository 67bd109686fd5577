(** Prop_Stack.v -- C92: stacking any number of spaces does not depend on how the calls are grouped.  For every arithmetic. *)
From Verif Require Import Base PyList Dict Num Dense Sparse Matrix PSparse PMatrix PMatOps Scaling Linalg Operation
  Similarity Space Peripheral SpecSpace PShape PDictList PSpace Prop_Space PVals Prop_Batches.
Section Any.
Context {N : Num} {E : Ext}.
Local Open Scope string_scope.
Local Open Scope list_scope.
Local Open Scope nat_scope.

(** ** specification *)
(** a way of stacking spaces two at a time *)
Inductive grouping := One (s : space) | Two (upper lower : grouping).
Fixpoint in_order (g : grouping) : list space := match g with One s => [s] | Two u l => in_order u ++ in_order l end.
Fixpoint stacked (g : grouping) : res space :=
  match g with One s => Ok s | Two u l => let* a := stacked u in let* b := stacked l in space_vstack a b end.
(** a list of spaces that fit on top of each other: same columns, no word twice *)
Definition fit_together (l : list space) : Prop :=
  (forall a b, In a l -> In b l -> m_nc (s_mat a) = m_nc (s_mat b) /\ s_id2col a = s_id2col b) /\ NoDup (concat (map s_id2row l)).

(** ** proof *)
Fixpoint ent (l : list space) (i j : nat) : F :=
  match l with [] => f0 | s :: r => if i <? m_nr (s_mat s) then ment (s_mat s) i j else ent r (i - m_nr (s_mat s)) j end.
Definition height (l : list space) : nat := list_sum (map (fun s => m_nr (s_mat s)) l).
Lemma ent_app l : forall r i j, ent (l ++ r) i j = if i <? height l then ent l i j else ent r (i - height l) j.
Proof.
  induction l as [|s l IH]; intros r i j; cbn [app ent]; [cbn; rewrite Nat.sub_0_r; reflexivity|].
  unfold height. cbn [map list_sum fold_right]. fold (list_sum (map (fun s => m_nr (s_mat s)) l)). fold (height l). rewrite IH.
  destruct (Nat.ltb_spec i (m_nr (s_mat s))) as [K|K].
  - destruct (Nat.ltb_spec i (m_nr (s_mat s) + height l)); [reflexivity|lia].
  - destruct (Nat.ltb_spec (i - m_nr (s_mat s)) (height l)), (Nat.ltb_spec i (m_nr (s_mat s) + height l)); try lia; [reflexivity|]. f_equal. lia.
Qed.
Lemma height_app l r : height (l ++ r) = height l + height r.
Proof. unfold height. rewrite map_app, list_sum_app. reflexivity. Qed.
(** the space that a list of spaces stacks to *)
Record stack_of (l : list space) (s : space) : Prop := {
  so_good : good s;
  so_rows : s_id2row s = concat (map s_id2row l);
  so_cols : forall a, In a l -> s_id2col s = s_id2col a /\ m_nc (s_mat s) = m_nc (s_mat a);
  so_shape : 2 <= length l -> s_eshape s = [m_nc (s_mat s)] /\ s_ops s = [];
  so_one : forall a, l = [a] -> s = a;
  so_nr : m_nr (s_mat s) = height l;
  so_ent : forall i j, i < height l -> j < m_nc (s_mat s) -> ment (s_mat s) i j = ent l i j }.
Lemma in_order_ne g : in_order g <> [].
Proof. induction g as [s|u IHu l IHl]; cbn; [discriminate|]. intros H. apply app_eq_nil in H. exact (IHu (proj1 H)). Qed.
Lemma stacked_char g : Forall good (in_order g) ->
  (exists s, stacked g = Ok s /\ stack_of (in_order g) s) \/ (stacked g = Err ValueError /\ ~ fit_together (in_order g)).
Proof.
  induction g as [s|u IHu l IHl]; intros G; cbn [in_order stacked] in *.
  - left. exists s. split; [reflexivity|]. inversion G as [|? ? Gs _]; subst. constructor; try assumption.
    + cbn. rewrite app_nil_r. reflexivity.
    + intros a [<-|[]]. auto.
    + cbn. lia.
    + intros a K. injection K as <-. reflexivity.
    + cbn. lia.
    + intros i j Hi Hj. cbn [ent]. cbn in Hi. destruct (Nat.ltb_spec i (m_nr (s_mat s))); [reflexivity|lia].
  - apply Forall_app in G. destruct G as (Gu & Gl).
    assert (F1 : forall p r, fit_together (p ++ r) -> fit_together p /\ fit_together r).
    { intros p r (A & B). rewrite map_app, concat_app in B. apply NoDup_app_parts in B. destruct B as (B1 & B2 & _).
      split; (split; [|assumption]); intros a b Ha Hb; apply A; apply in_app_iff; auto. }
    destruct (IHu Gu) as [(a & Ea & Sa)|(Ea & Fa)]; rewrite Ea; cbn [bind]; [|right; split; [reflexivity|intros K; exact (Fa (proj1 (F1 _ _ K)))]].
    destruct (IHl Gl) as [(b & Eb & Sb)|(Eb & Fb)]; rewrite Eb; cbn [bind]; [|right; split; [reflexivity|intros K; exact (Fb (proj2 (F1 _ _ K)))]].
    destruct (so_good _ _ Sa) as (Ca & Pa), (so_good _ _ Sb) as (Cb & Pb).
    destruct (C04_vstack a b Ca Pa Cb) as (I & Er). destruct (space_vstack a b) as [s|e] eqn:Q.
    + left. exists s. split; [reflexivity|]. destruct (space_vstack_ok _ _ _ Ca Cb Q) as (m&d&Es&Ha&H1&H2&Wm&Dm&Hc).
      assert (Hnr : m_nr m = m_nr (s_mat a) + m_nr (s_mat b)) by (rewrite <- to_dense_nr, Dm; cbn; rewrite !to_dense_nr; reflexivity).
      assert (Hnc : m_nc m = m_nc (s_mat a)) by (rewrite <- to_dense_nc, Dm; cbn; apply to_dense_nc).
      pose proof (vstack_entry a b s Ca Cb Q) as V. rewrite (so_nr _ _ Sa), (so_nr _ _ Sb) in Hnr. rewrite (so_nr _ _ Sa) in V.
      constructor.
      * split; [exact Hc|]. pose proof Ca as (Cm&Cr&Cc&Ci&Cd&_). subst s. unfold positional_rows; cbn.
        destruct (add_items_positional _ _ _ _ _ Cd Pa (mutually_inverse_length _ _ Ci) Ha) as (K&_). exact K.
      * subst s. cbn [s_id2row]. rewrite map_app, concat_app, (so_rows _ _ Sa), (so_rows _ _ Sb). reflexivity.
      * intros x Hx. subst s. cbn [s_id2col s_mat]. rewrite Hnc. apply in_app_iff in Hx. destruct Hx as [Hx|Hx]; [exact (so_cols _ _ Sa x Hx)|].
        rewrite H1, H2. exact (so_cols _ _ Sb x Hx).
      * intros _. subst s. cbn. auto.
      * intros x K. exfalso. pose proof (in_order_ne u) as N1. pose proof (in_order_ne l) as N2. destruct (in_order u) as [|y [|y' u']]; [congruence| |discriminate]. cbn in K. injection K as _ K. exact (N2 K).
      * subst s. cbn [s_mat]. rewrite height_app. exact Hnr.
      * intros i j Hi Hj. rewrite height_app in Hi. rewrite V by (subst s; cbn [s_mat] in *; lia). rewrite ent_app. subst s. cbn [s_mat] in Hj.
        destruct (Nat.ltb_spec i (height (in_order u))); [apply (so_ent _ _ Sa); lia|]. apply (so_ent _ _ Sb); [lia|]. congruence.
    + right. rewrite (Er e eq_refl). split; [reflexivity|]. intros (A & B). enough (exists s : space, Err e = Ok s) by (destruct H; discriminate).
      apply I. pose proof (in_order_ne u) as N1. pose proof (in_order_ne l) as N2. destruct (in_order u) as [|x u'] eqn:Eu; [congruence|]. destruct (in_order l) as [|y l'] eqn:El; [congruence|].
      destruct (so_cols _ _ Sa x (or_introl eq_refl)) as (X1 & X2). destruct (so_cols _ _ Sb y (or_introl eq_refl)) as (Y1 & Y2).
      destruct (A x y) as (Z1 & Z2); [left; reflexivity|apply in_app_iff; right; left; reflexivity|]. split; [congruence|]. split; [congruence|].
      rewrite map_app, concat_app, <- (so_rows _ _ Sa), <- (so_rows _ _ Sb) in B. apply NoDup_app_parts in B. apply B.
Qed.

(** ** C92 *)
(** two groupings of the same spaces in the same order: the same content, or a ValueError in both *)
Theorem C92_grouping : forall g g', in_order g = in_order g' -> Forall (fun s => consistent s /\ positional_rows s) (in_order g) ->
  same_content_outcome (stacked g) (stacked g').
Proof.
  intros g g' H G. pose proof G as G'. rewrite H in G'.
  assert (U : forall l s s', stack_of l s -> stack_of l s' -> l <> [] -> same_content s s' /\ fit_together l).
  { intros l s s' S S' Hl. assert (A : exists a, In a l) by (destruct l as [|a l]; [congruence|]; exists a; left; reflexivity). destruct A as (a & Ha).
    destruct (so_cols _ _ S a Ha) as (X1 & X2). destruct (so_cols _ _ S' a Ha) as (Y1 & Y2). pose proof (so_nr _ _ S) as N1. pose proof (so_nr _ _ S') as N2.
    assert (D : fit_together l).
    { split; [|rewrite <- (so_rows _ _ S); apply (positional_NoDup _ _ (proj2 (so_good _ _ S)))]. intros x y Hx Hy. destruct (so_cols _ _ S x Hx), (so_cols _ _ S y Hy). split; congruence. }
    split; [|exact D]. destruct l as [|b [|b' l]]; [congruence| |].
    - rewrite (so_one _ _ S b eq_refl), (so_one _ _ S' b eq_refl). constructor; reflexivity.
    - destruct (so_shape _ _ S) as (P1 & P2); [cbn; lia|]. destruct (so_shape _ _ S') as (Q1 & Q2); [cbn; lia|]. constructor; try congruence.
      + rewrite (so_rows _ _ S), (so_rows _ _ S'). reflexivity.
      + intros i j Hi Hj. rewrite (so_ent _ _ S), (so_ent _ _ S') by (rewrite ?X2, ?Y2 in *; lia). reflexivity. }
  destruct (stacked_char g G) as [(s & Es & S)|(Es & K)], (stacked_char g' G') as [(s' & Es' & S')|(Es' & K')]; rewrite Es, Es'; cbn [same_content_outcome]; rewrite <- H in *.
  - exact (proj1 (U _ _ _ S S' (in_order_ne g))).
  - exact (K' (proj2 (U _ _ _ S S (in_order_ne g)))).
  - exact (K (proj2 (U _ _ _ S' S' (in_order_ne g)))).
  - reflexivity.
Qed.
(** stacking succeeds exactly for spaces with the same columns and no word in common *)
Theorem C92_possible : forall g, Forall (fun s => consistent s /\ positional_rows s) (in_order g) -> ((exists s, stacked g = Ok s) <-> fit_together (in_order g)).
Proof.
  intros g G. destruct (stacked_char g G) as [(s & Es & S)|(Es & K)]; rewrite Es.
  - split; [intros _|eauto]. split; [|rewrite <- (so_rows _ _ S); apply (positional_NoDup _ _ (proj2 (so_good _ _ S)))].
    intros x y Hx Hy. destruct (so_cols _ _ S x Hx), (so_cols _ _ S y Hy). split; congruence.
  - split; [intros (s & X); discriminate|intros X; contradiction].
Qed.
(** every word has the vector it had *)
Theorem C92_vectors : forall g s a w v, Forall (fun s => consistent s /\ positional_rows s) (in_order g) -> stacked g = Ok s -> In a (in_order g) -> get_row a w = Ok v ->
  exists v', get_row s w = Ok v' /\ m_nc v' = m_nc v /\ forall j, j < m_nc v -> ment v' 0 j = ment v 0 j.
Proof.
  induction g as [x|u IHu l IHl]; intros s a w v G H Ha Hv; cbn [in_order stacked] in *.
  - destruct Ha as [<-|[]]. injection H as <-. eauto.
  - apply Forall_app in G. destruct G as (Gu & Gl). apply bind_ok in H. destruct H as (p & Ep & H). apply bind_ok in H. destruct H as (q & Eq & H).
    assert (Cp : consistent p) by (destruct (stacked_char u Gu) as [(s0 & E0 & S0)|(E0 & _)]; [|congruence]; assert (s0 = p) by congruence; subst s0; apply (so_good _ _ S0)).
    assert (Cq : consistent q) by (destruct (stacked_char l Gl) as [(s0 & E0 & S0)|(E0 & _)]; [|congruence]; assert (s0 = q) by congruence; subst s0; apply (so_good _ _ S0)).
    destruct (C04_vstack_vectors p q s Cp Cq H) as (_&_&_&_&_&_&V1&V2). apply in_app_iff in Ha. destruct Ha as [Ha|Ha].
    + destruct (IHu p a w v Gu Ep Ha Hv) as (v1 & E1 & N1 & X1). destruct (V1 w v1 E1) as (v' & E2 & N2 & X2). exists v'. split; [exact E2|]. split; [congruence|]. intros j Hj. rewrite X2, X1 by congruence. reflexivity.
    + destruct (IHl q a w v Gl Eq Ha Hv) as (v1 & E1 & N1 & X1). destruct (V2 w v1 E1) as (v' & E2 & N2 & X2). exists v'. split; [exact E2|]. split; [congruence|]. intros j Hj. rewrite X2, X1 by congruence. reflexivity.
Qed.

(** ** a concrete case: two dense spaces and a sparse one *)
Definition sp_pen : space := SP (conv TSparse m12) ["pen"] ["x"; "y"] [("pen", 0%Z)] [("x", 0%Z); ("y", 1%Z)] [] [2].
Example C92_example : let g := Two (Two (One sp_dog) (One sp_pen)) (One sp_cow) in let g' := Two (One sp_dog) (Two (One sp_pen) (One sp_cow)) in
  in_order g = in_order g' /\ Forall (fun s => consistent s /\ positional_rows s) (in_order g) /\
  (exists s s', stacked g = Ok s /\ stacked g' = Ok s' /\ same_content s s' /\ s_id2row s = ["car"; "dog"; "pen"; "cow"]) /\
  stacked (Two g (One sp_dog)) = Err ValueError.
Proof.
  assert (A : Forall good [sp_dog; sp_pen; sp_cow]).
  { constructor; [|constructor; [|constructor; [|constructor]]].
    - apply reachable_good. eapply (R_new _ m22 ["car"; "dog"] ["x"; "y"] None None [] None); [apply m22_wf|constructor|exact I|exact I|exact I|reflexivity].
    - apply reachable_good. eapply (R_new _ (conv TSparse m12) ["pen"] ["x"; "y"] None None [] None); [apply conv_wf, m12_wf|constructor|exact I|exact I|exact I|reflexivity].
    - apply reachable_good. eapply (R_new _ m12 ["cow"] ["x"; "y"] None None [] None); [apply m12_wf|constructor|exact I|exact I|exact I|reflexivity]. }
  cbv zeta. split; [reflexivity|]. split; [exact A|].
  set (g := Two (Two (One sp_dog) (One sp_pen)) (One sp_cow)). set (g' := Two (One sp_dog) (Two (One sp_pen) (One sp_cow))).
  assert (W : fit_together [sp_dog; sp_pen; sp_cow]).
  { split; [intros a b [<-|[<-|[<-|[]]]] [<-|[<-|[<-|[]]]]; split; reflexivity|]. cbn. repeat constructor; cbn; intuition discriminate. }
  destruct (stacked_char g A) as [(s & Es & S)|(_ & K)]; [|exfalso; exact (K W)]. destruct (stacked_char g' A) as [(s' & Es' & S')|(_ & K)]; [|exfalso; exact (K W)].
  split.
  - exists s, s'. split; [exact Es|]. split; [exact Es'|]. split; [|exact (so_rows _ _ S)]. pose proof (C92_grouping g g' eq_refl A) as X. rewrite Es, Es' in X. exact X.
  - destruct (stacked_char (Two g (One sp_dog))) as [(s0 & E0 & S0)|(E0 & _)]; [apply Forall_app; split; [exact A|inversion A; constructor; [assumption|constructor]]| |exact E0].
    exfalso. pose proof (so_rows _ _ S0) as R0. pose proof (positional_NoDup _ _ (proj2 (so_good _ _ S0))) as Nd. rewrite R0 in Nd. cbn in Nd. inversion Nd as [|? ? K _]. apply K. cbn. auto.
Qed.
End Any.
