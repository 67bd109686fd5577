(** Prop_Order.v -- property C72: the order of the rows and the representation of the matrix do not matter. *)
From Coq Require Import Reals Lra Psatz Permutation Sorted.
From Verif Require Import Base PyList Dict Num SpecReal Dense Sparse Matrix PSparse PMatrix PMatOps PShape PVals PReal PPos PSort Scaling Linalg Operation
  Similarity Space Peripheral SpecSpace PDictList PSpace Prop_Space Prop_Scaling Prop_Sim Prop_Neigh PMoved Prop_Periph PCols.
#[local] Existing Instance RNum.
Open Scope R_scope.
Open Scope nat_scope.
Section WithExt.
Context {E : @Ext RNum}.

(** ** specification: the two spaces hold the same vectors under the same words, with the same columns and history; the rows
    may be in any order, and each matrix may be dense or sparse *)
Record same_vectors (s1 s2 : space) : Prop := {
  sv_ok1 : consistent s1;
  sv_ok2 : consistent s2;
  sv_words : forall w, In w (s_id2row s1) <-> In w (s_id2row s2);
  sv_width : m_nc (s_mat s2) = m_nc (s_mat s1);
  sv_cols : s_id2col s2 = s_id2col s1;
  sv_shape : s_eshape s2 = s_eshape s1;
  sv_ops : s_ops s2 = s_ops s1;
  sv_entry : forall w p q j, nth_error (s_id2row s1) p = Some w -> nth_error (s_id2row s2) q = Some w -> j < m_nc (s_mat s1) ->
     ment (s_mat s2) q j = ment (s_mat s1) p j }.
(** the same exception, or results that hold the same vectors *)
Definition same_outcome (x y : res space) : Prop :=
  match x, y with Ok a, Ok b => same_vectors a b | Err e, Err e' => e = e' | _, _ => False end.

(** ** from words to row numbers *)
Fixpoint position (w : string) (l : list string) : nat :=
  match l with [] => 0 | x :: l => if String.eqb w x then 0 else S (position w l) end.
Lemma position_ok w l : In w l -> nth_error l (position w l) = Some w.
Proof.
  induction l as [|x l IH]; cbn; [contradiction|]. intros H. destruct (String.eqb_spec w x) as [->|Hn]; [reflexivity|]. cbn. apply IH. destruct H; [congruence|assumption].
Qed.
Lemma nth_error_lt {A} (l : list A) i x : nth_error l i = Some x -> i < length l.
Proof. intros H. apply nth_error_Some. congruence. Qed.
Lemma same_words_length (l l' : list string) : NoDup l -> NoDup l' -> (forall w, In w l <-> In w l') -> length l' = length l.
Proof. intros H H' K. apply Nat.le_antisymm; apply NoDup_incl_length; try assumption; intros w; apply K. Qed.

Lemma same_moved s1 s2 : same_vectors s1 s2 -> exists p, moved p (s_mat s1) (s_mat s2) /\
  forall i, i < m_nr (s_mat s1) -> nth_error (s_id2row s2) (p i) = nth_error (s_id2row s1) i.
Proof.
  intros H. pose proof (sv_ok1 _ _ H) as (W1&L1&_&(N1&_)&_). pose proof (sv_ok2 _ _ H) as (W2&L2&_&(N2&_)&_).
  pose proof (same_words_length _ _ N1 N2 (sv_words _ _ H)) as HL.
  set (p := fun i => position (nth i (s_id2row s1) EmptyString) (s_id2row s2)). exists p.
  assert (K : forall i, i < m_nr (s_mat s1) -> nth_error (s_id2row s2) (p i) = nth_error (s_id2row s1) i).
  { intros i Hi. unfold p. rewrite position_ok; [symmetry; apply nth_error_nth'; congruence|]. apply (sv_words _ _ H), nth_In. congruence. }
  assert (K1 : forall i, i < m_nr (s_mat s1) -> exists w, nth_error (s_id2row s1) i = Some w).
  { intros i Hi. destruct (nth_error (s_id2row s1) i) eqn:E0; [eauto|]. apply nth_error_None in E0. lia. }
  split; [|exact K]. split; try assumption; [lia|apply H| | |].
  - intros i Hi. destruct (K1 i Hi) as (w & Hw). specialize (K i Hi). rewrite Hw in K. apply nth_error_lt in K. lia.
  - intros i k Hi Hk Hp. apply (proj1 (NoDup_nth_error (s_id2row s1)) N1); [lia|]. rewrite <- (K i Hi), <- (K k Hk), Hp. reflexivity.
  - intros i j Hi Hj. destruct (K1 i Hi) as (w & Hw). apply (sv_entry _ _ H w); [exact Hw|rewrite K; assumption|exact Hj].
Qed.
Lemma moved_same s1 s2 p : consistent s1 -> consistent s2 -> moved p (s_mat s1) (s_mat s2) ->
  (forall i, i < m_nr (s_mat s1) -> nth_error (s_id2row s2) (p i) = nth_error (s_id2row s1) i) ->
  s_id2col s2 = s_id2col s1 -> s_eshape s2 = s_eshape s1 -> s_ops s2 = s_ops s1 -> same_vectors s1 s2.
Proof.
  intros C1 C2 M K Hc He Ho. pose proof C1 as (W1&L1&_&(N1&_)&_). pose proof C2 as (W2&L2&_&(N2&_)&_).
  split; try assumption; [|apply M|].
  - intros w. split; intros Hw; apply In_nth_error in Hw; destruct Hw as (i & Hi).
    + pose proof (nth_error_lt _ _ _ Hi) as Hl. apply nth_error_In with (p i). rewrite K by congruence. exact Hi.
    + pose proof (nth_error_lt _ _ _ Hi) as Hl. rewrite L2, (mv_nr _ _ _ M) in Hl.
      destruct (inj_surj _ p (mv_lt _ _ _ M) (mv_inj _ _ _ M) i Hl) as (k & Hk & <-). rewrite K in Hi by exact Hk. apply nth_error_In in Hi. exact Hi.
  - intros w i q j Hi Hq Hj. pose proof (nth_error_lt _ _ _ Hi) as Hl. rewrite L1 in Hl.
    assert (q = p i) as ->; [|apply M; assumption].
    apply (proj1 (NoDup_nth_error (s_id2row s2)) N2); [exact (nth_error_lt _ _ _ Hq)|]. rewrite K by exact Hl. congruence.
Qed.

(** ** apply *)
Definition column_free (t : transformation) : Prop := match t with TDim _ _ => False | _ => True end.
Theorem C72_apply : forall s1 s2 t, same_vectors s1 s2 -> tr_ok t -> column_free t -> same_outcome (space_apply s1 t) (space_apply s2 t).
Proof.
  intros s1 s2 t H Ht Hf. destruct (same_moved _ _ H) as (p & M & K).
  pose proof (sv_ok1 _ _ H) as C1. pose proof (sv_ok2 _ _ H) as C2.
  pose proof C1 as (W1&L1&Q1&I1&D1&J1&F1&_). pose proof C2 as (W2&L2&Q2&I2&D2&J2&F2&_).
  assert (OK : same_outcome (space_apply s1 t) (space_apply s2 t) \/
    exists m1 m2 s1' s2', space_apply s1 t = Ok s1' /\ space_apply s2 t = Ok s2' /\ s_mat s1' = m1 /\ s_mat s2' = m2 /\ moved p m1 m2 /\ m_nr m1 = m_nr (s_mat s1) /\
      s_id2col s2' = s_id2col s1' /\ s_ops s2' = s_ops s1').
  { destruct t as [sc|d k|c k]; [|contradiction|].
    - pose proof (moved_scaling p sc _ _ None M) as S. pose proof (moved_stats p sc _ _ M) as St.
      destruct (scaling_apply sc (s_mat s1) None) as [a|e] eqn:Ea, (scaling_apply sc (s_mat s2) None) as [b|e'] eqn:Eb; cbn [rmoved] in S; try contradiction.
      + right. pose proof (scaling_has _ _ _ _ _ _ _ (has_self _ W1) Ea) as (Wa&_&Ra&Ca). pose proof (scaling_has _ _ _ _ _ _ _ (has_self _ W2) Eb) as (Wb&_&Rb&Cb).
        assert (X1 : exists s', space_apply s1 (TScale sc) = Ok s').
        { unfold space_apply. cbn [create_operation op_apply]. rewrite Ea. cbn [bind]. apply mk_space_total; try assumption; try (apply I1); try (apply J1); try exact I; [congruence|rewrite Ca; exact Q1|auto|auto]. }
        assert (X2 : exists s', space_apply s2 (TScale sc) = Ok s').
        { unfold space_apply. cbn [create_operation op_apply]. rewrite Eb. cbn [bind]. apply mk_space_total; try assumption; try (apply I2); try (apply J2); try exact I; [congruence|rewrite Cb; exact Q2|auto|auto]. }
        destruct X1 as (s1' & X1), X2 as (s2' & X2).
        destruct (space_apply_ok _ _ _ C1 Ht X1) as (m1&o1&o01&ic1&ci1&Ho1&E1&Eo1&(-> & ->)&_). destruct (space_apply_ok _ _ _ C2 Ht X2) as (m2&o2&o02&ic2&ci2&Ho2&E2&Eo2&(-> & ->)&_).
        cbn [create_operation op_apply] in Ho1, Ho2. rewrite Ea in Ho1. rewrite Eb in Ho2. cbn [bind] in Ho1, Ho2. rewrite St in Ho2.
        assert (a = m1) as <- by congruence. assert (b = m2) as <- by congruence. exists a, b, s1', s2'.
        split; [exact X1|]. split; [exact X2|]. rewrite E1, E2. cbn [s_mat s_id2col s_ops]. do 2 (split; [reflexivity|]). split; [exact S|]. split; [exact Ra|]. split; [apply H|].
        rewrite (sv_ops _ _ H). f_equal. f_equal. rewrite Eo1, Eo2. congruence.
      + left. unfold space_apply. cbn [create_operation op_apply]. rewrite Ea, Eb. cbn [bind same_outcome]. exact S.
    - pose proof (moved_topfs p c k _ _ M) as S. cbn in Ht.
      destruct (C20_selection c k (s_mat s1) W1 Ht) as (a & l & Ea & _ & Wa & _ & Ra & Ca & _).
      destruct (C20_selection c k (s_mat s2) W2 Ht) as (b & l2 & Eb & _ & Wb & _ & Rb & Cb & _).
      rewrite Ea, Eb in S. destruct S as (S & ->).
      assert (A : assert_1dim_element s2 = assert_1dim_element s1) by (unfold assert_1dim_element; rewrite (sv_shape _ _ H); reflexivity).
      destruct (assert_1dim_element s1) as [[]|e] eqn:A1.
      2: { left. unfold space_apply. cbn [create_operation op_apply]. rewrite Ea, Eb. cbn [bind]. rewrite A, A1. reflexivity. }
      destruct (s_id2col s1) as [|c0 cs] eqn:Ec.
      + right.
        assert (X1 : exists s', space_apply s1 (TFS c k) = Ok s').
        { unfold space_apply. cbn [create_operation op_apply]. rewrite Ea. cbn [bind]. rewrite A1, Ec. cbn [bind]. apply mk_space_total; [apply I1|constructor|congruence|auto|auto|split; [constructor|apply mutually_inverse_nil]|exact I]. }
        assert (X2 : exists s', space_apply s2 (TFS c k) = Ok s').
        { unfold space_apply. cbn [create_operation op_apply]. rewrite Eb. cbn [bind]. rewrite A, (sv_cols _ _ H), Ec. cbn [bind]. apply mk_space_total; [apply I2|constructor|congruence|auto|auto|split; [constructor|apply mutually_inverse_nil]|exact I]. }
        destruct X1 as (s1' & X1), X2 as (s2' & X2). exists a, b, s1', s2'. split; [exact X1|]. split; [exact X2|].
        unfold space_apply in X1, X2. cbn [create_operation op_apply] in X1, X2. rewrite Ea in X1. rewrite Eb in X2. cbn [bind] in X1, X2. rewrite A1, Ec in X1. rewrite A, (sv_cols _ _ H), Ec in X2. cbn [bind] in X1, X2.
        apply mk_space_fields in X1, X2. destruct X1 as (-> & _ & -> & -> & _), X2 as (-> & _ & -> & -> & _). do 2 (split; [reflexivity|]). split; [exact S|]. split; [exact Ra|]. split; [reflexivity|].
        rewrite (sv_ops _ _ H). reflexivity.
      + destruct (select_labels (s_id2col s1) l) as [ic|e] eqn:Es.
        2: { left. unfold space_apply. cbn [create_operation op_apply]. rewrite Ea, Eb. cbn [bind]. rewrite A, A1, (sv_cols _ _ H), Ec. cbn [bind]. rewrite <- Ec, Es. reflexivity. }
        destruct (list2dict ic) as [dc|e] eqn:Ed.
        2: { left. unfold space_apply. cbn [create_operation op_apply]. rewrite Ea, Eb. cbn [bind]. rewrite A, A1, (sv_cols _ _ H), Ec. cbn [bind]. rewrite <- Ec, Es. cbn [bind]. rewrite Ed. reflexivity. }
        right. destruct (list2dict_inverse _ _ Ed) as (Id & Wd & _). destruct (select_labels_ok _ _ _ Es) as (Ls & _).
        assert (X1 : exists s', space_apply s1 (TFS c k) = Ok s').
        { unfold space_apply. cbn [create_operation op_apply]. rewrite Ea. cbn [bind]. rewrite A1, Ec. cbn [bind]. rewrite <- Ec, Es. cbn [bind]. rewrite Ed. cbn [bind]. apply mk_space_total; [apply I1|apply Id|congruence|right; congruence|auto|auto|exact I]. }
        assert (X2 : exists s', space_apply s2 (TFS c k) = Ok s').
        { unfold space_apply. cbn [create_operation op_apply]. rewrite Eb. cbn [bind]. rewrite A, (sv_cols _ _ H), Ec. cbn [bind]. rewrite <- Ec, Es. cbn [bind]. rewrite Ed. cbn [bind]. apply mk_space_total; [apply I2|apply Id|congruence|right; congruence|auto|auto|exact I]. }
        destruct X1 as (s1' & X1), X2 as (s2' & X2). exists a, b, s1', s2'. split; [exact X1|]. split; [exact X2|].
        unfold space_apply in X1, X2. cbn [create_operation op_apply] in X1, X2. rewrite Ea in X1. rewrite Eb in X2. cbn [bind] in X1, X2. rewrite A1, Ec in X1. rewrite A, (sv_cols _ _ H), Ec in X2. cbn [bind] in X1, X2.
        rewrite <- Ec, Es in X1, X2. cbn [bind] in X1, X2. rewrite Ed in X1, X2. cbn [bind] in X1, X2.
        apply mk_space_fields in X1, X2. destruct X1 as (-> & _ & -> & -> & _), X2 as (-> & _ & -> & -> & _). do 2 (split; [reflexivity|]). split; [exact S|]. split; [exact Ra|]. split; [reflexivity|].
        rewrite (sv_ops _ _ H). reflexivity. }
  destruct OK as [OK|(m1&m2&s1'&s2'&X1&X2&M1&M2&Mv&Rm&Hc&Ho)]; [exact OK|]. rewrite X1, X2. cbn [same_outcome].
  destruct (space_apply_ok _ _ _ C1 Ht X1) as (z1&o1&o01&ic1&ci1&Ho1&E1&Eo1&_&_&_&C1'). destruct (space_apply_ok _ _ _ C2 Ht X2) as (z2&o2&o02&ic2&ci2&Ho2&E2&Eo2&_&_&_&C2').
  assert (z1 = m1) by (rewrite E1 in M1; exact M1). assert (z2 = m2) by (rewrite E2 in M2; exact M2). subst z1 z2.
  apply (moved_same s1' s2' p); try assumption.
  - rewrite M1, M2. exact Mv.
  - rewrite M1, Rm. intros i Hi. rewrite E1, E2. cbn [s_id2row]. apply K, Hi.
  - rewrite E1, E2. cbn [s_eshape]. f_equal. apply Mv.
Qed.

Theorem C72_apply_all : forall ts s1 s2, same_vectors s1 s2 -> Forall tr_ok ts -> Forall column_free ts -> same_outcome (apply_all s1 ts) (apply_all s2 ts).
Proof.
  induction ts as [|t ts IH]; intros s1 s2 H Ht Hf; cbn [apply_all]; [exact H|].
  inversion Ht; subst. inversion Hf; subst. pose proof (C72_apply s1 s2 t H ltac:(assumption) ltac:(assumption)) as K.
  destruct (space_apply s1 t), (space_apply s2 t); cbn [same_outcome bind] in *; try contradiction; [apply IH; assumption|exact K].
Qed.

(** ** similarities and neighbours *)
Definition same_vectors_opt (o1 o2 : option space) : Prop :=
  match o1, o2 with None, None => True | Some a, Some b => same_vectors a b | _, _ => False end.
Lemma same_searched s1 s2 o1 o2 : same_vectors s1 s2 -> same_vectors_opt o1 o2 -> same_vectors (searched s1 o1) (searched s2 o2).
Proof. intros H K. destruct o1, o2; cbn in *; try contradiction; assumption. Qed.
Lemma same_row s1 s2 w p : same_vectors s1 s2 -> nth_error (s_id2row s1) p = Some w -> exists q, nth_error (s_id2row s2) q = Some w /\
  forall j, j < m_nc (s_mat s1) -> ment (s_mat s2) q j = ment (s_mat s1) p j.
Proof.
  intros H Hp. assert (I : In w (s_id2row s2)) by (apply (sv_words _ _ H); apply nth_error_In in Hp; exact Hp).
  apply In_nth_error in I. destruct I as (q & Hq). exists q. split; [exact Hq|]. intros j Hj. apply (sv_entry _ _ H w); assumption.
Qed.

Theorem C72_get_sim : forall s1 s2 o1 o2 w1 w2 sim, same_vectors s1 s2 -> same_vectors_opt o1 o2 ->
  get_sim s2 w1 w2 sim o2 = get_sim s1 w1 w2 sim o1.
Proof.
  intros s1 s2 o1 o2 w1 w2 sim H K. pose proof (same_searched _ _ _ _ H K) as KS.
  pose proof (sv_ok1 _ _ H) as C1. pose proof (sv_ok2 _ _ H) as C2. pose proof (sv_ok1 _ _ KS) as D1. pose proof (sv_ok2 _ _ KS) as D2.
  destruct (in_dec string_dec w1 (s_id2row s1)) as [I1|I1].
  2: { rewrite !C10_get_sim_missing; auto. left. intros X. apply I1, (sv_words _ _ H), X. }
  destruct (in_dec string_dec w2 (s_id2row (searched s1 o1))) as [I2|I2].
  2: { rewrite !C10_get_sim_missing; auto. right. intros X. apply I2, (sv_words _ _ KS), X. }
  destruct (Nat.eq_dec (m_nc (s_mat s1)) (m_nc (s_mat (searched s1 o1)))) as [En|En].
  - apply In_nth_error in I1, I2. destruct I1 as (p & Hp), I2 as (q & Hq).
    destruct (same_row _ _ _ _ H Hp) as (p' & Hp' & Ep). destruct (same_row _ _ _ _ KS Hq) as (q' & Hq' & Eq).
    rewrite (C10_get_sim_present s1 w1 w2 sim o1 p q) by assumption.
    rewrite (C10_get_sim_present s2 w1 w2 sim o2 p' q'); try assumption; [|rewrite (sv_width _ _ H), (sv_width _ _ KS); exact En].
    f_equal. rewrite (sv_width _ _ H). apply sim_spec_ext; intros j Hj; [apply Ep, Hj|apply Eq; rewrite <- En; exact Hj].
  - rewrite !C10_get_sim_mismatch; auto; [apply (sv_words _ _ H), I1|apply (sv_words _ _ KS), I2|rewrite (sv_width _ _ H), (sv_width _ _ KS); exact En].
Qed.
Theorem C72_get_sims : forall s1 s2 o1 o2 pairs sim, same_vectors s1 s2 -> same_vectors_opt o1 o2 ->
  get_sims s2 pairs sim o2 = get_sims s1 pairs sim o1.
Proof.
  intros s1 s2 o1 o2 pairs sim H K. unfold get_sims. induction pairs as [|[a b] ps IH]; cbn [mapM fst snd]; [reflexivity|].
  rewrite (C72_get_sim _ _ _ _ a b sim H K), IH. reflexivity.
Qed.

(** two rankings of the same words: neither is ahead of the other at any position *)
Lemma ranking_unique {A} (dec : forall x y : A, {x = y} + {x <> y}) (lt : A -> A -> Prop) (l1 l2 : list A) a x1 x2 :
  (forall x, ~ lt x x) -> (forall x y z, lt x y -> lt x z \/ lt z y) -> NoDup l1 ->
  (forall i j x y, i < j -> nth_error l1 i = Some x -> nth_error l1 j = Some y -> ~ lt y x) ->
  (forall i j x y, i < j -> nth_error l2 i = Some x -> nth_error l2 j = Some y -> ~ lt y x) ->
  (forall x y, In x l1 -> ~ In x l2 -> In y l2 -> ~ lt x y) ->
  nth_error l1 a = Some x1 -> nth_error l2 a = Some x2 -> ~ lt x1 x2.
Proof.
  intros Irr Neg N1 S1 S2 Om H1 H2 L.
  assert (Inc : incl (firstn (S a) l1) (firstn a l2)).
  { intros z Hz. apply In_nth_error in Hz. destruct Hz as (i & Hi).
    assert (Hia : i < S a) by (pose proof (nth_error_lt _ _ _ Hi) as Q; rewrite firstn_length in Q; lia).
    assert (Hi' : nth_error l1 i = Some z) by (rewrite <- (firstn_skipn (S a) l1); rewrite nth_error_app1 by exact (nth_error_lt _ _ _ Hi); exact Hi).
    assert (Lz : lt z x2).
    { destruct (Nat.eq_dec i a) as [->|Hne]; [congruence|]. destruct (Neg x1 x2 z L) as [Q|Q]; [|exact Q]. exfalso. apply (S1 i a z x1); [lia|assumption..]. }
    assert (I2 : exists b, nth_error l2 b = Some z).
    { destruct (in_dec dec z l2) as [D|D]; [apply In_nth_error, D|].
      exfalso. apply (Om z x2); [apply nth_error_In in Hi'; exact Hi'|exact D|apply nth_error_In in H2; exact H2|exact Lz]. }
    destruct I2 as (b & Hb). destruct (Nat.lt_trichotomy b a) as [Hba|[->|Hba]].
    - apply nth_error_In with b. rewrite <- (firstn_skipn a l2) in Hb. rewrite nth_error_app1 in Hb; [exact Hb|]. rewrite firstn_length. pose proof (nth_error_lt _ _ _ H2). lia.
    - exfalso. apply (Irr x2). congruence.
    - exfalso. apply (S2 a b x2 z Hba H2 Hb Lz). }
  assert (Nd : NoDup (firstn (S a) l1)) by (rewrite <- (firstn_skipn (S a) l1) in N1; apply NoDup_app_l in N1; exact N1).
  pose proof (NoDup_incl_length Nd Inc) as Q. rewrite !firstn_length in Q. pose proof (nth_error_lt _ _ _ H1). lia.
Qed.

(** neither of two rankings by the same scores is ahead of the other *)
Lemma top_k_nth rows score k l a x c : top_k rows score k l -> nth_error l a = Some (x, c) -> exists q, nth_error rows q = Some x /\ c = score q.
Proof. intros H Ha. apply nth_error_In in Ha. exact (tk_score _ _ _ _ H x c Ha). Qed.
Lemma map_nth_some {A B} (f : A -> B) l a y : nth_error (map f l) a = Some y -> exists x, nth_error l a = Some x /\ y = f x.
Proof. rewrite nth_error_map. destruct (nth_error l a); cbn; intros Hy; [injection Hy as <-; eauto|discriminate]. Qed.

Section Rank.
Variables (r1 r2 : list string) (sc1 sc2 : nat -> R) (k1 k2 : nat) (l1 l2 : list (string * R)).
Hypothesis T1 : top_k r1 sc1 k1 l1.
Hypothesis T2 : top_k r2 sc2 k2 l2.
Hypothesis N1 : NoDup r1.
Hypothesis N2 : NoDup r2.
Hypothesis W : forall w, In w r1 <-> In w r2.
Hypothesis S : forall w p q, nth_error r1 p = Some w -> nth_error r2 q = Some w -> sc1 p = sc2 q.
Let score (w : string) : R := sc1 (position w r1).
Lemma score_1 w q : nth_error r1 q = Some w -> score w = sc1 q.
Proof.
  intros Hq. unfold score. f_equal. apply (proj1 (NoDup_nth_error r1) N1).
  - apply nth_error_Some. rewrite position_ok by (apply nth_error_In in Hq; exact Hq). discriminate.
  - rewrite position_ok by (apply nth_error_In in Hq; exact Hq). congruence.
Qed.
Lemma score_2 w q : nth_error r2 q = Some w -> score w = sc2 q.
Proof.
  intros Hq. assert (I1 : In w r1) by (apply W; apply nth_error_In in Hq; exact Hq). apply (S w); [apply position_ok, I1|exact Hq].
Qed.
Lemma scores_1 a x c : nth_error l1 a = Some (x, c) -> c = score x.
Proof. intros Ha. destruct (top_k_nth _ _ _ _ _ _ _ T1 Ha) as (q & Hq & ->). symmetry. apply score_1, Hq. Qed.
Lemma scores_2 a x c : nth_error l2 a = Some (x, c) -> c = score x.
Proof. intros Ha. destruct (top_k_nth _ _ _ _ _ _ _ T2 Ha) as (q & Hq & ->). symmetry. apply score_2, Hq. Qed.
Lemma rank_le a x c y d : nth_error l1 a = Some (x, c) -> nth_error l2 a = Some (y, d) -> c = d.
Proof.
  intros Ha Hb. rewrite (scores_1 _ _ _ Ha), (scores_2 _ _ _ Hb).
  assert (M1 : nth_error (map fst l1) a = Some x) by (rewrite nth_error_map, Ha; reflexivity).
  assert (M2 : nth_error (map fst l2) a = Some y) by (rewrite nth_error_map, Hb; reflexivity).
  assert (O1 : forall i j u v, i < j -> nth_error (map fst l1) i = Some u -> nth_error (map fst l1) j = Some v -> ~ (score u < score v)%R).
  { intros i j u v Hij Hu Hv. apply map_nth_some in Hu, Hv. destruct Hu as ([u' cu] & Hu & ->), Hv as ([v' cv] & Hv & ->). cbn [fst].
    rewrite <- (scores_1 _ _ _ Hu), <- (scores_1 _ _ _ Hv). pose proof (proj1 (tk_order _ _ _ _ T1 i j _ _ _ _ Hij Hu Hv)). lra. }
  assert (O2 : forall i j u v, i < j -> nth_error (map fst l2) i = Some u -> nth_error (map fst l2) j = Some v -> ~ (score u < score v)%R).
  { intros i j u v Hij Hu Hv. apply map_nth_some in Hu, Hv. destruct Hu as ([u' cu] & Hu & ->), Hv as ([v' cv] & Hv & ->). cbn [fst].
    rewrite <- (scores_2 _ _ _ Hu), <- (scores_2 _ _ _ Hv). pose proof (proj1 (tk_order _ _ _ _ T2 i j _ _ _ _ Hij Hu Hv)). lra. }
  assert (Q1 : forall u v, In u (map fst l1) -> ~ In u (map fst l2) -> In v (map fst l2) -> ~ (score v < score u)%R).
  { intros u v Hu Hn Hv. apply in_map_iff in Hv. destruct Hv as ([v' cv] & <- & Hv). cbn [fst].
    apply in_map_iff in Hu. destruct Hu as ([u' cu] & <- & Hu). cbn [fst] in *. destruct (tk_score _ _ _ _ T1 _ _ Hu) as (q & Hq & ->).
    assert (I2 : In u' r2) by (apply W; apply nth_error_In in Hq; exact Hq). apply In_nth_error in I2. destruct I2 as (q2 & Hq2).
    pose proof (proj1 (tk_omitted _ _ _ _ T2 q2 u' v' cv Hq2 Hn Hv)) as K. rewrite (score_2 _ _ Hq2). apply In_nth_error in Hv. destruct Hv as (b & Hv). rewrite <- (scores_2 _ _ _ Hv). lra. }
  assert (Q2 : forall u v, In u (map fst l2) -> ~ In u (map fst l1) -> In v (map fst l1) -> ~ (score v < score u)%R).
  { intros u v Hu Hn Hv. apply in_map_iff in Hv. destruct Hv as ([v' cv] & <- & Hv). cbn [fst].
    apply in_map_iff in Hu. destruct Hu as ([u' cu] & <- & Hu). cbn [fst] in *. destruct (tk_score _ _ _ _ T2 _ _ Hu) as (q & Hq & ->).
    assert (I2 : In u' r1) by (apply W; apply nth_error_In in Hq; exact Hq). apply In_nth_error in I2. destruct I2 as (q2 & Hq2).
    pose proof (proj1 (tk_omitted _ _ _ _ T1 q2 u' v' cv Hq2 Hn Hv)) as K. rewrite (score_1 _ _ Hq2). apply In_nth_error in Hv. destruct Hv as (b & Hv). rewrite <- (scores_1 _ _ _ Hv). lra. }
  pose proof (ranking_unique string_dec (fun u v => (score v < score u)%R) (map fst l1) (map fst l2) a x y) as U1.
  pose proof (ranking_unique string_dec (fun u v => (score v < score u)%R) (map fst l2) (map fst l1) a y x) as U2.
  cbn beta in U1, U2.
  assert (~ (score y < score x)%R) by (apply U1; try assumption; [intros; lra|intros; lra|apply T1]).
  assert (~ (score x < score y)%R) by (apply U2; try assumption; [intros; lra|intros; lra|apply T2]).
  lra.
Qed.
Lemma rank_same : r1 = r2 -> forall a x c y d, nth_error l1 a = Some (x, c) -> nth_error l2 a = Some (y, d) -> x = y.
Proof.
  intros Er a x c y d Ha Hb. pose proof score_2 as X2. pose proof T2 as T2'. rewrite <- Er in X2, T2'.
  set (pos := fun w => position w r1).
  set (lt := fun u v => (score v < score u)%R \/ (score u = score v /\ pos u < pos v)).
  assert (P : forall w q, nth_error r1 q = Some w -> pos w = q).
  { intros w q Hq. unfold pos. apply (proj1 (NoDup_nth_error r1) N1).
    - apply nth_error_Some. rewrite position_ok by (apply nth_error_In in Hq; exact Hq). discriminate.
    - rewrite position_ok by (apply nth_error_In in Hq; exact Hq). congruence. }
  assert (Irr : forall u, ~ lt u u) by (unfold lt; intros u [K|(_&K)]; [lra|lia]).
  assert (Neg : forall u v z, lt u v -> lt u z \/ lt z v).
  { unfold lt. intros u v z Hl. destruct (Rtotal_order (score u) (score z)) as [K|[K|K]]; [|destruct (le_lt_dec (pos z) (pos u))|left; left; lra].
    - right. left. destruct Hl as [Hl|(Hl&_)]; lra.
    - right. destruct Hl as [Hl|(Hl&Hp)]; [left; lra|right; split; [lra|lia]].
    - left. right. auto. }
  assert (M1 : nth_error (map fst l1) a = Some x) by (rewrite nth_error_map, Ha; reflexivity).
  assert (M2 : nth_error (map fst l2) a = Some y) by (rewrite nth_error_map, Hb; reflexivity).
  assert (O : forall sc k l, top_k r1 sc k l -> (forall w q, nth_error r1 q = Some w -> score w = sc q) ->
     (forall i j u v, i < j -> nth_error (map fst l) i = Some u -> nth_error (map fst l) j = Some v -> ~ lt v u) /\
     (forall u v, In u r1 -> ~ In u (map fst l) -> In v (map fst l) -> ~ lt u v)).
  { intros sc k l T Hs. split.
    - intros i j u v Hij Hu Hv. apply map_nth_some in Hu, Hv. destruct Hu as ([u' cu] & Hu & ->), Hv as ([v' cv] & Hv & ->). cbn [fst].
      destruct (top_k_nth _ _ _ _ _ _ _ T Hu) as (qu & Hqu & Ecu), (top_k_nth _ _ _ _ _ _ _ T Hv) as (qv & Hqv & Ecv).
      destruct (tk_order _ _ _ _ T i j _ _ _ _ Hij Hu Hv) as (K1 & K2). unfold lt. rewrite (Hs _ _ Hqu), (Hs _ _ Hqv), (P _ _ Hqu), (P _ _ Hqv). subst cu cv.
      intros [K|(K&K')]; [lra|]. specialize (K2 (eq_sym K) _ _ Hqu Hqv). lia.
    - intros u v Hu Hn Hv. apply in_map_iff in Hv. destruct Hv as ([v' cv] & <- & Hv). cbn [fst]. apply In_nth_error in Hu. destruct Hu as (qu & Hqu).
      destruct (tk_omitted _ _ _ _ T qu u v' cv Hqu Hn Hv) as (K1 & K2). destruct (tk_score _ _ _ _ T _ _ Hv) as (qv & Hqv & Ecv). unfold lt.
      rewrite (Hs _ _ Hqu), (Hs _ _ Hqv), (P _ _ Hqu), (P _ _ Hqv). subst cv. intros [K|(K&K')]; [lra|]. specialize (K2 K _ Hqv). lia. }
  destruct (O _ _ _ T1 score_1) as (A1 & B1). destruct (O _ _ _ T2' X2) as (A2 & B2).
  assert (In1 : forall sc k l, top_k r1 sc k l -> forall u, In u (map fst l) -> In u r1).
  { intros sc k l T u Hu. apply in_map_iff in Hu. destruct Hu as ([u' cu] & <- & Hu). destruct (tk_score _ _ _ _ T _ _ Hu) as (q & Hq & _). apply nth_error_In in Hq. exact Hq. }
  assert (U1 : ~ lt x y) by (apply (ranking_unique string_dec lt (map fst l1) (map fst l2) a x y Irr Neg); try assumption; [apply T1|intros u v Hu; apply B2, (In1 _ _ _ T1), Hu]).
  assert (U2 : ~ lt y x) by (apply (ranking_unique string_dec lt (map fst l2) (map fst l1) a y x Irr Neg); try assumption; [apply T2'|intros u v Hu; apply B1, (In1 _ _ _ T2'), Hu]).
  destruct (top_k_nth _ _ _ _ _ _ _ T1 Ha) as (qx & Hqx & _). destruct (top_k_nth _ _ _ _ _ _ _ T2' Hb) as (qy & Hqy & _).
  unfold lt in U1, U2. rewrite (P _ _ Hqx), (P _ _ Hqy) in U1, U2.
  destruct (Rtotal_order (score x) (score y)) as [K|[K|K]]; [exfalso; apply U2; left; lra| |exfalso; apply U1; left; lra].
  destruct (Nat.lt_trichotomy qx qy) as [Q|[Q|Q]]; [exfalso; apply U1; auto| |exfalso; apply U2; auto]. congruence.
Qed.
End Rank.

Lemma nth_error_ext {A} (l l' : list A) : length l' = length l -> (forall a x y, nth_error l a = Some x -> nth_error l' a = Some y -> y = x) -> l' = l.
Proof.
  revert l'; induction l as [|x l IH]; intros [|y l'] Hl H; cbn in Hl; try discriminate; [reflexivity|]. f_equal; [apply (H 0); reflexivity|].
  apply IH; [lia|]. intros a u v Hu Hv. apply (H (S a)); assumption.
Qed.

(** neighbours: the same similarities in the same order; the same list when the rows are in the same order (only the
    representation differs), or when no two words of the searched space are equally similar to [w] *)
Theorem C72_neighbours : forall s1 s2 o1 o2 w k sim, same_vectors s1 s2 -> same_vectors_opt o1 o2 ->
  In w (s_id2row s1) -> m_nc (s_mat s1) = m_nc (s_mat (searched s1 o1)) ->
  exists l1 l2, get_neighbours s1 w k sim o1 = Ok l1 /\ get_neighbours s2 w k sim o2 = Ok l2 /\
    map snd l2 = map snd l1 /\
    (s_id2row (searched s2 o2) = s_id2row (searched s1 o1) -> l2 = l1) /\
    ((forall x y, In x (s_id2row (searched s1 o1)) -> In y (s_id2row (searched s1 o1)) -> x <> y ->
        get_sim s1 w x sim o1 <> get_sim s1 w y sim o1) -> l2 = l1).
Proof.
  intros s1 s2 o1 o2 w k sim H K Hw Hn. pose proof (same_searched _ _ _ _ H K) as KS.
  pose proof (sv_ok1 _ _ H) as C1. pose proof (sv_ok2 _ _ H) as C2. pose proof (sv_ok1 _ _ KS) as D1. pose proof (sv_ok2 _ _ KS) as D2.
  destruct (C09_neighbours s1 w k sim o1 C1 D1 Hw Hn) as (l1 & sc1 & E1 & T1 & G1).
  destruct (C09_neighbours s2 w k sim o2 C2 D2) as (l2 & sc2 & E2 & T2 & G2); [apply (sv_words _ _ H), Hw|rewrite (sv_width _ _ H), (sv_width _ _ KS); exact Hn|].
  exists l1, l2. split; [exact E1|]. split; [exact E2|].
  pose proof D1 as (_&_&_&(N1&_)&_). pose proof D2 as (_&_&_&(N2&_)&_).
  assert (S : forall x p q, nth_error (s_id2row (searched s1 o1)) p = Some x -> nth_error (s_id2row (searched s2 o2)) q = Some x -> sc1 p = sc2 q).
  { intros x p q Hp Hq. pose proof (G1 _ _ Hp) as Q1. pose proof (G2 _ _ Hq) as Q2. rewrite (C72_get_sim s1 s2 o1 o2 w x sim H K) in Q2. congruence. }
  assert (L : length l2 = length l1) by (pose proof (tk_length _ _ _ _ T2) as Y2; rewrite (same_words_length _ _ N1 N2 (sv_words _ _ KS)) in Y2; exact (eq_trans Y2 (eq_sym (tk_length _ _ _ _ T1)))).
  assert (V : forall a x c y d, nth_error l1 a = Some (x, c) -> nth_error l2 a = Some (y, d) -> c = d).
  { intros a x c y d. exact (rank_le _ _ _ _ _ _ _ _ T1 T2 N1 (sv_words _ _ KS) S a x c y d). }
  split; [|split].
  - apply nth_error_ext; [rewrite !map_length; exact L|]. intros a u v Hu Hv. apply map_nth_some in Hu, Hv. destruct Hu as ([x c] & Hu & ->), Hv as ([y d] & Hv & ->). cbn [snd]. symmetry. exact (V _ _ _ _ _ Hu Hv).
  - intros Er. apply nth_error_ext; [exact L|]. intros a [x c] [y d] Hu Hv. rewrite (V _ _ _ _ _ Hu Hv). f_equal. symmetry.
    exact (rank_same _ _ _ _ _ _ _ _ T1 T2 N1 (sv_words _ _ KS) S (eq_sym Er) a x c y d Hu Hv).
  - intros Hd. apply nth_error_ext; [exact L|]. intros a [x c] [y d] Hu Hv. pose proof (V _ _ _ _ _ Hu Hv) as Ec. subst d. f_equal.
    destruct (tk_score _ _ _ _ T1 x c (nth_error_In _ _ Hu)) as (p & Hp & Ep). destruct (tk_score _ _ _ _ T2 y c (nth_error_In _ _ Hv)) as (q & Hq & Eq).
    assert (Iy : In y (s_id2row (searched s1 o1))) by (apply (sv_words _ _ KS); apply nth_error_In in Hq; exact Hq). apply In_nth_error in Iy. destruct Iy as (q1 & Hq1).
    destruct (string_dec y x) as [->|Hne]; [reflexivity|]. exfalso. apply (Hd x y); [apply nth_error_In in Hp; exact Hp|apply nth_error_In in Hq1; exact Hq1|congruence|].
    rewrite (G1 _ _ Hp), (G1 _ _ Hq1). f_equal. rewrite (S _ _ _ Hq1 Hq). congruence.
Qed.
Theorem C72_neighbours_missing : forall s1 s2 o1 o2 w k sim, same_vectors s1 s2 -> ~ In w (s_id2row s1) ->
  get_neighbours s1 w k sim o1 = Err KeyError /\ get_neighbours s2 w k sim o2 = Err KeyError.
Proof.
  intros s1 s2 o1 o2 w k sim H Hw. split; apply C09_missing; try apply H; [exact Hw|]. intros X. apply Hw, (sv_words _ _ H), X.
Qed.

(** C74: the list of the k nearest neighbours is an initial segment of every longer list *)
Theorem C74_prefix : forall s w k k' sim o l l', consistent s -> consistent (searched s o) -> In w (s_id2row s) ->
  m_nc (s_mat s) = m_nc (s_mat (searched s o)) -> (k <= k')%Z ->
  get_neighbours s w k sim o = Ok l -> get_neighbours s w k' sim o = Ok l' -> l = firstn (Z.to_nat k) l'.
Proof.
  intros s w k k' sim o l l' C D Hw Hn Hk Hl Hl'.
  destruct (C09_neighbours s w k sim o C D Hw Hn) as (l1 & sc1 & E1 & T1 & G1). destruct (C09_neighbours s w k' sim o C D Hw Hn) as (l2 & sc2 & E2 & T2 & G2).
  assert (l1 = l) by congruence. assert (l2 = l') by congruence. subst l1 l2. pose proof D as (_&_&_&(N1&_)&_).
  assert (S : forall x p q, nth_error (s_id2row (searched s o)) p = Some x -> nth_error (s_id2row (searched s o)) q = Some x -> sc1 p = sc2 q).
  { intros x p q Hp Hq. pose proof (G1 _ _ Hp) as Q1. pose proof (G2 _ _ Hq) as Q2. congruence. }
  symmetry. apply nth_error_ext.
  - pose proof (tk_length _ _ _ _ T1) as Y1. pose proof (tk_length _ _ _ _ T2) as Y2. change (@F RNum) with R in *. rewrite firstn_length. lia.
  - intros a [x c] [y d] Hu Hv.
    assert (Hv' : nth_error l' a = Some (y, d)) by (rewrite <- (firstn_skipn (Z.to_nat k) l'); rewrite nth_error_app1 by exact (nth_error_lt _ _ _ Hv); exact Hv).
    rewrite (rank_le _ _ _ _ _ _ _ _ T1 T2 N1 (fun w => iff_refl _) S a x c y d Hu Hv').
    f_equal. symmetry. exact (rank_same _ _ _ _ _ _ _ _ T1 T2 N1 (fun w => iff_refl _) S eq_refl a x c y d Hu Hv').
Qed.
(** ... and a word is its own best cosine neighbour: the list starts with similarity 1 (unless the vector is null) *)
Theorem C74_self : forall s w p k l, consistent s -> nth_error (s_id2row s) p = Some w -> (0 < k)%Z ->
  (exists j, j < m_nc (s_mat s) /\ ment (s_mat s) p j <> 0%R) ->
  get_neighbours s w k Cos None = Ok l ->
  exists x rest, l = (x, 1%R) :: rest /\ get_sim s w x Cos None = Ok 1%R /\ (forall y c, In (y, c) l -> (-1 <= c <= 1)%R).
Proof.
  intros s w p k l C Hp Hk (j & Hj & Hne) Hl.
  assert (Hw : In w (s_id2row s)) by (apply nth_error_In in Hp; exact Hp).
  destruct (C09_neighbours s w k Cos None C C Hw eq_refl) as (l1 & sc & E1 & T & G). assert (l1 = l) by congruence. subst l1. cbn [searched] in *.
  assert (B : forall q x, nth_error (s_id2row s) q = Some x -> (-1 <= sc q <= 1)%R).
  { intros q x Hq. destruct (get_row_vec s w p C Hp) as (v1 & _ & R1 & _ & X1). destruct (get_row_vec s x q C Hq) as (v2 & _ & R2 & _ & X2).
    destruct (C11_cosine v1 v2 _ R1 R2) as (c & Ec & _ & _ & Hb).
    pose proof (G _ _ Hq) as Gq. rewrite (get_sim_rows s None w x p q _ Cos C C Hp Hq eq_refl eq_refl) in Gq. cbn [searched] in Gq. injection Gq as <-.
    rewrite (sim_get_row Cos v1 v2 _ R1 R2) in Ec. injection Ec as Ec. cbn [sim_spec] in *.
    assert (Q : cosine (m_nc (s_mat s)) (ment (s_mat s) p) (ment (s_mat s) q) = c).
    { rewrite <- Ec. symmetry. apply (sim_spec_ext Cos); assumption. }
    rewrite Q. exact Hb. }
  assert (Sp : sc p = 1%R).
  { pose proof (G _ _ Hp) as Gp. rewrite (get_sim_rows s None w w p p _ Cos C C Hp Hp eq_refl eq_refl) in Gp. cbn [searched] in Gp. injection Gp as <-.
    destruct (get_row_vec s w p C Hp) as (v1 & _ & R1 & _ & X1). pose proof (C11_cosine_self v1 _ R1) as Q. rewrite (sim_get_row Cos v1 v1 _ R1 R1) in Q.
    assert (Y : exists j, j < m_nc (s_mat s) /\ ment v1 0 j <> 0%R) by (exists j; split; [exact Hj|]; rewrite X1 by exact Hj; exact Hne). specialize (Q Y). injection Q as Q. rewrite <- Q. symmetry. apply (sim_spec_ext Cos); assumption. }
  destruct l as [|[x c] rest].
  { exfalso. pose proof (tk_length _ _ _ _ T) as L. cbn in L. pose proof (nth_error_lt _ _ _ Hp). lia. }
  assert (Bl : forall y d, In (y, d) ((x, c) :: rest) -> (-1 <= d <= 1)%R).
  { intros y d Hy. destruct (tk_score _ _ _ _ T y d Hy) as (q & Hq & ->). exact (B q y Hq). }
  assert (Hc : c = 1%R).
  { pose proof (Bl x c (or_introl eq_refl)) as Bc. destruct (in_dec string_dec w (map fst ((x, c) :: rest))) as [I|I].
    - apply in_map_iff in I. destruct I as ([w' d] & Ew & I). cbn [fst] in Ew. subst w'. destruct (tk_score _ _ _ _ T w d I) as (q & Hq & Ed).
      pose proof (G _ _ Hq) as G1. rewrite (G _ _ Hp) in G1. injection G1 as G1.
      destruct I as [I|I]; [congruence|]. apply In_nth_error in I. destruct I as (a & Ha).
      pose proof (proj1 (tk_order _ _ _ _ T 0 (S a) x c w d ltac:(lia) eq_refl Ha)). lra.
    - pose proof (proj1 (tk_omitted _ _ _ _ T p w x c Hp I (or_introl eq_refl))). lra. }
  subst c. exists x, rest. split; [reflexivity|]. split; [|exact Bl].
  destruct (tk_score _ _ _ _ T x 1%R (or_introl eq_refl)) as (q & Hq & Eq). rewrite (G _ _ Hq). f_equal. auto.
Qed.

(** ** peripheral spaces *)
(** two data matrices holding the same vectors under the same words *)
Record same_data (m1 m2 : matrix) (r1 r2 : list string) : Prop := {
  sd_wf1 : mwf m1; sd_wf2 : mwf m2; sd_nodup1 : NoDup r1; sd_nodup2 : NoDup r2;
  sd_len1 : length r1 = m_nr m1; sd_len2 : length r2 = m_nr m2; sd_width : m_nc m2 = m_nc m1;
  sd_words : forall w, In w r1 <-> In w r2;
  sd_entry : forall w p q j, nth_error r1 p = Some w -> nth_error r2 q = Some w -> j < m_nc m1 -> ment m2 q j = ment m1 p j }.
(** a dictionary given by the caller agrees with the list *)
Definition dict_fits (r : list string) (d : option (dict Z)) : Prop := match d with None => True | Some d => dwf d /\ mutually_inverse r d end.

Lemma data_moved m1 m2 r1 r2 : same_data m1 m2 r1 r2 -> exists p, moved p m1 m2 /\ forall i, i < m_nr m1 -> nth_error r2 (p i) = nth_error r1 i.
Proof.
  intros H. destruct H as [W1 W2 N1 N2 L1 L2 Hc Hw He].
  pose proof (same_words_length _ _ N1 N2 Hw) as HL.
  set (p := fun i => position (nth i r1 EmptyString) r2). exists p.
  assert (K : forall i, i < m_nr m1 -> nth_error r2 (p i) = nth_error r1 i).
  { intros i Hi. unfold p. rewrite position_ok; [symmetry; apply nth_error_nth'; congruence|]. apply Hw, nth_In. congruence. }
  assert (K1 : forall i, i < m_nr m1 -> exists w, nth_error r1 i = Some w).
  { intros i Hi. destruct (nth_error r1 i) eqn:E0; [eauto|]. apply nth_error_None in E0. lia. }
  split; [|exact K]. split; try assumption; [lia| | |].
  - intros i Hi. destruct (K1 i Hi) as (w & Hi'). specialize (K i Hi). rewrite Hi' in K. apply nth_error_lt in K. lia.
  - intros i k Hi Hk Hp. apply (proj1 (NoDup_nth_error r1) N1); [lia|]. rewrite <- (K i Hi), <- (K k Hk), Hp. reflexivity.
  - intros i j Hi Hj. destruct (K1 i Hi) as (w & Hi'). apply (He w); [exact Hi'|rewrite K; assumption|exact Hj].
Qed.

Lemma moved_dim_project p d tm m1 m2 : mwf tm -> moved p m1 m2 -> rmoved p (dim_project d tm m1) (dim_project d tm m2).
Proof.
  intros Wt H. unfold dim_project.
  assert (G : match d with DNmf => m_assert_positive m2 | DSvd => Ok tt end = match d with DNmf => m_assert_positive m1 | DSvd => Ok tt end) by (destruct d; [reflexivity|apply (moved_positive p), H]).
  rewrite G. destruct (match d with DNmf => m_assert_positive m1 | DSvd => Ok tt end) as [[]|e]; cbn [bind]; [|reflexivity].
  assert (R : forall m, mwf m -> exists a b, resolve2 m tm (Some (type_of m)) = Ok (a, b) /\ vals a (type_of m) (m_nr m) (m_nc m) (ment m) /\ vals b (type_of m) (m_nr tm) (m_nc tm) (ment tm)).
  { intros m Wm. unfold resolve2, resolve_type_conflict, type_conflict. cbn [existsb]. rewrite mtype_eqb_refl. cbn [negb orb]. rewrite orb_false_r.
    destruct (mtype_eqb (type_of tm) (type_of m)) eqn:Et; cbn [negb bind map].
    - exists m, tm. split; [reflexivity|]. split; [apply vals_self, Wm|]. apply mtype_eqb_eq in Et. rewrite <- Et. apply vals_self, Wt.
    - eexists _, _. split; [reflexivity|]. split; [eapply vals_conv, vals_self, Wm|eapply vals_conv, vals_self, Wt]. }
  destruct (R m1 (mv_wf1 _ _ _ H)) as (a1 & b1 & -> & A1 & B1). destruct (R m2 (mv_wf2 _ _ _ H)) as (a2 & b2 & -> & A2 & B2). cbn [bind].
  rewrite (mv_nr _ _ _ H), (mv_nc _ _ _ H) in A2.
  destruct (Nat.eq_dec (m_nc m1) (m_nr tm)) as [En|En].
  - rewrite <- En in B1, B2. destruct (vals_mul _ _ _ _ _ _ _ _ A1 B1) as (z1 & -> & V1). destruct (vals_mul _ _ _ _ _ _ _ _ A2 B2) as (z2 & -> & V2). cbn [bind].
    assert (Z : moved p z1 z2).
    { apply (moved_vals p _ _ _ _ _ _ _ _ _ H V1 V2). intros i j Hi Hj. cbn beta. apply sumn_ext. intros l Hl. rewrite (mv_ent _ _ _ H) by assumption. reflexivity. }
    destruct d; cbn [rmoved]; apply (moved_conv p); [exact Z|apply moved_nonneg, Z].
  - assert (X : forall a b t r c r' c' f g, vals a t r c f -> vals b t r' c' g -> c <> r' -> m_mul a b = Err ValueError).
    { intros a b t r c r' c' f g ((Wa&Ta&Ra&Ca)&_) ((Wb&Tb&Rb&Cb)&_) Hn. unfold m_mul. rewrite same_type_same by congruence. cbn [bind]. rewrite Ca, Rb. apply Nat.eqb_neq in Hn. rewrite Hn. reflexivity. }
    rewrite (X _ _ _ _ _ _ _ _ _ A1 B1 En), (X _ _ _ _ _ _ _ _ _ A2 B2 En). reflexivity.
Qed.
Lemma moved_project p o m1 m2 : op_wf o -> moved p m1 m2 -> rmoved p (op_project o m1) (op_project o m2).
Proof.
  intros Ho H. destruct o as [s st|d k [tm|]|c k [sel|] orig]; cbn [op_project] in *; try reflexivity.
  - destruct (uses_column_stats s); [destruct st; [|reflexivity]|]; apply moved_scaling, H.
  - apply moved_dim_project; assumption.
  - apply moved_get_cols, H.
Qed.
Lemma moved_project_ops p ops : forall c1 c2 m1 m2, Forall op_wf ops -> col_ok c1 -> col_ok c2 -> c_id2col c2 = c_id2col c1 -> moved p m1 m2 ->
  rmoved p (snd (project_ops ops c1 m1)) (snd (project_ops ops c2 m2)) /\
  (forall z, snd (project_ops ops c1 m1) = Ok z -> c_id2col (fst (project_ops ops c2 m2)) = c_id2col (fst (project_ops ops c1 m1)) /\
     col_ok (fst (project_ops ops c1 m1)) /\ col_ok (fst (project_ops ops c2 m2))).
Proof.
  induction ops as [|o ops IH]; intros c1 c2 m1 m2 Ho K1 K2 Ec M; cbn [project_ops].
  - cbn [fst snd]. split; [exact M|]. auto.
  - inversion Ho as [|? ? O1 O2]; subst.
    assert (G : exists d1 d2 r, op_columns o c1 = (d1, r) /\ op_columns o c2 = (d2, r) /\ (forall u, r = Ok u -> c_id2col d2 = c_id2col d1 /\ col_ok d1 /\ col_ok d2)).
    { destruct (op_columns o c1) as [d1 x1] eqn:E1, (op_columns o c2) as [d2 x2] eqn:E2. 
      assert (x2 = x1 /\ (forall u, x1 = Ok u -> c_id2col d2 = c_id2col d1)) as (-> & Hd).
      { destruct o as [s st|d k tm|cr k sel [[|c0 cs]|]]; cbn [op_columns] in E1, E2; try (injection E1 as <- <-; injection E2 as <- <-; auto).
        destruct (select_labels _ _) as [l|e]; [|injection E1 as <- <-; injection E2 as <- <-; split; [reflexivity|discriminate]].
        destruct (list2dict l); injection E1 as <- <-; injection E2 as <- <-; split; auto; discriminate. }
      exists d1, d2, x1. split; [reflexivity|]. split; [reflexivity|]. intros u ->. split; [apply (Hd u eq_refl)|]. split; [exact (op_columns_ok _ _ _ _ K1 E1)|exact (op_columns_ok _ _ _ _ K2 E2)]. }
    destruct G as (d1 & d2 & r & -> & -> & Hr). destruct r as [u|e]; [|cbn [fst snd]; split; [reflexivity|discriminate]].
    destruct (Hr u eq_refl) as (Ed & Kd1 & Kd2). pose proof (moved_project p o m1 m2 O1 M) as Mo.
    destruct (op_project o m1) as [a|e], (op_project o m2) as [b|e']; cbn [rmoved fst snd] in *; try contradiction; [apply IH; assumption|].
    split; [exact Mo|discriminate].
Qed.

Lemma dict_fits_ok r d : NoDup r -> dict_fits r d ->
  exists d', match d with None => list2dict r | Some d0 => let* _ := assert_dict_match_list d0 r in Ok d0 end = Ok d' /\ dwf d' /\ mutually_inverse r d'.
Proof.
  intros N1 H. destruct d as [d0|]; cbn [dict_fits] in H.
  - exists d0. rewrite assert_match_total by tauto. cbn [bind]. tauto.
  - destruct (list2dict_total r N1) as (d & Hd). exists d. split; [exact Hd|]. apply list2dict_inverse in Hd. tauto.
Qed.

Theorem C72_peripheral : forall core1 core2 m1 m2 r1 r2 d1 d2, same_vectors core1 core2 -> same_data m1 m2 r1 r2 ->
  dict_fits r1 d1 -> dict_fits r2 d2 -> same_outcome (mk_peripheral core1 m1 r1 d1) (mk_peripheral core2 m2 r2 d2).
Proof.
  intros s1 s2 m1 m2 r1 r2 d1 d2 H D F1 F2. destruct (data_moved _ _ _ _ D) as (p & M & K).
  pose proof (sv_ok1 _ _ H) as C1. pose proof (sv_ok2 _ _ H) as C2.
  pose proof C1 as (_&_&_&_&_&J1&F1'&_&O1). pose proof C2 as (_&_&_&_&_&J2&F2'&_&O2).
  destruct (dict_fits_ok r1 d1 (sd_nodup1 _ _ _ _ D) F1) as (x1 & X1 & WX1 & IX1). destruct (dict_fits_ok r2 d2 (sd_nodup2 _ _ _ _ D) F2) as (x2 & X2 & WX2 & IX2).
  destruct (moved_project_ops p (s_ops s1) (CS (s_id2col s1) (s_col2id s1)) (CS (s_id2col s2) (s_col2id s2)) m1 m2 O1 (conj J1 F1') (conj J2 F2') (sv_cols _ _ H) M) as (Q1 & Q2).
  unfold mk_peripheral. rewrite X1, X2. cbn [bind]. rewrite (sv_ops _ _ H).
  destruct (project_ops (s_ops s1) (CS (s_id2col s1) (s_col2id s1)) m1) as [c1 z1] eqn:P1, (project_ops (s_ops s1) (CS (s_id2col s2) (s_col2id s2)) m2) as [c2 z2] eqn:P2. cbn [fst snd] in *.
  destruct z1 as [z1|e1], z2 as [z2|e2]; cbn [rmoved bind] in *; try contradiction; [|exact Q1].
  destruct (Q2 z1 eq_refl) as (Ec & (Ic1&Dc1) & (Ic2&Dc2)).
  pose proof (mutually_inverse_length _ _ IX1) as LX1. pose proof (mutually_inverse_length _ _ IX2) as LX2. pose proof (mutually_inverse_length _ _ Ic1) as LC1. pose proof (mutually_inverse_length _ _ Ic2) as LC2.
  assert (Rz1 : m_nr z1 = m_nr m1).
  { pose proof (project_ops_ok (s_ops s1) _ _ _ _ O1 (conj J1 F1' : col_ok (CS _ _)) (sd_wf1 _ _ _ _ D) P1). tauto. }
  assert (S : assert_shape_consistent (m_nr z2) (m_nc z2) (length r2) (length (c_id2col c2)) (length x2) (length (c_col2id c2)) =
              assert_shape_consistent (m_nr z1) (m_nc z1) (length r1) (length (c_id2col c1)) (length x1) (length (c_col2id c1))).
  { rewrite (mv_nr _ _ _ Q1), (mv_nc _ _ _ Q1), LX2, LX1, LC1, LC2, Ec, (sd_len1 _ _ _ _ D), (sd_len2 _ _ _ _ D), (mv_nr _ _ _ M). reflexivity. }
  rewrite S. destruct (assert_shape_consistent (m_nr z1) _ _ _ _ _) as [[]|e] eqn:A1; cbn [bind same_outcome]; [|reflexivity].
  assert (B1 : mk_peripheral s1 m1 r1 d1 = Ok (SP z1 r1 (c_id2col c1) x1 (c_col2id c1) (s_ops s1) [m_nc z1])).
  { unfold mk_peripheral. rewrite X1. cbn [bind]. rewrite P1. cbn [bind]. rewrite A1. reflexivity. }
  assert (B2 : mk_peripheral s2 m2 r2 d2 = Ok (SP z2 r2 (c_id2col c2) x2 (c_col2id c2) (s_ops s1) [m_nc z2])).
  { unfold mk_peripheral. rewrite X2. cbn [bind]. rewrite (sv_ops _ _ H), P2. cbn [bind]. rewrite S, ?A1. reflexivity. }
  assert (OD : forall r d, dict_fits r d -> opt_dict d) by (intros r [d|]; cbn; tauto).
  destruct (mk_peripheral_ok _ _ _ _ _ C1 (sd_wf1 _ _ _ _ D) (OD _ _ F1) B1) as (? & ? & ? & _ & _ & _ & _ & _ & G1).
  destruct (mk_peripheral_ok _ _ _ _ _ C2 (sd_wf2 _ _ _ _ D) (OD _ _ F2) B2) as (? & ? & ? & _ & _ & _ & _ & _ & G2).
  apply (moved_same _ _ p); cbn [s_mat s_id2row s_id2col s_eshape s_ops]; try assumption; [| |reflexivity].
  - rewrite Rz1. exact K.
  - f_equal. apply Q1.
Qed.

(** ** stacking and conversion *)
Lemma vstack_entries s1 s2 s : consistent s1 -> consistent s2 -> space_vstack s1 s2 = Ok s ->
  forall i j, i < m_nr (s_mat s) -> j < m_nc (s_mat s) -> ment (s_mat s) i j =
     if i <? m_nr (s_mat s1) then ment (s_mat s1) i j else ment (s_mat s2) (i - m_nr (s_mat s1)) j.
Proof.
  intros C1 C2 H. destruct (space_vstack_ok _ _ _ C1 C2 H) as (m&d&Es&Ha&H1&H2&Wm&Dm&Hc). rewrite Es. cbn [s_mat].
  assert (Hnr : m_nr m = m_nr (s_mat s1) + m_nr (s_mat s2)) by (rewrite <- to_dense_nr, Dm; cbn; rewrite !to_dense_nr; reflexivity).
  assert (Hnc : m_nc m = m_nc (s_mat s1)) by (rewrite <- to_dense_nc, Dm; cbn; apply to_dense_nc).
  intros i j Hi Hj. rewrite <- dent_to_dense by assumption. rewrite Dm. unfold d_vstack. rewrite dent_tab by (rewrite ?to_dense_nr, ?to_dense_nc; lia).
  rewrite to_dense_nr. destruct (Nat.ltb_spec i (m_nr (s_mat s1))); apply dent_to_dense; lia.
Qed.
Theorem C72_vstack : forall a1 a2 b1 b2, same_vectors a1 a2 -> same_vectors b1 b2 -> positional_rows a1 -> positional_rows a2 ->
  same_outcome (space_vstack a1 b1) (space_vstack a2 b2).
Proof.
  intros a1 a2 b1 b2 HA HB P1 P2.
  pose proof (sv_ok1 _ _ HA) as CA1. pose proof (sv_ok2 _ _ HA) as CA2. pose proof (sv_ok1 _ _ HB) as CB1. pose proof (sv_ok2 _ _ HB) as CB2.
  destruct (C04_vstack a1 b1 CA1 P1 CB1) as (I1 & E1). destruct (C04_vstack a2 b2 CA2 P2 CB2) as (I2 & E2).
  assert (I : (exists s, space_vstack a1 b1 = Ok s) <-> (exists s, space_vstack a2 b2 = Ok s)).
  { rewrite I1, I2, (sv_width _ _ HA), (sv_width _ _ HB), (sv_cols _ _ HA), (sv_cols _ _ HB). split; intros (X1 & X2 & X3); repeat (split; [assumption|]); intros w Hw Hw';
      apply (X3 w); try (apply (sv_words _ _ HA), Hw); apply (sv_words _ _ HB), Hw'. }
  destruct (space_vstack a1 b1) as [s1|e1] eqn:V1, (space_vstack a2 b2) as [s2|e2] eqn:V2; cbn [same_outcome].
  - pose proof (vstack_entries _ _ _ CA1 CB1 V1) as X1. pose proof (vstack_entries _ _ _ CA2 CB2 V2) as X2.
    destruct (C04_vstack_vectors _ _ _ CA1 CB1 V1) as (R1&L1&_&O1&C1&N1&_). destruct (C04_vstack_vectors _ _ _ CA2 CB2 V2) as (R2&L2&_&O2&C2&N2&_).
    destruct (space_vstack_ok _ _ _ CA1 CB1 V1) as (m1&d1&Es1&_&Y1&Z1&_). destruct (space_vstack_ok _ _ _ CA2 CB2 V2) as (m2&d2&Es2&_&Y2&Z2&_).
    assert (Ew : m_nc (s_mat s2) = m_nc (s_mat s1)) by (rewrite N1, N2; apply HA).
    pose proof CA1 as (_&LA1&_). pose proof CA2 as (_&LA2&_). pose proof CB1 as (_&LB1&_). pose proof CB2 as (_&LB2&_). pose proof C1 as (_&LS1&_&(ND1&_)&_). pose proof C2 as (_&LS2&_&(ND2&_)&_).
    split; try assumption.
    + intros w. rewrite R1, R2, !in_app_iff, (sv_words _ _ HA), (sv_words _ _ HB). reflexivity.
    + rewrite L1, L2. apply HA.
    + rewrite Es1, Es2. cbn [s_eshape]. rewrite Es1, Es2 in Ew. cbn [s_mat] in Ew. rewrite Ew. reflexivity.
    + rewrite O1, O2. reflexivity.
    + intros w p q j Hp Hq Hj. pose proof (nth_error_lt _ _ _ Hp) as Lp. pose proof (nth_error_lt _ _ _ Hq) as Lq. rewrite LS1 in Lp. rewrite LS2 in Lq.
      rewrite X1 by assumption. rewrite X2 by (try rewrite Ew; assumption). rewrite R1 in Hp. rewrite R2 in Hq.
      assert (Disj : forall v, In v (s_id2row a1) -> ~ In v (s_id2row b1)) by (apply (proj1 I1); eauto).
      destruct (Nat.ltb_spec p (m_nr (s_mat a1))) as [Bp|Bp], (Nat.ltb_spec q (m_nr (s_mat a2))) as [Bq|Bq].
      * rewrite nth_error_app1 in Hp by lia. rewrite nth_error_app1 in Hq by lia. apply (sv_entry _ _ HA w); [assumption|assumption|congruence].
      * exfalso. rewrite nth_error_app1 in Hp by lia. rewrite nth_error_app2 in Hq by lia. apply nth_error_In in Hp, Hq. apply (Disj w Hp), (sv_words _ _ HB), Hq.
      * exfalso. rewrite nth_error_app2 in Hp by lia. rewrite nth_error_app1 in Hq by lia. apply nth_error_In in Hp, Hq. apply (Disj w); [apply (sv_words _ _ HA), Hq|exact Hp].
      * rewrite nth_error_app2 in Hp by lia. rewrite nth_error_app2 in Hq by lia. rewrite LA1 in Hp. rewrite LA2 in Hq. apply (sv_entry _ _ HB w); [assumption|assumption|congruence].
  - exfalso. destruct (proj1 I) as (s & Hs); [eauto|discriminate].
  - exfalso. destruct (proj2 I) as (s & Hs); [eauto|discriminate].
  - rewrite (E1 e1 eq_refl), (E2 e2 eq_refl). reflexivity.
Qed.
Theorem C72_conversion : forall s, consistent s -> same_vectors s (space_to_sparse s) /\ same_vectors s (space_to_dense s).
Proof.
  intros s C. pose proof C as (W&L&_&(Nd&_)&_). split; (split; [exact C|apply to_type_consistent, C|intros w; reflexivity|cbn [s_mat space_to_sparse space_to_dense]; apply conv_nc|reflexivity|reflexivity|reflexivity|]);
    intros w p q j Hp Hq Hj; cbn [s_mat s_id2row space_to_sparse space_to_dense] in *; pose proof (nth_error_lt _ _ _ Hp) as Lp; rewrite L in Lp;
    (assert (q = p) as -> by (apply (proj1 (NoDup_nth_error (s_id2row s)) Nd); [exact (nth_error_lt _ _ _ Hq)|congruence])); apply ment_conv; assumption.
Qed.

(** a space with its rows swapped and in the other representation *)
Definition m_swapped : @matrix RNum := MD (@DM RNum 2 2 [[0; 1]; [1; 0]])%R.
Lemma m_swapped_wf : mwf m_swapped.  Proof. repeat split; cbn; try lia; repeat constructor. Qed.
Definition sp_swapped : space :=
  SP (conv TSparse m_swapped) ["dog"; "car"]%string ["x"; "y"]%string [("car", 1%Z); ("dog", 0%Z)]%string [("x", 0%Z); ("y", 1%Z)]%string [] [2].
Example C72_example : same_vectors sp22 sp_swapped /\ type_of (s_mat sp22) = TDense /\ type_of (s_mat sp_swapped) = TSparse /\
  s_id2row sp_swapped <> s_id2row sp22 /\ tr_ok (TScale Ppmi) /\ column_free (TScale Ppmi) /\ same_data (s_mat sp22) (s_mat sp_swapped) (s_id2row sp22) (s_id2row sp_swapped).
Proof.
  assert (C2 : consistent sp_swapped).
  { apply (to_type_consistent TSparse (SP m_swapped ["dog"; "car"]%string ["x"; "y"]%string [("car", 1%Z); ("dog", 0%Z)]%string [("x", 0%Z); ("y", 1%Z)]%string [] [2])).
    eapply (mk_space_consistent m_swapped ["dog"; "car"]%string ["x"; "y"]%string (Some [("car", 1%Z); ("dog", 0%Z)]%string) None [] None);
      [apply m_swapped_wf|constructor| |exact I|reflexivity]. cbn. repeat constructor; cbn; intuition discriminate. }
  assert (Hw : forall w, In w (s_id2row sp22) <-> In w (s_id2row sp_swapped)) by (intros w; cbn; tauto).
  assert (He : forall w p q j, nth_error (s_id2row sp22) p = Some w -> nth_error (s_id2row sp_swapped) q = Some w -> j < m_nc (s_mat sp22) ->
     ment (s_mat sp_swapped) q j = ment (s_mat sp22) p j).
  { intros w p q j Hp Hq Hj. assert (Hj' : j < 2) by exact Hj. clear Hj. rename Hj' into Hj. 
    assert (Hp' : p < 2) by (apply nth_error_lt in Hp; exact Hp). assert (Hq' : q < 2) by (apply nth_error_lt in Hq; exact Hq). cbn [s_mat sp_swapped]. rewrite ment_conv by (apply m_swapped_wf || assumption).
    destruct p as [|[|p]]; [| |lia]; (destruct q as [|[|q]]; [| |lia]); cbn in Hp, Hq; try congruence; (destruct j as [|[|j]]; [| |lia]); reflexivity. }
  split; [split; try assumption; try reflexivity; apply sp22_consistent|]. split; [reflexivity|]. split; [reflexivity|]. split; [discriminate|]. split; [exact I|]. split; [exact I|].
  pose proof sp22_consistent as (W1&L1&_&(N1&_)&_). pose proof C2 as (W2&L2&_&(N2&_)&_). split; try assumption; reflexivity.
Qed.
Example C74_example : exists j, consistent sp22 /\ nth_error (s_id2row sp22) 1 = Some "dog"%string /\ j < m_nc (s_mat sp22) /\ ment (s_mat sp22) 1 j <> 0%R.
Proof. exists 1. split; [apply sp22_consistent|]. split; [reflexivity|]. split; [cbn; lia|]. cbn. lra. Qed.
End WithExt.
