(** Prop_ZeroComp.v -- property C106, continued: composition with the models that have no matrices. *)
From Coq Require Import Reals Lra Psatz Permutation Sorted.
From Verif Require Import Base PyList Dict Num SpecReal Dense Sparse Matrix PSparse PMatrix PMatOps PShape PVals PReal PPos PSort Scaling Linalg Operation
  Similarity Space Peripheral SpecSpace PDictList PSpace Prop_Space Prop_Scaling Prop_Periph PCols Learner Composition SpecComp PComp Prop_Comp Prop_Order Prop_Counts PMoved Prop_Transpose Prop_ColOrder Prop_ColOrder2 Prop_Zeros Prop_Zeros2.
#[local] Existing Instance RNum.
Local Open Scope R_scope.
Local Open Scope string_scope.
Local Open Scope list_scope.
Local Open Scope nat_scope.
Section Comp.
Context {E : @Ext RNum}.
(** the number that a composed vector has for a label, from the numbers [u] and [v] of the two words *)
Definition l_comp (k : ckind) (L : list string) (u v : string -> R) (c : string) : R :=
  match k with
  | WAdd alpha beta => (alpha * u c + beta * v c)%R
  | Mult => (u c * v c)%R
  | Dil lambda => (lsum L (fun x => u x * u x) * v c + (lambda - 1) * lsum L (fun x => u x * v x) * u c)%R
  | FAdd _ _ _ => 0%R
  end.
Lemma vec_value s w j c : consistent s -> In w (s_id2row s) -> nth_error (s_id2col s) j = Some c -> vec s w j = value s w c.
Proof.
  intros C Hw Hc. unfold vec. destruct (pos_of_In (s_id2row s) w Hw) as (q & Hq). rewrite Hq. apply pos_of_some in Hq. symmetry. apply value_at; assumption.
Qed.
(** one composed space, by words and labels *)
Lemma composed_value m data a s1 s2 m' s : consistent s1 -> consistent s2 -> s_id2col s1 <> [] -> fresh_scalar m -> args_of a s1 s2 -> compose m data a = (m', Ok s) ->
  consistent s /\ s_id2col s = s_id2col s1 /\ s_id2col s1 = s_id2col s2 /\ s_eshape s = [m_nc (s_mat s)] /\ s_id2row s = map snd (filter (usable2 s1 s2) data) /\
  forall i w1 w2 ph c, nth_error (filter (usable2 s1 s2) data) i = Some (w1, w2, ph) -> In c (s_id2col s1) -> value s ph c = l_comp (cm_kind m) (s_id2col s1) (value s1 w1) (value s2 w2) c.
Proof.
  intros C1 C2 Ne Hm Ha Hs. destruct (compose_cols m data a s1 s2 m' s Ha Hm Hs) as (Lc & Sh & Eq).
  assert (N1 : m_nc (s_mat s1) = length (s_id2col s1)) by (apply labelled_width; assumption).
  assert (N12 : m_nc (s_mat s1) = m_nc (s_mat s2)) by (rewrite N1, (labelled_width _ C2), Eq; [reflexivity|congruence]).
  assert (Hf : fits (cm_kind m) (m_nc (s_mat s1)) (m_nc (s_mat s2))) by (destruct Hm as (_ & Km); destruct (cm_kind m); try exact N12; contradiction).
  destruct (C34_rows m data a s1 s2 m' s C1 C2 Ha Hf Hs) as (C & Rw & _).
  split; [exact C|]. split; [exact Lc|]. split; [exact Eq|]. split; [exact Sh|]. split; [exact Rw|].
  intros i w1 w2 ph c Hi Hc. apply In_nth_error in Hc. destruct Hc as (j & Hj). assert (Jn : j < m_nc (s_mat s1)) by (rewrite N1; exact (nth_error_lt _ _ _ Hj)).
  assert (I12 : In w1 (s_id2row s1) /\ In w2 (s_id2row s2)).
  { apply nth_error_In in Hi. apply filter_In in Hi. destruct Hi as (_ & Hi). cbn in Hi. apply andb_prop in Hi. destruct Hi as (I1 & I2). split; apply known_In; assumption. }
  destruct I12 as (I1 & I2).
  rewrite (value_at s i j ph c C); [|rewrite Rw; exact (map_nth_error snd i _ Hi)|rewrite Lc; exact Hj].
  assert (V1 : vec s1 w1 j = value s1 w1 c) by (apply vec_value; assumption). assert (V2 : vec s2 w2 j = value s2 w2 c) by (apply vec_value; try assumption; rewrite <- Eq; exact Hj).
  assert (D : forall sa sb wa wb, consistent sa -> consistent sb -> s_id2col sa = s_id2col s1 -> s_id2col sb = s_id2col s1 -> In wa (s_id2row sa) -> In wb (s_id2row sb) ->
    SpecReal.dot (m_nc (s_mat s1)) (vec sa wa) (vec sb wb) = lsum (s_id2col s1) (fun x => value sa wa x * value sb wb x)%R).
  { intros sa sb wa wb Ka Kb La Lb Ia Ib. unfold SpecReal.dot. rewrite N1. apply rsum_labels. intros q x Hx. rewrite (vec_value sa wa q x), (vec_value sb wb q x); try assumption; [reflexivity|rewrite Lb; exact Hx|rewrite La; exact Hx]. }
  destruct Hm as (_ & Km). destruct (cm_kind m) as [al be| |la|ab ic L] eqn:Ek; [| | |contradiction]; cbn [l_comp].
  - destruct (C35_weighted_additive m al be data a s1 s2 m' s Ek C1 C2 Ha N12 Hs) as (_ & F). rewrite (F i w1 w2 ph j Hi Jn), V1, V2. reflexivity.
  - destruct (C35_multiplicative m data a s1 s2 m' s Ek C1 C2 Ha N12 Hs) as (_ & F). rewrite (F i w1 w2 ph j Hi Jn), V1, V2. reflexivity.
  - destruct (C35_dilation m la data a s1 s2 m' s Ek C1 C2 Ha N12 Hs) as (_ & F). rewrite (F i w1 w2 ph j Hi Jn). cbv zeta. rewrite V1, V2.
    rewrite (D s1 s1 w1 w1), (D s1 s2 w1 w2) by (try assumption; try reflexivity; symmetry; exact Eq). reflexivity.
Qed.
Lemma l_comp_zero k L u v c : u c = 0%R -> v c = 0%R -> l_comp k L u v c = 0%R.
Proof. intros Hu Hv. destruct k; cbn [l_comp]; rewrite ?Hu, ?Hv; [ring|ring|ring|reflexivity]. Qed.
Lemma l_comp_same k L M u v u' v' c : NoDup L -> NoDup M -> (forall x, u' x = u x) -> (forall x, v' x = v x) -> (forall x, ~ In x L -> u x = 0%R) -> (forall x, ~ In x M -> u x = 0%R) ->
  l_comp k M u' v' c = l_comp k L u v c.
Proof.
  intros NL NM Hu Hv HL HM. destruct k as [al be| |la|]; cbn [l_comp]; rewrite ?Hu, ?Hv; try reflexivity.
  rewrite (lsum_ext M (fun x => u' x * u' x)%R (fun x => u x * u x)%R) by (intros x _; rewrite !Hu; reflexivity). rewrite (lsum_ext M (fun x => u' x * v' x)%R (fun x => u x * v x)%R) by (intros x _; rewrite Hu, Hv; reflexivity).
  rewrite (lsum_same M L (fun x => u x * u x)%R), (lsum_same M L (fun x => u x * v x)%R); try assumption; try reflexivity; intros x Hx; rewrite ?(HL x Hx), ?(HM x Hx); ring.
Qed.
Theorem C106_compose : forall m m1 data a a' s1 s2 s1' s2' m2 s, same_counts s1 s1' -> same_counts s2 s2' -> s_id2col s1' = s_id2col s2' -> fresh_scalar m -> fresh_scalar m1 -> cm_kind m1 = cm_kind m ->
  filter (usable2 s1' s2') data = filter (usable2 s1 s2) data -> args_of a s1 s2 -> args_of a' s1' s2' -> compose m data a = (m2, Ok s) ->
  exists m3 s', compose m1 data a' = (m3, Ok s') /\ s_id2row s' = s_id2row s /\ same_counts s s'.
Proof.
  intros m m1 data a a' s1 s2 s1' s2' m2 s H1 H2 Hl Hm Hm1 Hk EU Ha Ha' Hs.
  pose proof (sc_ok1 _ _ H1) as C1. pose proof (sc_ok2 _ _ H1) as C1'. pose proof (sc_ok1 _ _ H2) as C2. pose proof (sc_ok2 _ _ H2) as C2'.
  destruct (composed_value m data a s1 s2 m2 s C1 C2 (sc_lab1 _ _ H1) Hm Ha Hs) as (C & Lc & Eq & Sh & Rw & V).
  assert (N12' : m_nc (s_mat s1') = m_nc (s_mat s2')) by (rewrite (labelled_width _ C1' (sc_lab2 _ _ H1)), (labelled_width _ C2' (sc_lab2 _ _ H2)), Hl; reflexivity).
  assert (Hf' : fits (cm_kind m1) (m_nc (s_mat s1')) (m_nc (s_mat s2'))) by (rewrite Hk; destruct Hm as (_ & Km); destruct (cm_kind m); try exact N12'; contradiction).
  assert (Dn : data <> []). { intros ->. unfold compose, compose_matrix in Hs. rewrite (args_extract a s1 s2 Ha) in Hs. destruct (strings_eqb _ _); discriminate Hs. }
  assert (Fn : filter (usable2 s1 s2) data <> []). { intros K. rewrite (proj2 (C33_compose_partial m data a s1 s2 C1 C2 Ha Dn) K) in Hs. discriminate. }
  assert (Nd : NoDup (map snd (filter (usable2 s1 s2) data))) by (rewrite <- Rw; apply C).
  destruct (proj1 (C34_total m1 data a' s1' s2' C1' C2' Ha' Hl Hf' ltac:(rewrite EU; exact Fn) ltac:(destruct Hm1 as (-> & _); exact I)) ltac:(rewrite EU; exact Nd)) as (s' & Hs').
  destruct (compose m1 data a') as [m3 r] eqn:Hc'. cbn [snd] in Hs'. subst r. exists m3, s'. split; [reflexivity|].
  destruct (composed_value m1 data a' s1' s2' m3 s' C1' C2' (sc_lab2 _ _ H1) Hm1 Ha' Hc') as (C' & Lc' & Eq' & Sh' & Rw' & V'). rewrite EU in Rw', V'.
  split; [congruence|]. constructor; [exact C|exact C'|rewrite Lc; apply H1|rewrite Lc'; apply H1|rewrite Sh, Sh'; reflexivity|].
  intros w c. destruct (in_dec string_dec w (s_id2row s)) as [Iw|Iw]; [|rewrite !value_no_word; [reflexivity|exact Iw|congruence]].
  rewrite Rw in Iw. apply in_map_iff in Iw. destruct Iw as ([[w1 w2] ph] & Ew & Iw). cbn [snd] in Ew. subst ph. apply In_nth_error in Iw. destruct Iw as (i & Hi).
  pose proof C1 as (_&_&_&_&_&(ND & _)&_). pose proof C1' as (_&_&_&_&_&(ND' & _)&_).
  assert (Same : l_comp (cm_kind m1) (s_id2col s1') (value s1' w1) (value s2' w2) c = l_comp (cm_kind m) (s_id2col s1) (value s1 w1) (value s2 w2) c).
  { rewrite Hk. apply l_comp_same; try assumption; [apply H1|apply H2|intros x Hx; apply value_no_label, Hx|intros x Hx; rewrite <- (sc_value _ _ H1); apply value_no_label, Hx]. }
  destruct (in_dec string_dec c (s_id2col s1)) as [I1|I1], (in_dec string_dec c (s_id2col s1')) as [I2|I2].
  - rewrite (V i w1 w2 w c Hi I1), (V' i w1 w2 w c Hi I2). exact Same.
  - rewrite (V i w1 w2 w c Hi I1), (value_no_label s') by (rewrite Lc'; exact I2). symmetry. apply l_comp_zero.
    + rewrite <- (sc_value _ _ H1). apply value_no_label, I2.
    + rewrite <- (sc_value _ _ H2). apply value_no_label. rewrite <- Hl. exact I2.
  - rewrite (V' i w1 w2 w c Hi I2), (value_no_label s) by (rewrite Lc; exact I1). rewrite Same. apply l_comp_zero; apply value_no_label; [exact I1|rewrite <- Eq; exact I1].
  - rewrite !value_no_label; [reflexivity|rewrite Lc; exact I1|rewrite Lc'; exact I2].
Qed.
End Comp.

Section Ex.
Context {E : @Ext RNum}.
Definition zero_phrases : list (string * string * string) := [("car", "dog", "car_dog"); ("bus", "dog", "bus_dog"); ("dog", "dog", "dog_dog")].
Example C106_compose_example : exists m2 s m3 s', same_counts sp_tab1 sp_tab3 /\ s_id2col sp_tab3 <> s_id2col sp_tab1 /\ fresh_scalar (CM (Dil 2%R) None) /\
  filter (usable2 sp_tab3 sp_tab3) zero_phrases = filter (usable2 sp_tab1 sp_tab1) zero_phrases /\
  compose (CM (Dil 2%R) None) zero_phrases (Tup [sp_tab1; sp_tab1]) = (m2, Ok s) /\ compose (CM (Dil 2%R) None) zero_phrases (Tup [sp_tab3; sp_tab3]) = (m3, Ok s') /\
  s_id2row s = ["car_dog"; "dog_dog"] /\ same_counts s s'.
Proof.
  assert (Fr : fresh_scalar (CM (Dil 2%R) None)) by (split; [reflexivity|exact Logic.I]).
  assert (Fl : filter (usable2 sp_tab3 sp_tab3) zero_phrases = filter (usable2 sp_tab1 sp_tab1) zero_phrases) by reflexivity.
  destruct (proj1 (C34_total (CM (Dil 2%R) None) zero_phrases (Tup [sp_tab1; sp_tab1]) sp_tab1 sp_tab1 tab1_ok tab1_ok (or_intror eq_refl) eq_refl eq_refl ltac:(discriminate) Logic.I)) as (s & Hs).
  { change (NoDup ["car_dog"; "dog_dog"]). repeat constructor; cbn; intuition discriminate. }
  destruct (compose (CM (Dil 2%R) None) zero_phrases (Tup [sp_tab1; sp_tab1])) as [m2 r] eqn:Hc. cbn [snd] in Hs. subst r.
  destruct (C106_compose _ (CM (Dil 2%R) None) _ _ (Tup [sp_tab3; sp_tab3]) sp_tab1 sp_tab1 sp_tab3 sp_tab3 m2 s tab13_counts tab13_counts eq_refl Fr Fr eq_refl Fl (or_intror eq_refl) (or_intror eq_refl) Hc) as (m3 & s' & H1 & _ & H3).
  exists m2, s, m3, s'. split; [exact tab13_counts|]. split; [discriminate|]. split; [exact Fr|]. split; [exact Fl|]. split; [reflexivity|]. split; [exact H1|]. split; [|exact H3].
  destruct (composed_value _ _ _ _ _ _ _ tab1_ok tab1_ok ltac:(discriminate) Fr (or_intror eq_refl) Hc) as (_ & _ & _ & _ & Rw & _). rewrite Rw. reflexivity.
Qed.
End Ex.
