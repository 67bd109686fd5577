(** Prop_Axes.v -- property C103: similarities, neighbours, and composition with scalar parameters do not depend on the choice of the axes. *)
From Coq Require Import Reals Lra Psatz.
From Verif Require Import Base PyList Dict Num SpecReal Dense Sparse Matrix PSparse PMatrix PMatOps PShape PVals PReal PPos PSort Scaling Linalg
  PLsq Learner Operation Similarity Space Peripheral SpecSpace PDictList PSpace Prop_Space Prop_Sim Prop_Neigh PMoved Prop_Periph PCols Prop_Order Prop_Counts Prop_Unit
  Composition SpecComp PComp Prop_Ridge Prop_Train Prop_Comp.
#[local] Existing Instance RNum.
Open Scope string_scope.
Open Scope list_scope.
Open Scope R_scope.
Open Scope nat_scope.

(** ** specification *)
(** the spaces of n dimensions on the left and those of n' dimensions on the right hold the same words, and the dot product of any two vectors
    (of the same or of different spaces) is the same on both sides *)
Record same_geometry (n n' : nat) (l : list (space * space)) : Prop := {
  sg_spaces : forall s s', In (s, s') l -> consistent s /\ consistent s' /\ m_nc (s_mat s) = n /\ m_nc (s_mat s') = n' /\ s_id2row s' = s_id2row s;
  sg_dots : forall a a' b b' w v, In (a, a') l -> In (b, b') l -> In w (s_id2row a) -> In v (s_id2row b) ->
    dot n (vec a w) (vec b v) = dot n' (vec a' w) (vec b' v) }.
(** the optional second space of get_sim and get_neighbours *)
Definition both (o o' : option space) (l : list (space * space)) : Prop :=
  match o, o' with None, None => True | Some x, Some x' => In (x, x') l | _, _ => False end.

(** ** lemmas *)
Lemma vec_at s p w j : consistent s -> nth_error (s_id2row s) p = Some w -> vec s w j = ment (s_mat s) p j.
Proof.
  intros (_ & _ & _ & (Nd & _) & _) Hp. unfold vec. destruct (pos_of_In (s_id2row s) w (nth_error_In _ _ Hp)) as (q & Hq). rewrite Hq.
  rewrite (NoDup_nth_error_inj _ _ _ _ Nd (pos_of_some _ _ _ Hq) Hp). reflexivity.
Qed.
Lemma dot_diff n u v : dot n (fun i => u i - v i)%R (fun i => u i - v i)%R = (dot n u u - 2 * dot n u v + dot n v v)%R.
Proof. unfold dot. induction n as [|n IH]; [cbn; ring|]. cbn [rsum]. rewrite IH. ring. Qed.
Lemma sim_by_dots sim n n' u v u' v' : sim <> Lin -> dot n u v = dot n' u' v' -> dot n u u = dot n' u' u' -> dot n v v = dot n' v' v' ->
  sim_spec sim n u v = sim_spec sim n' u' v'.
Proof.
  intros Hs H1 H2 H3. assert (Nu : norm n u = norm n' u') by (unfold norm; rewrite H2; reflexivity). assert (Nv : norm n v = norm n' v') by (unfold norm; rewrite H3; reflexivity).
  destruct sim; cbn [sim_spec].
  - unfold cosine. rewrite Nu, Nv, H1. reflexivity.
  - exact H1.
  - unfold euclid_score. replace (norm n' (fun i => u' i - v' i)%R) with (norm n (fun i => u i - v i)%R); [reflexivity|]. unfold norm. f_equal.
    rewrite !dot_diff, H1, H2, H3. reflexivity.
  - contradiction.
Qed.
Lemma dot_ext n u v u' v' : (forall j, j < n -> u j = u' j) -> (forall j, j < n -> v j = v' j) -> dot n u v = dot n u' v'.
Proof. intros H1 H2. unfold dot. apply rsum_ext. intros j Hj. rewrite H1, H2 by exact Hj. reflexivity. Qed.

Section WithExt.
Context {E : @Ext RNum}.
Lemma both_searched s s' o o' l : In (s, s') l -> both o o' l -> In (searched s o, searched s' o') l.
Proof. intros H1 H2. destruct o, o'; cbn in *; try contradiction; assumption. Qed.

(** ** similarities and neighbours *)
Theorem C103_get_sim : forall n n' l s s' o o' w1 w2 sim, same_geometry n n' l -> In (s, s') l -> both o o' l -> sim <> Lin ->
  get_sim s w1 w2 sim o = get_sim s' w1 w2 sim o'.
Proof.
  intros n n' l s s' o o' w1 w2 sim G Hs Ho Hsim. pose proof (both_searched _ _ _ _ _ Hs Ho) as H2.
  destruct (sg_spaces _ _ _ G _ _ Hs) as (C1 & C1' & N1 & N1' & R1). destruct (sg_spaces _ _ _ G _ _ H2) as (C2 & C2' & N2 & N2' & R2).
  destruct (in_dec string_dec w1 (s_id2row s)) as [I1|I1].
  2:{ rewrite !C10_get_sim_missing; try assumption; [reflexivity| |left; exact I1]. left. rewrite R1. exact I1. }
  destruct (in_dec string_dec w2 (s_id2row (searched s o))) as [I2|I2].
  2:{ rewrite !C10_get_sim_missing; try assumption; [reflexivity| |right; exact I2]. right. rewrite R2. exact I2. }
  destruct (In_nth_error _ _ I1) as (p & Hp). destruct (In_nth_error _ _ I2) as (q & Hq).
  assert (Hp' : nth_error (s_id2row s') p = Some w1) by (rewrite R1; exact Hp). assert (Hq' : nth_error (s_id2row (searched s' o')) q = Some w2) by (rewrite R2; exact Hq).
  rewrite (get_sim_rows s o w1 w2 p q n sim C1 C2 Hp Hq N1 N2), (get_sim_rows s' o' w1 w2 p q n' sim C1' C2' Hp' Hq' N1' N2'). apply (f_equal (@Ok R)).
  rewrite (sim_spec_ext sim n _ (vec s w1) _ (vec (searched s o) w2)), (sim_spec_ext sim n' _ (vec s' w1) _ (vec (searched s' o') w2));
    try (intros j _; symmetry; apply vec_at; assumption).
  apply sim_by_dots; [exact Hsim| | |]; apply (sg_dots _ _ _ G); assumption.
Qed.
Theorem C103_neighbours : forall n n' l s s' o o' w k sim, same_geometry n n' l -> In (s, s') l -> both o o' l -> sim <> Lin ->
  get_neighbours s w k sim o = get_neighbours s' w k sim o'.
Proof.
  intros n n' l s s' o o' w k sim G Hs Ho Hsim. pose proof (both_searched _ _ _ _ _ Hs Ho) as H2.
  destruct (sg_spaces _ _ _ G _ _ Hs) as (C1 & C1' & N1 & N1' & R1). destruct (sg_spaces _ _ _ G _ _ H2) as (C2 & C2' & N2 & N2' & R2).
  destruct (in_dec string_dec w (s_id2row s)) as [I1|I1].
  2:{ rewrite !C09_missing; try assumption; [reflexivity|]. rewrite R1. exact I1. }
  destruct (C09_neighbours s w k sim o C1 C2 I1 ltac:(congruence)) as (x & sc & -> & T & S).
  destruct (C09_neighbours s' w k sim o' C1' C2' ltac:(rewrite R1; exact I1) ltac:(congruence)) as (x' & sc' & -> & T' & S'). f_equal.
  rewrite R2 in T', S'. pose proof C2 as (_ & _ & _ & (Nd & _) & _). apply (top_k_unique (s_id2row (searched s o)) sc (Z.to_nat k)); [exact Nd|exact T|].
  assert (SE : forall q y, nth_error (s_id2row (searched s o)) q = Some y -> sc q = sc' q).
  { intros q y Hq. pose proof (S q y Hq) as K. rewrite (C103_get_sim n n' l s s' o o' w y sim G Hs Ho Hsim), (S' q y Hq) in K. congruence. }
  split.
  - exact (tk_length _ _ _ _ T').
  - exact (tk_distinct _ _ _ _ T').
  - intros y c H. destruct (tk_score _ _ _ _ T' y c H) as (q & Hq & ->). exists q. split; [exact Hq|]. symmetry. exact (SE q y Hq).
  - exact (tk_order _ _ _ _ T').
  - intros q y z c Hq Hn Hz. rewrite (SE q y Hq). exact (tk_omitted _ _ _ _ T' q y z c Hq Hn Hz).
Qed.

(** ** composition with WeightedAdditive and Dilation *)
Definition scalar_model (m : cmodel) : Prop := (exists al be, cm_kind m = WAdd al be) \/ (exists la, cm_kind m = Dil la).
(** the composed vectors have the same dot products with each other and with all other vectors *)
Theorem C103_compose : forall n n' l m m1 data a a' s1 s2 s1' s2' m2 m3 s s', same_geometry n n' l -> In (s1, s1') l -> In (s2, s2') l ->
  scalar_model m -> cm_kind m1 = cm_kind m -> args_of a s1 s2 -> args_of a' s1' s2' ->
  compose m data a = (m2, Ok s) -> compose m1 data a' = (m3, Ok s') -> same_geometry n n' ((s, s') :: l).
Proof.
  intros n n' l m m1 data a a' s1 s2 s1' s2' m2 m3 s s' G H1 H2 Hm Hk Ha Ha' Hs Hs'.
  destruct (sg_spaces _ _ _ G _ _ H1) as (C1 & C1' & N1 & N1' & R1). destruct (sg_spaces _ _ _ G _ _ H2) as (C2 & C2' & N2 & N2' & R2).
  assert (Hf : fits (cm_kind m) (m_nc (s_mat s1)) (m_nc (s_mat s2))) by (destruct Hm as [(al & be & ->)|(la & ->)]; cbn; congruence).
  assert (Hf' : fits (cm_kind m1) (m_nc (s_mat s1')) (m_nc (s_mat s2'))) by (rewrite Hk; destruct Hm as [(al & be & ->)|(la & ->)]; cbn; congruence).
  destruct (C34_rows m data a s1 s2 m2 s C1 C2 Ha Hf Hs) as (C & Rw & _). destruct (C34_rows m1 data a' s1' s2' m3 s' C1' C2' Ha' Hf' Hs') as (C' & Rw' & _).
  assert (EU : filter (usable2 s1' s2') data = filter (usable2 s1 s2) data).
  { apply filter_ext. intros [[x y] p]. cbn. unfold known. rewrite R1, R2. reflexivity. }
  rewrite EU in Rw'. set (D := filter (usable2 s1 s2) data) in *.
  (* the composed vectors are the same linear combinations of the vectors of the words *)
  assert (L : m_nc (s_mat s) = n /\ m_nc (s_mat s') = n' /\ forall ph, In ph (s_id2row s) -> exists w1 w2 x y, In w1 (s_id2row s1) /\ In w2 (s_id2row s2) /\
    (forall j, j < n -> vec s ph j = (x * vec s1 w1 j + y * vec s2 w2 j)%R) /\ (forall j, j < n' -> vec s' ph j = (x * vec s1' w1 j + y * vec s2' w2 j)%R)).
  { assert (P : forall ph, In ph (s_id2row s) -> exists i w1 w2, nth_error D i = Some (w1, w2, ph) /\ In w1 (s_id2row s1) /\ In w2 (s_id2row s2) /\
      (forall j, vec s ph j = ment (s_mat s) i j) /\ (forall j, vec s' ph j = ment (s_mat s') i j)).
    { intros ph Hp. destruct (In_nth_error _ _ Hp) as (i & Hi). 
      assert (Hi2 : option_map snd (nth_error D i) = Some ph) by (refine (eq_trans (eq_sym (nth_error_map _ _ _)) _); refine (eq_trans _ Hi); exact (f_equal (fun z => nth_error z i) (eq_sym Rw))).
      destruct (nth_error D i) as [[[w1 w2] q]|] eqn:Q; [|discriminate Hi2]. cbn in Hi2. assert (q = ph) by congruence. subst q. exists i, w1, w2.
      pose proof (nth_error_In _ _ Q) as K. unfold D in K. apply filter_In in K. destruct K as (_ & K). cbn in K. apply andb_prop in K. destruct K as (K1 & K2).
      apply known_In in K1. apply known_In in K2. split; [exact Q|]. split; [exact K1|]. split; [exact K2|]. split; intros j; apply vec_at; try assumption.
      refine (eq_trans _ Hi). f_equal. congruence. }
    destruct Hm as [(al & be & Km)|(la & Km)].
    - destruct (C35_weighted_additive m al be data a s1 s2 m2 s Km C1 C2 Ha ltac:(congruence) Hs) as (M & V).
      destruct (C35_weighted_additive m1 al be data a' s1' s2' m3 s' ltac:(congruence) C1' C2' Ha' ltac:(congruence) Hs') as (M' & V').
      rewrite EU in V'. fold D in V, V'. rewrite N1 in M, V. rewrite N1' in M', V'. split; [exact M|]. split; [exact M'|]. intros ph Hp.
      destruct (P ph Hp) as (i & w1 & w2 & Hi & I1 & I2 & X & X'). exists w1, w2, al, be. split; [exact I1|]. split; [exact I2|].
      split; intros j Hj; [rewrite X; exact (V i w1 w2 ph j Hi Hj)|rewrite X'; exact (V' i w1 w2 ph j Hi Hj)].
    - destruct (C35_dilation m la data a s1 s2 m2 s Km C1 C2 Ha ltac:(congruence) Hs) as (M & V).
      destruct (C35_dilation m1 la data a' s1' s2' m3 s' ltac:(congruence) C1' C2' Ha' ltac:(congruence) Hs') as (M' & V').
      rewrite EU in V'. fold D in V, V'. rewrite N1 in M, V. rewrite N1' in M', V'. split; [exact M|]. split; [exact M'|]. intros ph Hp.
      destruct (P ph Hp) as (i & w1 & w2 & Hi & I1 & I2 & X & X').
      exists w1, w2, ((la - 1) * dot n (vec s1 w1) (vec s2 w2))%R, (dot n (vec s1 w1) (vec s1 w1)). split; [exact I1|]. split; [exact I2|].
      split; intros j Hj.
      + rewrite X. refine (eq_trans (V i w1 w2 ph j Hi Hj) _). cbv zeta. apply Rplus_comm.
      + rewrite X'. refine (eq_trans (V' i w1 w2 ph j Hi Hj) _). cbv zeta. rewrite Rplus_comm.
        rewrite (sg_dots _ _ _ G _ _ _ _ w1 w2 H1 H2 I1 I2), (sg_dots _ _ _ G _ _ _ _ w1 w1 H1 H1 I1 I1). reflexivity. }
  destruct L as (M & M' & L). split.
  - intros b b' [K|K]; [|exact (sg_spaces _ _ _ G _ _ K)]. injection K as <- <-. split; [exact C|]. split; [exact C'|]. split; [exact M|]. split; [exact M'|]. congruence.
  - assert (Dl : forall n0 x y u v z, dot n0 (fun j => x * u j + y * v j)%R z = (x * dot n0 u z + y * dot n0 v z)%R).
    { clear. intros. unfold dot. induction n0 as [|k IH]; [cbn; ring|]. cbn [rsum]. rewrite IH. ring. }
    assert (Dr : forall n0 x y u v z, dot n0 z (fun j => x * u j + y * v j)%R = (x * dot n0 z u + y * dot n0 z v)%R).
    { clear. intros. unfold dot. induction n0 as [|k IH]; [cbn; ring|]. cbn [rsum]. rewrite IH. ring. }
    assert (One : forall b b' ph v, In (b, b') l -> In ph (s_id2row s) -> In v (s_id2row b) -> dot n (vec s ph) (vec b v) = dot n' (vec s' ph) (vec b' v)).
    { intros b b' ph v Hb Hp Hv. destruct (L ph Hp) as (w1 & w2 & x & y & I1 & I2 & X & X').
      rewrite (dot_ext n (vec s ph) _ _ (vec b v) X (fun _ _ => eq_refl)), (dot_ext n' (vec s' ph) _ _ (vec b' v) X' (fun _ _ => eq_refl)), !Dl.
      rewrite (sg_dots _ _ _ G _ _ _ _ w1 v H1 Hb I1 Hv), (sg_dots _ _ _ G _ _ _ _ w2 v H2 Hb I2 Hv). reflexivity. }
    intros b b' c c' w v [K|K] [K'|K'] Hw Hv.
    + injection K as <- <-. injection K' as <- <-. destruct (L v Hv) as (w1 & w2 & x & y & I1 & I2 & X & X').
      rewrite (dot_ext n (vec s w) _ _ _ (fun _ _ => eq_refl) X), (dot_ext n' (vec s' w) _ _ _ (fun _ _ => eq_refl) X'), !Dr.
      rewrite (One s1 s1' w w1 H1 Hw I1), (One s2 s2' w w2 H2 Hw I2). reflexivity.
    + injection K as <- <-. exact (One c c' w v K' Hw Hv).
    + injection K' as <- <-. rewrite dot_sym, (dot_sym n'). exact (One b b' v w K Hv Hw).
    + exact (sg_dots _ _ _ G _ _ _ _ w v K K' Hw Hv).
Qed.

(** ** training learns the same parameters *)
Theorem C103_train : forall n n' l m m1 data a a' s1 s2 sp s1' s2' sp' m2 m3, same_geometry n n' l -> In (s1, s1') l -> In (s2, s2') l -> In (sp, sp') l ->
  scalar_model m -> cm_kind m1 = cm_kind m -> args_of a s1 s2 -> args_of a' s1' s2' ->
  train m data a sp = (m2, Ok tt) -> train m1 data a' sp' = (m3, Ok tt) -> cm_kind m3 = cm_kind m2.
Proof.
  intros n n' l m m1 data a a' s1 s2 sp s1' s2' sp' m2 m3 G H1 H2 H3 Hm Hk Ha Ha' Ht Ht'.
  destruct (sg_spaces _ _ _ G _ _ H1) as (C1 & C1' & N1 & N1' & R1). destruct (sg_spaces _ _ _ G _ _ H2) as (C2 & C2' & N2 & N2' & R2).
  destruct (sg_spaces _ _ _ G _ _ H3) as (C3 & C3' & N3 & N3' & R3).
  assert (EU : filter (usable3 s1' s2' sp') data = filter (usable3 s1 s2 sp) data).
  { apply filter_ext. intros [[x y] p]. cbn. unfold known. rewrite R1, R2, R3. reflexivity. }
  unfold train in Ht, Ht'.
  destruct (train_lists data a sp) as [r|e] eqn:ET; [|destruct (cm_kind m); discriminate Ht].
  destruct (train_lists data a' sp') as [r'|e'] eqn:ET'; [|destruct (cm_kind m1); discriminate Ht'].
  destruct (train_lists_ok data a s1 s2 sp C1 C2 C3 Ha r ET) as (Hne & ->). destruct (train_lists_ok data a' s1' s2' sp' C1' C2' C3' Ha' r' ET') as (_ & ->).
  rewrite EU in Ht'. set (D := filter (usable3 s1 s2 sp) data) in *. cbn [bind] in Ht, Ht'.
  assert (U : forall t, In t D -> usable3 s1 s2 sp t = true) by (intros t K; exact (usable_filter s1 s2 sp data t K)).
  assert (U' : forall t, In t D -> usable3 s1' s2' sp' t = true) by (intros t K; rewrite <- EU in K; exact (usable_filter s1' s2' sp' data t K)).
  assert (K3 : forall t, In t D -> In (t1 t) (s_id2row s1) /\ In (t2 t) (s_id2row s2) /\ In (t3 t) (s_id2row sp)).
  { intros t K. apply U in K. destruct t as [[x y] p]. cbn in K. apply andb_prop in K. destruct K as (K & Kp). apply andb_prop in K. destruct K as (K1 & K2).
    rewrite !known_In in *. auto. }
  destruct Hm as [(al & be & Km)|(la & Km)]; rewrite Hk, Km in Ht'; rewrite Km in Ht.
  - unfold wadd_xxx in Ht, Ht'. rewrite !map_length in *.
    assert (NR : m_nr (s_mat sp') = m_nr (s_mat sp)) by (destruct C3 as (_ & L3 & _), C3' as (_ & L3' & _); congruence).
    rewrite NR in Ht'. set (cs := chunk_size (m_nr (s_mat sp))) in *. assert (Hcs : 0 < cs) by (unfold cs, chunk_size; lia).
    assert (Hle : length D / cs * cs <= length D) by (rewrite Nat.mul_comm; apply Nat.mul_div_le; lia).
    rewrite (wadd_chunks s1 s2 sp D cs C1 C2 C3 U ltac:(congruence) ltac:(congruence) Hcs (length D / cs) Hle) in Ht.
    rewrite (wadd_chunks s1' s2' sp' D cs C1' C2' C3' U' ltac:(congruence) ltac:(congruence) Hcs (length D / cs) Hle) in Ht'.
    assert (ED : dots s1' s2' sp' (firstn (length D / cs * cs) D) = dots s1 s2 sp (firstn (length D / cs * cs) D)).
    { assert (K4 : forall t, In t (firstn (length D / cs * cs) D) -> In t D) by (intros t K; rewrite <- (firstn_skipn (length D / cs * cs) D); apply in_app_iff; left; exact K).
      unfold dots. cbv zeta. rewrite N3, N3'.
      assert (LE : forall f g : tuple3 -> R, (forall t, In t D -> f t = g t) -> lsum f (firstn (length D / cs * cs) D) = lsum g (firstn (length D / cs * cs) D)).
      { intros f g K. apply lsum_ext. intros t Q. apply K, K4, Q. }
      f_equal; [f_equal; [f_equal; [f_equal|]|]|]; apply LE; intros t K; destruct (K3 t K) as (I1 & I2 & I3); symmetry; apply (sg_dots _ _ _ G); assumption. }
    rewrite ED in Ht'. cbn [bind] in Ht, Ht'. destruct (dots s1 s2 sp _) as [[[[d1 d2] d3] d4] d5]. destruct (wadd_train2 d1 d2 d3 d4 d5) as [[x y]|e]; [|discriminate Ht].
    injection Ht as <-. injection Ht' as <-. reflexivity.
  - destruct (rows3 s1 s2 sp D C1 C2 C3 Hne U) as (u & v & p & t & Eg & Vu & Vv & Vp). rewrite Eg in Ht. cbn [bind] in Ht.
    destruct (rows3 s1' s2' sp' D C1' C2' C3' Hne U') as (u' & v' & p' & t' & Eg' & Vu' & Vv' & Vp'). rewrite Eg' in Ht'. cbn [bind] in Ht'.
    rewrite (dil_train_vals s1 s2 sp D u v p t ltac:(congruence) ltac:(congruence) Vu Vv Vp) in Ht.
    rewrite (dil_train_vals s1' s2' sp' D u' v' p' t' ltac:(congruence) ltac:(congruence) Vu' Vv' Vp') in Ht'. cbv zeta in Ht, Ht'. rewrite N3 in Ht. rewrite N3' in Ht'.
    assert (Dm : forall n0 x y z c, dot n0 x (fun j => c * y j - z j)%R = (c * dot n0 x y - dot n0 x z)%R).
    { clear. intros. unfold dot. induction n0 as [|k IH]; [cbn; ring|]. cbn [rsum]. rewrite IH. ring. }
    match type of Ht with context [lsum ?f D] => set (f1 := f) in Ht end.
    match type of Ht' with context [lsum ?f D] => set (f1' := f) in Ht' end.
    assert (E1 : lsum f1' D = lsum f1 D).
    { apply lsum_ext. intros x K. destruct (K3 x K) as (I1 & I2 & I3). unfold f1, f1'.
      rewrite (sg_dots _ _ _ G _ _ _ _ _ _ H1 H2 I1 I2), (sg_dots _ _ _ G _ _ _ _ _ _ H1 H1 I1 I1). reflexivity. }
    rewrite E1 in Ht'.
    match type of Ht with context [(lsum ?f D / lsum f1 D)%R] => set (f2 := f) in Ht end.
    match type of Ht' with context [(lsum ?f D / lsum f1 D)%R] => set (f2' := f) in Ht' end.
    assert (E2 : lsum f2' D = lsum f2 D).
    { apply lsum_ext. intros x K. destruct (K3 x K) as (I1 & I2 & I3). unfold f2, f2'. rewrite !Dm.
      rewrite (sg_dots _ _ _ G _ _ _ _ _ _ H1 H2 I1 I2), (sg_dots _ _ _ G _ _ _ _ _ _ H1 H1 I1 I1), (sg_dots _ _ _ G _ _ _ _ _ _ H1 H3 I1 I3). reflexivity. }
    rewrite E2 in Ht'. injection Ht as <-. injection Ht' as <-. reflexivity.
Qed.
End WithExt.
