(** Prop_Symm.v -- C86: the similarity of two words is exactly the same number in both directions, also when it is computed with
    rounding errors; and the Euclidean score of a word with itself is exactly 1. *)
From Coq Require Import Reals Lra ZArith.
From Flocq Require Import Core.
From Verif Require Import Base PyList Dict Num Dense Sparse Matrix Scaling Linalg Operation Similarity Space PMatrix SpecSpace PSpace Prop_Space Round RoundEx.
Local Open Scope nat_scope.

(** ** Specification: sums and products do not depend on the order of their two operands, and x - y is y - x with the other sign.
    Floating-point operations meet this although they are neither associative nor distributive. *)
Record commuting (N : Num) : Prop := {
  cm_add : forall a b : F, fadd a b = fadd b a;
  cm_mul : forall a b : F, fmul a b = fmul b a;
  cm_sub : forall a b : F, fsub a b = fopp (fsub b a);
  cm_sq : forall a : F, fmul (fopp a) (fopp a) = fmul a a;
  cm_opp0 : forall a : F, fopp a = f0 <-> a = f0 }.
(** computing with zero and one is exact *)
Record exact_zero_one (N : Num) : Prop := {
  z_sub : forall a : F, fsub a a = f0;
  z_mul : fmul (f0 : F) f0 = f0;
  z_add : fadd (f0 : F) f0 = f0;
  z_sqrt : fsqrt (f0 : F) = f0;
  z_one : fadd (f1 : F) f0 = f1;
  z_div : fdiv (f1 : F) f1 = f1 }.

Section Symm.
Context {N : Num} (C : commuting N).

Lemma multiply_comm a b : m_multiply a b = m_multiply b a.
Proof.
  unfold m_multiply, same_type.
  replace (mtype_eqb (type_of b) (type_of a)) with (mtype_eqb (type_of a) (type_of b)) by (destruct (type_of a), (type_of b); reflexivity).
  destruct (mtype_eqb (type_of a) (type_of b)) eqn:T; [|reflexivity]. cbn [check bind].
  unfold same_shapeb. rewrite (Nat.eqb_sym (m_nr b)), (Nat.eqb_sym (m_nc b)).
  destruct (Nat.eqb (m_nr a) (m_nr b) && Nat.eqb (m_nc a) (m_nc b)) eqn:S; [|reflexivity]. cbn [check bind].
  apply andb_prop in S. destruct S as (S1 & S2). apply Nat.eqb_eq in S1, S2.
  assert (TT : type_of a = type_of b) by (destruct (type_of a), (type_of b); congruence || discriminate). rewrite TT.
  f_equal. f_equal. unfold d_map2. rewrite !to_dense_nr, !to_dense_nc, S1, S2. apply tab_ext. intros. apply (cm_mul N C).
Qed.
Lemma zip_same f a b : same_shapeb a b = true -> type_of a = type_of b ->
  m_zip f a b = Ok (of_dense (type_of a) (d_map2 f (to_dense a) (to_dense b))).
Proof.
  intros S T. unfold m_zip, same_type. rewrite T. replace (mtype_eqb (type_of b) (type_of b)) with true by (destruct (type_of b); reflexivity).
  cbn [check bind]. rewrite S. unfold same_shapeb in S. apply andb_prop in S. destruct S as (S1 & S2). apply Nat.eqb_eq in S1, S2.
  destruct a as [d|c], b as [d'|c']; try discriminate; cbn [type_of of_dense to_dense].
  - rewrite d_bcast_same by assumption. reflexivity.
  - reflexivity.
Qed.
Lemma shape_sym a b : same_shapeb b a = same_shapeb a b.
Proof. unfold same_shapeb. rewrite (Nat.eqb_sym (m_nr b)), (Nat.eqb_sym (m_nc b)). reflexivity. Qed.
Lemma map2_swap f g a b : same_shapeb a b = true -> (forall x y, f x y = g y x) ->
  d_map2 f (to_dense a) (to_dense b) = d_map2 g (to_dense b) (to_dense a).
Proof.
  intros S E. unfold same_shapeb in S. apply andb_prop in S. destruct S as (S1 & S2). apply Nat.eqb_eq in S1, S2.
  unfold d_map2. rewrite !to_dense_nr, !to_dense_nc, S1, S2. apply tab_ext. intros. apply E.
Qed.
Lemma add_comm_m a b : same_shapeb a b = true -> type_of a = type_of b -> m_add a b = m_add b a.
Proof.
  intros S T. unfold m_add. rewrite (zip_same fadd a b S T). rewrite (zip_same fadd b a) by (try (rewrite shape_sym); congruence).
  rewrite T. rewrite (map2_swap fadd fadd a b S (cm_add N C)). reflexivity.
Qed.
Lemma dot_symm a b : dot_sim a b = dot_sim b a.
Proof. unfold dot_sim. rewrite multiply_comm. reflexivity. Qed.
Lemma cos_symm a b : cos_sim a b = cos_sim b a.
Proof. unfold cos_sim. rewrite Bool.orb_comm, dot_symm, (cm_mul N C (m_norm a)). reflexivity. Qed.
Lemma lin_symm a b : same_shapeb a b = true -> type_of a = type_of b -> lin_sim a b = lin_sim b a.
Proof. intros S T. unfold lin_sim. rewrite multiply_comm, (cm_add N C (m_sum a)), add_comm_m by assumption. reflexivity. Qed.

(** norms do not see the sign *)
Lemma sumn_ext' n f g : (forall i, i < n -> f i = g i :> F) -> sumn n f = sumn n g.
Proof. intros E. induction n as [|n IH]; [reflexivity|]. cbn [sumn]. rewrite IH by (intros; apply E; lia). rewrite E by lia. reflexivity. Qed.
Lemma data_rows nc (rows : list (list (nat * F))) : s_data (csr_of_rows nc rows) = map snd (concat rows).
Proof. reflexivity. Qed.
Lemma filter_sq (f g : nat -> F) l : (forall j, In j l -> f j = fopp (g j)) ->
  map fsq (map snd (filter nz (map (fun j => (j, f j)) l))) = map fsq (map snd (filter nz (map (fun j => (j, g j)) l))).
Proof.
  induction l as [|j l IH]; intros E; [reflexivity|]. cbn [map filter]. change (nz (j, f j)) with (negb (feqb (f j) f0)). change (nz (j, g j)) with (negb (feqb (g j) f0)).
  assert (Q : feqb (f j) f0 = feqb (g j) f0).
  { rewrite (E j (or_introl eq_refl)). destruct (feqb (g j) f0) eqn:G.
    - apply feqb_eq in G. apply feqb_eq. apply (proj2 (cm_opp0 N C _)), G.
    - apply feqb_neq. intros Z. apply (proj1 (cm_opp0 N C _)) in Z. rewrite Z, feqb_refl in G. discriminate. }
  rewrite Q. specialize (IH (fun j Hj => E j (or_intror Hj))).
  destruct (feqb (g j) f0); cbn [negb map snd]; [exact IH|]. rewrite IH. f_equal. rewrite (E j (or_introl eq_refl)). apply (cm_sq N C).
Qed.
Lemma norm_opp t a b : d_nr a = d_nr b -> d_nc a = d_nc b ->
  (forall i j, i < d_nr b -> j < d_nc b -> dent a i j = fopp (dent b i j)) -> m_norm (of_dense t a) = m_norm (of_dense t b).
Proof.
  intros Hr Hc E. destruct t; cbn [of_dense m_norm]; f_equal.
  - unfold d_sqtotal. rewrite Hr, Hc. apply sumn_ext'. intros i Hi. apply sumn_ext'. intros j Hj. rewrite E by assumption. apply (cm_sq N C).
  - unfold csr_of_dense. rewrite Hr, Hc. rewrite !data_rows, !concat_map, !map_map. f_equal. f_equal.
    apply map_ext_in. intros i Hi. apply in_seq in Hi. apply filter_sq. intros j Hj. apply in_seq in Hj. apply E; lia.
Qed.
Lemma euclid_symm a b : same_shapeb a b = true -> type_of a = type_of b -> euclid_sim a b = euclid_sim b a.
Proof.
  intros S T. unfold euclid_sim, m_sub. rewrite (zip_same fsub a b S T). rewrite (zip_same fsub b a) by (try (rewrite shape_sym); congruence).
  cbn [bind]. rewrite T. f_equal. f_equal. f_equal. pose proof S as S'. unfold same_shapeb in S. apply andb_prop in S. destruct S as (S1 & S2). apply Nat.eqb_eq in S1, S2.
  apply norm_opp; unfold d_map2; cbn [d_nr d_nc tab]; rewrite ?to_dense_nr, ?to_dense_nc; try assumption.
  intros i j Hi Hj. rewrite !dent_tab by (rewrite ?S1, ?S2; assumption). apply (cm_sub N C).
Qed.
Lemma sim_symm s a b : same_shapeb a b = true -> type_of a = type_of b -> sim_raw s a b = sim_raw s b a.
Proof. intros S T. destruct s; cbn [sim_raw]; [apply cos_symm|apply dot_symm|apply euclid_symm; assumption|apply lin_symm; assumption]. Qed.

(** ** C86 *)
(** two vectors of the same class *)
Theorem C86_vectors : forall sim v1 v2, type_of v1 = type_of v2 -> sim_get sim v1 v2 = sim_get sim v2 v1.
Proof.
  intros sim v1 v2 T. unfold sim_get, to_compatible.
  assert (K : conv (type_of v1) v2 = v2) by (rewrite T; destruct v2; reflexivity).
  assert (K' : conv (type_of v2) v1 = v1) by (rewrite <- T; destruct v1; reflexivity).
  rewrite K, K'. unfold assert_same_shape. rewrite (shape_sym v1 v2). destruct (same_shapeb v1 v2) eqn:S; [|reflexivity]. cbn [check bind].
  apply sim_symm; assumption.
Qed.
Lemma resolve_same a b : exists x y, resolve2 a b (Some TDense) = Ok (x, y) /\ resolve2 b a (Some TDense) = Ok (y, x) /\ type_of x = type_of y.
Proof. destruct a as [d|c], b as [d'|c']; cbn; eexists; eexists; repeat split. Qed.
(** two words, of one space or of two *)
Theorem C86_words : forall s1 s2 w1 w2 sim, consistent s1 -> consistent s2 ->
  get_sim s1 w1 w2 sim (Some s2) = get_sim s2 w2 w1 sim (Some s1).
Proof.
  intros s1 s2 w1 w2 sim H1 H2. unfold get_sim.
  destruct (C03_get_row_missing s1 w1 H1) as (M1 & [N1|(v1 & V1)]), (C03_get_row_missing s2 w2 H2) as (M2 & [N2|(v2 & V2)]).
  - rewrite (proj2 M1 N1), (proj2 M2 N2). reflexivity.
  - rewrite (proj2 M1 N1), V2. cbn [is_key_error bind]. reflexivity.
  - rewrite (proj2 M2 N2), V1. cbn [is_key_error bind]. reflexivity.
  - rewrite V1, V2. cbn [is_key_error bind]. destruct (resolve_same v1 v2) as (x & y & -> & -> & T). cbn [bind]. apply C86_vectors, T.
Qed.
Theorem C86_same_space : forall s w1 w2 sim, consistent s -> get_sim s w1 w2 sim None = get_sim s w2 w1 sim None.
Proof. intros s w1 w2 sim H. exact (C86_words s s w1 w2 sim H H). Qed.
End Symm.

(** the Euclidean score of a word with itself is exactly 1 *)
Section Self.
Context {N : Num} (Z : exact_zero_one N).
Lemma sumn_zero n f : (forall i, i < n -> f i = f0 :> F) -> sumn n f = f0.
Proof. induction n as [|n IH]; intros E; [reflexivity|]. cbn [sumn]. rewrite IH by (intros; apply E; lia). rewrite E by lia. apply (z_add N Z). Qed.
Lemma suml_none (f : nat -> F) l : (forall j, In j l -> f j = f0) -> filter nz (map (fun j => (j, f j)) l) = [].
Proof.
  induction l as [|j l IH]; intros E; [reflexivity|]. cbn [map filter]. change (nz (j, f j)) with (negb (feqb (f j) f0)).
  rewrite (E j (or_introl eq_refl)), feqb_refl. cbn [negb]. apply IH. intros x Hx. apply E. right. exact Hx.
Qed.
Lemma norm_zero t d : (forall i j, i < d_nr d -> j < d_nc d -> dent d i j = f0) -> m_norm (of_dense t d) = f0.
Proof.
  intros E. rewrite <- (z_sqrt N Z). destruct t; cbn [of_dense m_norm]; f_equal.
  - apply sumn_zero. intros i Hi. apply sumn_zero. intros j Hj. rewrite E by assumption. apply (z_mul N Z).
  - assert (D : s_data (csr_of_dense d) = []); [|rewrite D; reflexivity]. unfold csr_of_dense. rewrite data_rows.
    rewrite (map_ext_in _ (fun _ => [])); [|intros i Hi; apply in_seq in Hi; apply suml_none; intros j Hj; apply in_seq in Hj; apply E; lia].
    induction (seq 0 (d_nr d)) as [|x l IH]; [reflexivity|exact IH].
Qed.
Theorem C86_self : forall s w, consistent s -> In w (s_id2row s) -> get_sim s w w Euclid None = Ok f1.
Proof.
  intros s w H Hw. unfold get_sim. destruct (C03_get_row_missing s w H) as (_ & [Hn|(v & ->)]); [contradiction|]. cbn [is_key_error bind].
  assert (K : resolve2 v v (Some TDense) = Ok (v, v)) by (destruct v; reflexivity). rewrite K. cbn [bind]. unfold sim_get, to_compatible.
  assert (K' : conv (type_of v) v = v) by (destruct v; reflexivity). rewrite K'. unfold assert_same_shape.
  assert (S : same_shapeb v v = true) by (unfold same_shapeb; rewrite !Nat.eqb_refl; reflexivity). rewrite S. cbn [check bind sim_raw].
  unfold euclid_sim, m_sub. rewrite zip_same by (try exact S; reflexivity). cbn [bind]. rewrite norm_zero.
  - rewrite (z_one N Z), (z_div N Z). reflexivity.
  - unfold d_map2; cbn [d_nr d_nc tab]. intros i j Hi Hj. rewrite dent_tab by assumption. apply (z_sub N Z).
Qed.
End Self.

(** ** Concrete cases: exact arithmetic and double precision *)
Lemma R_commuting : commuting RNum.
Proof.
  constructor; cbn; intros.
  - apply Rplus_comm.
  - apply Rmult_comm.
  - lra.
  - ring.
  - split; intros; lra.
Qed.
Lemma rnd_opp x : rnd (- x) = (- rnd x)%R.
Proof. unfold rnd. apply round_NE_opp. Qed.
Lemma rnd0 : rnd 0 = 0%R.  Proof. unfold rnd. apply round_0. typeclasses eauto. Qed.
Lemma rnd1 : rnd 1 = 1%R.  Proof. exact (rnd_int 1 ltac:(lia)). Qed.
Theorem C86_double : commuting (FNum double) /\ exact_zero_one (FNum double).
Proof.
  split; constructor; cbn; intros.
  - rewrite Rplus_comm. reflexivity.
  - rewrite Rmult_comm. reflexivity.
  - rewrite <- rnd_opp. f_equal. lra.
  - f_equal. ring.
  - split; intros; lra.
  - rewrite Rminus_diag_eq by reflexivity. apply rnd0.
  - rewrite Rmult_0_l. apply rnd0.
  - rewrite Rplus_0_l. apply rnd0.
  - rewrite sqrt_0. apply rnd0.
  - rewrite Rplus_0_r. apply rnd1.
  - unfold Rdiv. rewrite Rinv_1, Rmult_1_r. apply rnd1.
Qed.
Definition dsp : @space (FNum double) :=
  @SP (FNum double) (@MD (FNum double) (@DM (FNum double) 2 2 [[1%R; 3%R]; [2%R; 0%R]])) ["a"%string; "b"%string] []
     [("a"%string, 0%Z); ("b"%string, 1%Z)] [] [] [2].
Example C86_example : consistent dsp /\ (forall sim, exists x, get_sim dsp "a" "b" sim None = Ok x).
Proof.
  split.
  - eapply (@PSpace.mk_space_consistent (FNum double) (@MD (FNum double) (@DM (FNum double) 2 2 [[1%R; 3%R]; [2%R; 0%R]])) ["a"%string; "b"%string] [] None None [] None);
      [|constructor|exact I|exact I|reflexivity].
    cbn. repeat split; try lia; repeat constructor.
  - intros sim. cbn. destruct sim; unfold get_sim; cbn -[cos_sim dot_sim lin_sim euclid_sim].
    + unfold cos_sim. destruct (feqb _ _ || feqb _ _); eexists; reflexivity.
    + eexists. reflexivity.
    + eexists. reflexivity.
    + unfold lin_sim. cbn [m_multiply same_type]. cbn. destruct (Reqb _ _); eexists; reflexivity.
Qed.
