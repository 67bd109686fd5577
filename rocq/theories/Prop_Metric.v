(** Prop_Metric.v -- C95: Euclidean scores and cosines are those of a geometry: how similar two words can be is bounded by how similar each is to a third. *)
From Coq Require Import Reals Lra Psatz.
From Verif Require Import Base PyList Dict Num SpecReal Dense Sparse Matrix PSparse PMatrix PMatOps PShape PVals PReal PPos PSort Scaling Linalg Operation
  Similarity Space Peripheral SpecSpace PDictList PSpace Prop_Space Prop_Scaling Prop_Sim Prop_Neigh PMoved Prop_Periph PCols Prop_Order Prop_Counts Prop_Unit.
#[local] Existing Instance RNum.
Open Scope R_scope.

(** ** specification *)
(** the distance a Euclidean score stands for *)
Definition distance (score : R) : R := 1 / score - 1.
(** three spaces over the same dimensions, and a word of each (the spaces may be the same) *)
Definition three (s1 s2 s3 : space) (a b c : string) : Prop :=
  consistent s1 /\ consistent s2 /\ consistent s3 /\ m_nc (s_mat s1) = m_nc (s_mat s2) /\ m_nc (s_mat s2) = m_nc (s_mat s3) /\
  In a (s_id2row s1) /\ In b (s_id2row s2) /\ In c (s_id2row s3).

(** ** vectors *)
Lemma Rabs_def2_le x a : Rabs x <= a -> - a <= x <= a.
Proof. intros H. pose proof (Rle_abs x). pose proof (Rle_abs (- x)). rewrite Rabs_Ropp in *. lra. Qed.
Lemma norm_triangle n u v : norm n (fun i => u i + v i) <= norm n u + norm n v.
Proof.
  apply Rsqr_incr_0_var; [|pose proof (norm_nonneg n u); pose proof (norm_nonneg n v); lra]. unfold Rsqr. rewrite norm_sq.
  replace ((norm n u + norm n v) * (norm n u + norm n v)) with (norm n u * norm n u + norm n v * norm n v + 2 * (norm n u * norm n v)) by ring. rewrite !norm_sq.
  rewrite dot_plus_l, (dot_sym n u), (dot_sym n v (fun i => _)), !dot_plus_l, (dot_sym n v u).
  pose proof (cauchy_schwarz n u v). pose proof (Rle_abs (dot n u v)). lra.
Qed.
Lemma dist_triangle n u v w : norm n (fun i => u i - w i) <= norm n (fun i => u i - v i) + norm n (fun i => v i - w i).
Proof. rewrite (norm_ext n (fun i => u i - w i) (fun i => (u i - v i) + (v i - w i))) by (intros; ring). apply (norm_triangle n (fun i => u i - v i) (fun i => v i - w i)). Qed.
Lemma distance_score n u v : distance (euclid_score n u v) = norm n (fun i => u i - v i).
Proof. unfold distance, euclid_score. pose proof (norm_nonneg n (fun i => u i - v i)). field. lra. Qed.
Lemma score_pos n u v : 0 < euclid_score n u v.
Proof. unfold euclid_score. apply Rdiv_lt_0_compat; [lra|]. pose proof (norm_nonneg n (fun i => u i - v i)). lra. Qed.
Lemma unit_sq n u : dot n (unit n u) (unit n u) = 0 /\ norm n u = 0 \/ dot n (unit n u) (unit n u) = 1 /\ norm n u <> 0.
Proof.
  rewrite unit_dot. unfold cosine. destruct (Req_EM_T (norm n u) 0) as [H|H]; [left; split; [reflexivity|exact H]|right; split; [|exact H]].
  rewrite norm_sq. field. intros K. apply H. unfold norm. rewrite K. apply sqrt_0.
Qed.
Lemma cosine_bound n u v : -1 <= cosine n u v <= 1.
Proof.
  rewrite <- unit_dot. pose proof (cauchy_schwarz_sq n (unit n u) (unit n v)) as H.
  destruct (unit_sq n u) as [(E1 & _)|(E1 & _)], (unit_sq n v) as [(E2 & _)|(E2 & _)]; rewrite E1, E2 in H; nra.
Qed.
Lemma cosine_between n u v w : let x := cosine n u v in let y := cosine n v w in let z := cosine n u w in
  Rabs (z - x * y) <= sqrt (1 - x * x) * sqrt (1 - y * y).
Proof.
  intros x y z. pose proof (cosine_bound n u v) as Bx. fold x in Bx. pose proof (cosine_bound n v w) as By. fold y in By. pose proof (cosine_bound n u w) as Bz. fold z in Bz.
  destruct (unit_sq n v) as [(_ & Ev)|(Ev & Nv)].
  - assert (Ex : x = 0) by (unfold x, cosine; destruct (Req_EM_T (norm n u) 0); [reflexivity|]; destruct (Req_EM_T (norm n v) 0); [reflexivity|contradiction]).
    assert (Ey : y = 0) by (unfold y, cosine; destruct (Req_EM_T (norm n v) 0); [reflexivity|contradiction]).
    rewrite Ex, Ey. replace (1 - 0 * 0) with 1 by ring. rewrite sqrt_1. apply Rabs_le. lra.
  - rewrite <- sqrt_mult by nra. rewrite <- sqrt_Rsqr_abs. apply sqrt_le_1_alt. unfold Rsqr.
    pose proof (cauchy_schwarz_sq n (fun i => unit n u i - x * unit n v i) (fun i => unit n w i - y * unit n v i)) as H.
    rewrite !dot_minus_l, !dot_scal_l in H.
    rewrite !(dot_sym n (unit n u) (fun i => _)), !(dot_sym n (unit n v) (fun i => _)), !(dot_sym n (unit n w) (fun i => _)) in H.
    rewrite !dot_minus_l, !dot_scal_l in H.
    rewrite (dot_sym n (unit n w) (unit n u)), (dot_sym n (unit n v) (unit n u)), (dot_sym n (unit n w) (unit n v)) in H.
    rewrite Ev in H. rewrite !(unit_dot n u v), !(unit_dot n v w), !(unit_dot n u w) in H. fold x y z in H.
    assert (Uu : dot n (unit n u) (unit n u) <= 1) by (destruct (unit_sq n u) as [(K & _)|(K & _)]; lra).
    assert (Uw : dot n (unit n w) (unit n w) <= 1) by (destruct (unit_sq n w) as [(K & _)|(K & _)]; lra).
    pose proof (cauchy_schwarz_sq n (unit n u) (unit n v)) as Cx. rewrite Ev, unit_dot in Cx. fold x in Cx.
    pose proof (cauchy_schwarz_sq n (unit n v) (unit n w)) as Cy. rewrite Ev, unit_dot in Cy. fold y in Cy.
    set (p := dot n (unit n u) (unit n u)) in *. set (q := dot n (unit n w) (unit n w)) in *.
    apply Rle_trans with ((p - x * x) * (q - y * y)); [|apply Rmult_le_compat; lra].
    eapply Rle_trans; [|eapply Rle_trans; [exact H|]]; right; ring.
Qed.
Lemma angle_triangle n u v w : acos (cosine n u w) <= acos (cosine n u v) + acos (cosine n v w).
Proof.
  pose proof (cosine_between n u v w) as H. cbv zeta in H.
  pose proof (cosine_bound n u v) as Bx. pose proof (cosine_bound n v w) as By. pose proof (cosine_bound n u w) as Bz.
  set (x := cosine n u v) in *. set (y := cosine n v w) in *. set (z := cosine n u w) in *.
  pose proof (acos_bound x) as A. pose proof (acos_bound y) as B. pose proof (acos_bound z) as C.
  destruct (Rle_or_lt PI (acos x + acos y)) as [L|L]; [lra|].
  apply Rnot_lt_le. intros K. apply cos_decreasing_1 in K; try lra. rewrite cos_plus, !cos_acos, !sin_acos in K by lra.
  apply Rabs_def2_le in H. unfold Rsqr in K. lra.
Qed.

(** ** C95: Euclidean scores *)
Lemma rows3 s1 s2 s3 a b c : three s1 s2 s3 a b c -> forall sim, exists u v w,
  get_sim s1 a b sim (Some s2) = Ok (sim_spec sim (m_nc (s_mat s1)) u v) /\ get_sim s2 b c sim (Some s3) = Ok (sim_spec sim (m_nc (s_mat s1)) v w) /\
  get_sim s1 a c sim (Some s3) = Ok (sim_spec sim (m_nc (s_mat s1)) u w) /\
  (exists i j, nth_error (s_id2row s1) i = Some a /\ nth_error (s_id2row s2) j = Some b /\ u = ment (s_mat s1) i /\ v = ment (s_mat s2) j).
Proof.
  intros (C1 & C2 & C3 & N1 & N2 & Ha & Hb & Hc) sim. apply In_nth_error in Ha, Hb, Hc. destruct Ha as (i & Hi), Hb as (j & Hj), Hc as (k & Hk).
  exists (ment (s_mat s1) i), (ment (s_mat s2) j), (ment (s_mat s3) k).
  rewrite (get_sim_rows s1 (Some s2) a b i j _ sim C1 C2 Hi Hj eq_refl (eq_sym N1)). rewrite (get_sim_rows s2 (Some s3) b c j k _ sim C2 C3 Hj Hk (eq_sym N1) (eq_sym (eq_trans N1 N2))).
  rewrite (get_sim_rows s1 (Some s3) a c i k _ sim C1 C3 Hi Hk eq_refl (eq_sym (eq_trans N1 N2))). cbn [searched]. eauto 12.
Qed.
(** the scores stand for distances that satisfy the triangle inequality *)
Theorem C95_euclidean : forall s1 s2 s3 a b c, three s1 s2 s3 a b c -> exists x y z,
  get_sim s1 a b Euclid (Some s2) = Ok x /\ get_sim s2 b c Euclid (Some s3) = Ok y /\ get_sim s1 a c Euclid (Some s3) = Ok z /\
  0 < x /\ 0 < y /\ 0 < z /\ distance z <= distance x + distance y /\ distance x <= distance z + distance y.
Proof.
  intros s1 s2 s3 a b c H. destruct (rows3 _ _ _ _ _ _ H Euclid) as (u & v & w & E1 & E2 & E3 & _). set (n := m_nc (s_mat s1)) in *. cbn [sim_spec] in *.
  exists (euclid_score n u v), (euclid_score n v w), (euclid_score n u w). repeat split; try assumption; try apply score_pos.
  - rewrite !distance_score. apply dist_triangle.
  - rewrite !distance_score. eapply Rle_trans; [apply (dist_triangle n u w v)|].
    rewrite (norm_ext n (fun i => w i - v i) (fun i => -1 * (v i - w i))) by (intros; ring). rewrite norm_scal, Rabs_left by lra. lra.
Qed.
(** the distance is that of the vectors: it is 0 exactly for equal vectors *)
Theorem C95_same_vector : forall s1 s2 a b x i j, consistent s1 -> consistent s2 -> m_nc (s_mat s1) = m_nc (s_mat s2) ->
  nth_error (s_id2row s1) i = Some a -> nth_error (s_id2row s2) j = Some b -> get_sim s1 a b Euclid (Some s2) = Ok x ->
  distance x = norm (m_nc (s_mat s1)) (fun q => ment (s_mat s1) i q - ment (s_mat s2) j q) /\
  (distance x = 0 <-> forall q, (q < m_nc (s_mat s1))%nat -> ment (s_mat s1) i q = ment (s_mat s2) j q).
Proof.
  intros s1 s2 a b x i j C1 C2 N Hi Hj E. rewrite (get_sim_rows s1 (Some s2) a b i j _ Euclid C1 C2 Hi Hj eq_refl (eq_sym N)) in E. cbn [searched sim_spec] in E. assert (x = euclid_score (m_nc (s_mat s1)) (ment (s_mat s1) i) (ment (s_mat s2) j)) as -> by congruence.
  rewrite distance_score. split; [reflexivity|]. rewrite norm_zero. split; intros K q Hq; specialize (K q Hq); cbv beta in *; lra.
Qed.

(** ** C95: cosines *)
(** the angles between the vectors satisfy the triangle inequality (a null vector is at a right angle to every vector) *)
Theorem C95_angles : forall s1 s2 s3 a b c, three s1 s2 s3 a b c -> exists x y z,
  get_sim s1 a b Cos (Some s2) = Ok x /\ get_sim s2 b c Cos (Some s3) = Ok y /\ get_sim s1 a c Cos (Some s3) = Ok z /\ acos z <= acos x + acos y.
Proof.
  intros s1 s2 s3 a b c H. destruct (rows3 _ _ _ _ _ _ H Cos) as (u & v & w & E1 & E2 & E3 & _). set (n := m_nc (s_mat s1)) in *. cbn [sim_spec] in *.
  exists (cosine n u v), (cosine n v w), (cosine n u w). repeat split; try assumption. apply angle_triangle.
Qed.
(** so two cosines confine the third *)
Theorem C95_cosine_between : forall s1 s2 s3 a b c x y z, three s1 s2 s3 a b c ->
  get_sim s1 a b Cos (Some s2) = Ok x -> get_sim s2 b c Cos (Some s3) = Ok y -> get_sim s1 a c Cos (Some s3) = Ok z ->
  x * y - sqrt (1 - x * x) * sqrt (1 - y * y) <= z <= x * y + sqrt (1 - x * x) * sqrt (1 - y * y).
Proof.
  intros s1 s2 s3 a b c x y z H E1 E2 E3. destruct (rows3 _ _ _ _ _ _ H Cos) as (u & v & w & F1 & F2 & F3 & _). cbn [sim_spec] in *.
  assert (x = cosine (m_nc (s_mat s1)) u v) as -> by congruence. assert (y = cosine (m_nc (s_mat s1)) v w) as -> by congruence. assert (z = cosine (m_nc (s_mat s1)) u w) as -> by congruence.
  pose proof (cosine_between (m_nc (s_mat s1)) u v w) as K. cbv zeta in K. apply Rabs_def2_le in K. lra.
Qed.
(** words with cosine 1 have the same cosines with every other word *)
Theorem C95_parallel : forall s1 s2 s3 a b c y z, three s1 s2 s3 a b c ->
  get_sim s1 a b Cos (Some s2) = Ok 1 -> get_sim s2 b c Cos (Some s3) = Ok y -> get_sim s1 a c Cos (Some s3) = Ok z -> z = y.
Proof.
  intros s1 s2 s3 a b c y z H E1 E2 E3. pose proof (C95_cosine_between _ _ _ _ _ _ 1 y z H E1 E2 E3) as K. replace (1 - 1 * 1) with 0 in K by ring. rewrite sqrt_0 in K. lra.
Qed.
(** a concrete case: the three spaces are one with two words *)
Example C95_example : three sp_len sp_len sp_len "car" "dog" "car" /\ exists x, get_sim sp_len "car" "dog" Euclid (Some sp_len) = Ok x /\ distance x <> 0.
Proof.
  assert (C : consistent sp_len).
  { eapply (mk_space_consistent m_len ["car"; "dog"]%string ["x"; "y"]%string None None [] None); [apply m_len_wf|constructor|exact I|exact I|reflexivity]. }
  assert (T : three sp_len sp_len sp_len "car" "dog" "car") by (repeat split; try apply C; cbn; tauto). split; [exact T|].
  destruct (rows3 _ _ _ _ _ _ T Euclid) as (u & v & w & E1 & _). eexists. split; [exact E1|]. cbn [sim_spec].
  intros K. pose proof (C95_same_vector sp_len sp_len "car" "dog" _ 0 1 C C eq_refl eq_refl eq_refl E1) as (_ & Q). cbn [sim_spec] in Q. pose proof (proj1 Q K) as K'.
  specialize (K' 0%nat ltac:(cbn; lia)). cbn in K'. lra.
Qed.
