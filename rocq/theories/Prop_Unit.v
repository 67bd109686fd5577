(** Prop_Unit.v -- C87: after the rows are normalised to length 1, cosine, dot product and Euclidean score rank the same neighbours. *)
From Coq Require Import Reals Lra Psatz Permutation Sorted.
From Verif Require Import Base PyList Dict Num SpecReal Dense Sparse Matrix PSparse PMatrix PMatOps PShape PVals PReal PPos PSort Scaling Linalg Operation
  Similarity Space Peripheral SpecSpace PDictList PSpace Prop_Space Prop_Scaling Prop_Sim Prop_Neigh PMoved Prop_Periph PCols Prop_Order Prop_Counts.
#[local] Existing Instance RNum.
Open Scope R_scope.
Open Scope nat_scope.

(** ** Specification *)
(** s' is s with its rows normalised to length 1 *)
Definition normalised (s s' : space) : Prop := consistent s /\ exists E : Ext, space_apply s (TScale (RowNorm CLength)) = Ok s'.
Definition normalised_opt (o o' : option space) : Prop :=
  match o, o' with Some s, Some s' => normalised s s' | None, None => True | _, _ => False end.
(** no vector of the space is null *)
Definition no_null (s : space) : Prop := forall i, i < m_nr (s_mat s) -> exists j, j < m_nc (s_mat s) /\ ment (s_mat s) i j <> 0%R.
Definition word_order (r : res (list (string * R))) : res (list string) := rmap (map fst) r.

(** ** vectors *)
Definition unit (n : nat) (u : nat -> R) (i : nat) : R := if Req_EM_T (norm n u) 0 then 0%R else (u i / norm n u)%R.
Lemma unit_dot n u v : dot n (unit n u) (unit n v) = cosine n u v.
Proof.
  unfold cosine. destruct (Req_EM_T (norm n u) 0) as [Hu|Hu].
  - rewrite (dot_ext n (unit n u) (fun i => 0 * u i)%R (unit n v) (unit n v)); [rewrite dot_scal_l; lra| |reflexivity].
    intros i _. unfold unit. destruct (Req_EM_T (norm n u) 0); [lra|contradiction].
  - destruct (Req_EM_T (norm n v) 0) as [Hv|Hv].
    + rewrite (dot_ext n (unit n u) (unit n u) (unit n v) (fun i => 0 * v i)%R); [rewrite dot_scal_r; lra|reflexivity|].
      intros i _. unfold unit. destruct (Req_EM_T (norm n v) 0); [lra|contradiction].
    + rewrite (dot_ext n (unit n u) (fun i => / norm n u * u i)%R (unit n v) (fun i => / norm n v * v i)%R).
      * rewrite dot_scal_l, dot_scal_r. field. split; assumption.
      * intros i _. unfold unit. destruct (Req_EM_T (norm n u) 0); [contradiction|]. unfold Rdiv. apply Rmult_comm.
      * intros i _. unfold unit. destruct (Req_EM_T (norm n v) 0); [contradiction|]. unfold Rdiv. apply Rmult_comm.
Qed.
Lemma cosine_self n u : norm n u <> 0%R -> cosine n u u = 1%R.
Proof.
  intros Hu. unfold cosine. destruct (Req_EM_T (norm n u) 0); [contradiction|]. rewrite norm_sq. field. rewrite <- norm_sq. nra.
Qed.
Lemma cosine_le1 n u v : (cosine n u v <= 1)%R.
Proof.
  unfold cosine. destruct (Req_EM_T (norm n u) 0); [lra|]. destruct (Req_EM_T (norm n v) 0); [lra|].
  pose proof (norm_nonneg n u). pose proof (norm_nonneg n v). pose proof (cauchy_schwarz n u v). pose proof (Rle_abs (dot n u v)).
  assert (0 < norm n u * norm n v)%R by (apply Rmult_lt_0_compat; lra). apply Rmult_le_reg_r with (r := (norm n u * norm n v)%R); [assumption|].
  unfold Rdiv. rewrite Rmult_assoc, Rinv_l by lra. lra.
Qed.
Lemma cosine_0l n u v : norm n u = 0%R -> cosine n u v = 0%R.
Proof. intros H. unfold cosine. destruct (Req_EM_T (norm n u) 0); [reflexivity|contradiction]. Qed.
Lemma cosine_0r n u v : norm n v = 0%R -> cosine n u v = 0%R.
Proof. intros H. unfold cosine. destruct (Req_EM_T (norm n u) 0); [reflexivity|]. destruct (Req_EM_T (norm n v) 0); [reflexivity|contradiction]. Qed.
Definition score_of_cos (c : R) : R := (1 / (1 + sqrt (2 - 2 * c)))%R.
Lemma unit_euclid n u v : norm n u <> 0%R -> norm n v <> 0%R -> euclid_score n (unit n u) (unit n v) = score_of_cos (cosine n u v).
Proof.
  intros Hu Hv. unfold euclid_score, score_of_cos. do 3 f_equal. unfold norm at 1. f_equal.
  rewrite dot_minus_l, (dot_sym n (unit n u)), (dot_sym n (unit n v)), !dot_minus_l, (dot_sym n (unit n v) (unit n u)), !unit_dot, !cosine_self by assumption. ring.
Qed.
Lemma score_of_cos_lt a b : (a <= 1)%R -> (b <= 1)%R -> (a < b)%R -> (score_of_cos a < score_of_cos b)%R.
Proof.
  intros Ha Hb L. unfold score_of_cos. assert (S : (sqrt (2 - 2 * b) < sqrt (2 - 2 * a))%R) by (apply sqrt_lt_1; lra).
  pose proof (sqrt_pos (2 - 2 * b)). unfold Rdiv. rewrite !Rmult_1_l. apply Rinv_lt_contravar; [apply Rmult_lt_0_compat; lra|lra].
Qed.

(** ** rankings *)
Lemma top_k_unique r sc k l l' : NoDup r -> top_k r sc k l -> top_k r sc k l' -> l = l'.
Proof.
  intros Hn T1 T2.
  assert (S : forall w p q, nth_error r p = Some w -> nth_error r q = Some w -> sc p = sc q).
  { intros w p q Hp Hq. rewrite (NoDup_nth_error_inj _ _ _ _ Hn Hp Hq). reflexivity. }
  symmetry. apply nth_error_ext; [exact (eq_trans (tk_length _ _ _ _ T2) (eq_sym (tk_length _ _ _ _ T1)))|].
  intros a [x u] [y v] Ha Hb. rewrite (rank_le _ _ _ _ _ _ _ _ T1 T2 Hn (fun w => iff_refl _) S a x u y v Ha Hb). f_equal. symmetry.
  exact (rank_same _ _ _ _ _ _ _ _ T1 T2 Hn (fun w => iff_refl _) S eq_refl a x u y v Ha Hb).
Qed.
(** scores in the same order give the same words in the same order *)
Lemma top_k_order r sc1 sc2 k l1 l2 : NoDup r -> (forall p q, p < length r -> q < length r -> (sc1 p < sc1 q)%R <-> (sc2 p < sc2 q)%R) ->
  top_k r sc1 k l1 -> top_k r sc2 k l2 -> map fst l1 = map fst l2.
Proof.
  intros Hn Ho T1 T2.
  set (g := fun p : string * R => (fst p, sc1 (position (fst p) r))).
  assert (P : forall w q, nth_error r q = Some w -> position w r = q).
  { intros w q Hq. pose proof (position_ok w r (nth_error_In _ _ Hq)) as Hp. exact (NoDup_nth_error_inj _ _ _ _ Hn Hp Hq). }
  assert (L : forall w q, nth_error r q = Some w -> q < length r) by (intros w q Hq; apply nth_error_Some; congruence).
  assert (G : map fst (map g l2) = map fst l2) by (rewrite map_map; reflexivity).
  assert (T : top_k r sc1 k (map g l2)).
  { constructor.
    - rewrite map_length. apply (tk_length _ _ _ _ T2).
    - rewrite G. apply (tk_distinct _ _ _ _ T2).
    - intros x c Hx. apply in_map_iff in Hx. destruct Hx as ([y d] & Ey & Hy). unfold g in Ey. cbn [fst] in Ey.
      destruct (tk_score _ _ _ _ T2 _ _ Hy) as (q & Hq & _). rewrite (P _ _ Hq) in Ey. assert (y = x /\ sc1 q = c) as (<- & <-) by (split; congruence). eauto.
    - intros a b x c y d Hab Ha Hb. apply map_nth_some in Ha, Hb. destruct Ha as ([x' c'] & Ha & Ea), Hb as ([y' d'] & Hb & Eb).
      unfold g in Ea, Eb. cbn [fst] in Ea, Eb. destruct (top_k_nth _ _ _ _ _ _ _ T2 Ha) as (p & Hp & Ec). destruct (top_k_nth _ _ _ _ _ _ _ T2 Hb) as (q & Hq & Ed).
      rewrite (P _ _ Hp) in Ea. rewrite (P _ _ Hq) in Eb. assert (x = x' /\ c = sc1 p) as (-> & ->) by (split; congruence). assert (y = y' /\ d = sc1 q) as (-> & ->) by (split; congruence).
      pose proof (tk_order _ _ _ _ T2 a b _ _ _ _ Hab Ha Hb) as (O1 & O2). subst c' d'. pose proof (Ho p q (L _ _ Hp) (L _ _ Hq)) as K. pose proof (Ho q p (L _ _ Hq) (L _ _ Hp)) as K'. split.
      + apply Rnot_lt_le. intros Z. apply K in Z. lra.
      + intros E. apply O2. assert (~ (sc2 p < sc2 q)%R) by (intros Z; apply K in Z; lra). assert (~ (sc2 q < sc2 p)%R) by (intros Z; apply K' in Z; lra). lra.
    - intros q y x c Hq Hy Hx. rewrite G in Hy. apply in_map_iff in Hx. destruct Hx as ([x' c'] & Ex & Hx). unfold g in Ex. cbn [fst] in Ex.
      destruct (tk_score _ _ _ _ T2 _ _ Hx) as (p & Hp & Ec). rewrite (P _ _ Hp) in Ex. assert (x = x' /\ c = sc1 p) as (-> & ->) by (split; congruence).
      pose proof (tk_omitted _ _ _ _ T2 q y _ _ Hq Hy Hx) as (O1 & O2). subst c'. pose proof (Ho p q (L _ _ Hp) (L _ _ Hq)) as K. pose proof (Ho q p (L _ _ Hq) (L _ _ Hp)) as K'. split.
      + apply Rnot_lt_le. intros Z. apply K in Z. lra.
      + intros E. apply O2. assert (~ (sc2 p < sc2 q)%R) by (intros Z; apply K in Z; lra). assert (~ (sc2 q < sc2 p)%R) by (intros Z; apply K' in Z; lra). lra. }
  rewrite (top_k_unique _ _ _ _ _ Hn T1 T). exact G.
Qed.

(** ** spaces *)
Lemma norm_rows s s' : normalised s s' -> consistent s' /\ s_id2row s' = s_id2row s /\ m_nc (s_mat s') = m_nc (s_mat s) /\ m_nr (s_mat s') = m_nr (s_mat s) /\
  forall i j, i < m_nr (s_mat s) -> j < m_nc (s_mat s) -> ment (s_mat s') i j = unit (m_nc (s_mat s)) (ment (s_mat s) i) j.
Proof.
  intros (C & E & X). pose proof C as (W & _). destruct (rownorm_value CLength _ W) as (z & Ez & V).
  destruct (apply_scale s (RowNorm CLength) z C Ez) as (s1 & X1 & C1 & M1 & R1 & _). assert (s1 = s') by (rewrite X in X1; congruence). subst s1.
  split; [exact C1|]. split; [exact R1|]. rewrite M1. split; [exact (vals_nc _ _ _ _ _ V)|]. split; [exact (vals_nr _ _ _ _ _ V)|].
  intros i j Hi Hj. rewrite (rownorm_rows _ z i j W Ez Hi Hj). reflexivity.
Qed.
Lemma norm_searched s s' o o' : normalised s s' -> normalised_opt o o' -> normalised (searched s o) (searched s' o').
Proof. intros H K. destruct o, o'; cbn in *; try contradiction; assumption. Qed.

(** ** C87 *)
(** the dot product of normalised vectors is the cosine of the original ones; so is their cosine *)
Theorem C87_similarity : forall s s' o o' w1 w2 sim, normalised s s' -> normalised_opt o o' ->
  m_nc (s_mat s) = m_nc (s_mat (searched s o)) -> sim = Dot \/ sim = Cos ->
  get_sim s' w1 w2 sim o' = get_sim s w1 w2 Cos o.
Proof.
  intros s s' o o' w1 w2 sim H K Hn Hs. pose proof (norm_searched _ _ _ _ H K) as KS. pose proof H as (C1 & _). pose proof KS as (C2 & _).
  destruct (norm_rows _ _ H) as (C1' & R1 & N1 & M1 & V1). destruct (norm_rows _ _ KS) as (C2' & R2 & N2 & M2 & V2).
  destruct (in_dec string_dec w1 (s_id2row s)) as [I1|I1]; [destruct (in_dec string_dec w2 (s_id2row (searched s o))) as [I2|I2]|].
  - apply In_nth_error in I1, I2. destruct I1 as (p & Hp), I2 as (q & Hq).
    rewrite (get_sim_rows s o w1 w2 p q _ Cos C1 C2 Hp Hq eq_refl (eq_sym Hn)).
    rewrite (get_sim_rows s' o' w1 w2 p q (m_nc (s_mat s)) sim C1' C2'); [|rewrite R1; exact Hp|rewrite R2; exact Hq|exact N1|rewrite N2; symmetry; exact Hn].
    f_equal. assert (Hp' : p < m_nr (s_mat s)). { destruct C1 as (_&<-&_). apply nth_error_Some. congruence. }
    assert (Hq' : q < m_nr (s_mat (searched s o))). { destruct C2 as (_&<-&_). apply nth_error_Some. congruence. }
    set (n := m_nc (s_mat s)) in *.
    rewrite (sim_spec_ext sim n _ (unit n (ment (s_mat s) p)) _ (unit n (ment (s_mat (searched s o)) q))).
    + destruct Hs as [-> | ->]; cbn [sim_spec]; [apply unit_dot|].
      assert (U : forall u, norm n u <> 0%R -> norm n (unit n u) = 1%R).
      { intros u Hu. unfold norm at 1. rewrite unit_dot, cosine_self by exact Hu. apply sqrt_1. }
      assert (U0 : forall u, norm n u = 0%R -> norm n (unit n u) = 0%R).
      { intros u Hu. apply norm_zero. intros i _. unfold unit. destruct (Req_EM_T (norm n u) 0); [reflexivity|contradiction]. }
      unfold cosine at 1. destruct (Req_EM_T (norm n (ment (s_mat s) p)) 0) as [Zu|Zu].
      * rewrite (U0 _ Zu), (cosine_0l _ _ _ Zu). destruct (Req_EM_T 0 0); [reflexivity|contradiction].
      * rewrite (U _ Zu). destruct (Req_EM_T 1 0); [lra|]. destruct (Req_EM_T (norm n (ment (s_mat (searched s o)) q)) 0) as [Zv|Zv].
        -- rewrite (U0 _ Zv). destruct (Req_EM_T 0 0); [|lra]. symmetry. apply cosine_0r, Zv.
        -- rewrite (U _ Zv). destruct (Req_EM_T 1 0); [lra|]. rewrite unit_dot. unfold Rdiv. rewrite Rmult_1_r, Rinv_1, Rmult_1_r. reflexivity.
    + intros j Hj. apply V1; assumption.
    + intros j Hj. rewrite Hn in Hj. rewrite Hn. apply V2; assumption.
  - rewrite !C10_get_sim_missing; try assumption; try reflexivity; [right; exact I2|right; rewrite R2; exact I2].
  - rewrite !C10_get_sim_missing; try assumption; try reflexivity; [left; exact I1|left; rewrite R1; exact I1].
Qed.
(** the Euclidean score of two normalised vectors, in terms of the cosine of the original ones *)
Theorem C87_euclid : forall s s' o o' w1 w2 c, normalised s s' -> normalised_opt o o' -> no_null s -> no_null (searched s o) ->
  m_nc (s_mat s) = m_nc (s_mat (searched s o)) -> In w1 (s_id2row s) -> In w2 (s_id2row (searched s o)) ->
  get_sim s w1 w2 Cos o = Ok c -> (c <= 1)%R /\ get_sim s' w1 w2 Euclid o' = Ok (1 / (1 + sqrt (2 - 2 * c)))%R.
Proof.
  intros s s' o o' w1 w2 c H K Z1 Z2 Hn I1 I2 Hc. pose proof (norm_searched _ _ _ _ H K) as KS. pose proof H as (C1 & _). pose proof KS as (C2 & _).
  destruct (norm_rows _ _ H) as (C1' & R1 & N1 & M1 & V1). destruct (norm_rows _ _ KS) as (C2' & R2 & N2 & M2 & V2).
  apply In_nth_error in I1, I2. destruct I1 as (p & Hp), I2 as (q & Hq).
  rewrite (get_sim_rows s o w1 w2 p q _ Cos C1 C2 Hp Hq eq_refl (eq_sym Hn)) in Hc. cbn [sim_spec] in Hc. assert (c = cosine (m_nc (s_mat s)) (ment (s_mat s) p) (ment (s_mat (searched s o)) q)) as -> by congruence.
  split; [apply cosine_le1|].
  rewrite (get_sim_rows s' o' w1 w2 p q (m_nc (s_mat s)) Euclid C1' C2'); [|rewrite R1; exact Hp|rewrite R2; exact Hq|exact N1|rewrite N2; symmetry; exact Hn].
  f_equal. assert (Hp' : p < m_nr (s_mat s)). { destruct C1 as (_&<-&_). apply nth_error_Some. congruence. }
  assert (Hq' : q < m_nr (s_mat (searched s o))). { destruct C2 as (_&<-&_). apply nth_error_Some. congruence. }
  rewrite (sim_spec_ext Euclid (m_nc (s_mat s)) _ (unit (m_nc (s_mat s)) (ment (s_mat s) p)) _ (unit (m_nc (s_mat s)) (ment (s_mat (searched s o)) q))).
  - cbn [sim_spec]. apply unit_euclid; intros Z; rewrite norm_zero in Z.
    + destruct (Z1 p Hp') as (j & Hj & Nj). apply Nj, Z, Hj.
    + destruct (Z2 q Hq') as (j & Hj & Nj). apply Nj, Z. rewrite Hn. exact Hj.
  - intros j Hj. apply V1; assumption.
  - intros j Hj. rewrite Hn in Hj. rewrite Hn. apply V2; assumption.
Qed.
(** neighbours by dot product or cosine in the normalised space are those by cosine in the original one, with the same scores *)
Theorem C87_neighbours : forall s s' o o' w k sim, normalised s s' -> normalised_opt o o' ->
  m_nc (s_mat s) = m_nc (s_mat (searched s o)) -> sim = Dot \/ sim = Cos ->
  get_neighbours s' w k sim o' = get_neighbours s w k Cos o.
Proof.
  intros s s' o o' w k sim H K Hn Hs. pose proof (norm_searched _ _ _ _ H K) as KS. pose proof H as (C1 & _). pose proof KS as (C2 & _).
  destruct (norm_rows _ _ H) as (C1' & R1 & N1 & M1 & V1). destruct (norm_rows _ _ KS) as (C2' & R2 & N2 & M2 & V2).
  destruct (in_dec string_dec w (s_id2row s)) as [I1|I1].
  - destruct (C09_neighbours s w k Cos o C1 C2 I1 Hn) as (l1 & sc1 & E1 & T1 & G1).
    destruct (C09_neighbours s' w k sim o' C1' C2') as (l2 & sc2 & E2 & T2 & G2); [rewrite R1; exact I1|congruence|].
    rewrite E1, E2. f_equal. rewrite R2 in T2, G2. pose proof C2 as (_&_&_&(Nd&_)&_).
    assert (S : forall x p q, nth_error (s_id2row (searched s o)) p = Some x -> nth_error (s_id2row (searched s o)) q = Some x -> sc1 p = sc2 q).
    { intros x p q Hp Hq. pose proof (G1 _ _ Hp) as Q1. pose proof (G2 _ _ Hq) as Q2. rewrite (C87_similarity s s' o o' w x sim H K Hn Hs) in Q2. congruence. }
    apply nth_error_ext; [exact (eq_trans (tk_length _ _ _ _ T2) (eq_sym (tk_length _ _ _ _ T1)))|].
    intros a [x u] [y v] Ha Hb. rewrite (rank_le _ _ _ _ _ _ _ _ T1 T2 Nd (fun w => iff_refl _) S a x u y v Ha Hb). f_equal. symmetry.
    exact (rank_same _ _ _ _ _ _ _ _ T1 T2 Nd (fun w => iff_refl _) S eq_refl a x u y v Ha Hb).
  - rewrite !C09_missing; try assumption; try reflexivity. rewrite R1. exact I1.
Qed.
(** ... and those by Euclidean score are the same words in the same order, when no vector is null *)
Theorem C87_neighbours_euclid : forall s s' o o' w k, normalised s s' -> normalised_opt o o' -> no_null s -> no_null (searched s o) ->
  m_nc (s_mat s) = m_nc (s_mat (searched s o)) ->
  word_order (get_neighbours s' w k Euclid o') = word_order (get_neighbours s w k Cos o).
Proof.
  intros s s' o o' w k H K Z1 Z2 Hn. pose proof (norm_searched _ _ _ _ H K) as KS. pose proof H as (C1 & _). pose proof KS as (C2 & _).
  destruct (norm_rows _ _ H) as (C1' & R1 & N1 & M1 & V1). destruct (norm_rows _ _ KS) as (C2' & R2 & N2 & M2 & V2).
  destruct (in_dec string_dec w (s_id2row s)) as [I1|I1].
  - destruct (C09_neighbours s w k Cos o C1 C2 I1 Hn) as (l1 & sc1 & E1 & T1 & G1).
    destruct (C09_neighbours s' w k Euclid o' C1' C2') as (l2 & sc2 & E2 & T2 & G2); [rewrite R1; exact I1|congruence|].
    rewrite E1, E2. unfold word_order. change (Ok (map fst l2) = Ok (map fst l1)). f_equal. rewrite R2 in T2, G2. pose proof C2 as (_&_&_&(Nd&_)&_).
    assert (S : forall p, p < length (s_id2row (searched s o)) -> (sc1 p <= 1)%R /\ sc2 p = score_of_cos (sc1 p)).
    { intros p Hp. destruct (nth_error (s_id2row (searched s o)) p) as [x|] eqn:Ex; [|apply nth_error_None in Ex; lia].
      pose proof (G1 _ _ Ex) as Q1. pose proof (G2 _ _ Ex) as Q2.
      destruct (C87_euclid s s' o o' w x _ H K Z1 Z2 Hn I1 (nth_error_In _ _ Ex) Q1) as (L & Q). split; [exact L|]. unfold score_of_cos. congruence. }
    apply (top_k_order (s_id2row (searched s o)) sc2 sc1 (Z.to_nat k)); try assumption.
    intros p q Hp Hq. destruct (S p Hp) as (Lp & ->), (S q Hq) as (Lq & ->). split; intros X.
    + destruct (Rtotal_order (sc1 p) (sc1 q)) as [Y|[Y|Y]]; [exact Y|rewrite Y in X; lra|]. pose proof (score_of_cos_lt _ _ Lq Lp Y). lra.
    + apply score_of_cos_lt; assumption.
  - rewrite !C09_missing; try assumption; try reflexivity. rewrite R1. exact I1.
Qed.

(** ** A concrete case: every hypothesis holds of a space whose rows do not have length 1 *)
Definition m_len : @matrix RNum := MD (@DM RNum 2 2 [[3; 4]; [0; 2]])%R.
Lemma m_len_wf : mwf m_len.  Proof. repeat split; cbn; try lia; repeat constructor. Qed.
Definition sp_len : space := SP m_len ["car"; "dog"]%string ["x"; "y"]%string [("car", 0%Z); ("dog", 1%Z)]%string [("x", 0%Z); ("y", 1%Z)]%string [] [2].
Example C87_example : exists s', normalised sp_len s' /\ no_null sp_len /\ In "dog"%string (s_id2row sp_len) /\ ~ (norm 2 (ment (s_mat sp_len) 1) = 1)%R.
Proof.
  assert (C : consistent sp_len).
  { eapply (mk_space_consistent m_len ["car"; "dog"]%string ["x"; "y"]%string None None [] None); [apply m_len_wf|constructor|exact I|exact I|reflexivity]. }
  destruct (rownorm_value CLength _ m_len_wf) as (z & Ez & V).
  pose (E := {| e_svd := fun _ => Err LinAlgError; e_sparsesvd := fun _ _ => Err LinAlgError; e_pinv := fun _ => Err LinAlgError; e_lstsq := fun _ _ => Err LinAlgError;
                e_rndcol := fun _ _ => 0; e_rndrow := fun _ _ => 0; e_timeout := fun _ => false |} : @Ext RNum).
  destruct (@apply_scale E sp_len (RowNorm CLength) z C Ez) as (s' & X & _). exists s'. split; [split; [exact C|exists E; exact X]|]. split; [|split; [right; left; reflexivity|]].
  - intros i Hi. destruct i as [|[|i]]; [exists 0|exists 1|cbn in Hi; lia]; (split; [cbn; lia|cbn; lra]).
  - unfold norm, dot. cbn. intros Z. assert (sqrt (0 + 0 * 0 + 2 * 2) = 2)%R by (replace (0 + 0 * 0 + 2 * 2)%R with (2 * 2)%R by ring; apply sqrt_square; lra). lra.
Qed.
