(** Prop_Sim.v -- properties C09-C14: similarity measures and neighbour search, over exact reals. *)
From Coq Require Import Reals Lra Psatz Permutation Sorted.
From Verif Require Import Base PyList Dict Num SpecReal Dense Sparse Matrix PSparse PMatrix PMatOps PShape PReal Scaling Linalg Operation
  Similarity Space Peripheral SpecSpace PDictList PSpace Prop_Space.
#[local] Existing Instance RNum.
Open Scope R_scope.
Ltac has_tac := unfold has; split; [assumption|split; [congruence|split; congruence]].

(** the measure each similarity class computes on vectors of length n *)
Definition sim_spec (s : similarity) (n : nat) (u v : nat -> R) : R :=
  match s with Cos => cosine n u v | Dot => dot n u v | Euclid => euclid_score n u v | Lin => lin_code n u v end.

(** a row vector of dimension n *)
Definition row_vec (m : matrix) (n : nat) : Prop := mwf m /\ m_nr m = 1%nat /\ m_nc m = n.

Lemma m_norm_row m n : row_vec m n -> m_norm m = norm n (ment m 0).
Proof.
  intros (Hm & Hr & Hc). rewrite m_norm_R, Hr, Hc by assumption. cbn [rsum]. unfold norm, dot. f_equal. lra.
Qed.
Lemma m_sum_row m n : row_vec m n -> m_sum m = rsum n (ment m 0).
Proof. intros (Hm & Hr & Hc). rewrite m_sum_R, Hr, Hc. cbn [rsum]. rewrite Rplus_0_l. reflexivity. Qed.

Lemma is_row_ent m t d n j : is_mat m t d -> d_nr d = 1%nat -> d_nc d = n -> (j < n)%nat -> ment m 0 j = dent d 0 j.
Proof. intros H Hr Hc Hj. apply (is_mat_ent m t d); [assumption|lia|lia]. Qed.

Lemma d_map2_ent (f : R -> R -> R) a b n j : row_vec a n -> row_vec b n -> (j < n)%nat ->
  dent (d_map2 f (to_dense a) (to_dense b)) 0 j = f (ment a 0 j) (ment b 0 j).
Proof.
  intros (Ha & Hra & Hca) (Hb & Hrb & Hcb) Hj. unfold d_map2.
  rewrite dent_tab by (rewrite ?to_dense_nr, ?to_dense_nc; lia).
  rewrite !dent_to_dense by lia. reflexivity.
Qed.

Lemma row_zip f a b n : row_vec a n -> row_vec b n -> type_of a = type_of b ->
  exists r, m_zip f a b = Ok r /\ row_vec r n /\ type_of r = type_of a /\ forall j, (j < n)%nat -> ment r 0 j = f (ment a 0 j) (ment b 0 j).
Proof.
  intros Ha Hb Ht. pose proof Ha as (Wa & Ra & Ca). pose proof Hb as (Wb & Rb & Cb).
  destruct (m_zip_same f a b Wa Wb Ht) as (r & E & Hr); [congruence|congruence|].
  exists r. split; [exact E|]. destruct (is_mat_has _ _ _ Hr) as (W & T & R1 & C1).
  cbn [d_map2 tab d_nr d_nc] in R1, C1. rewrite to_dense_nr in R1. rewrite to_dense_nc in C1.
  split; [split; [assumption|split; congruence]|]. split; [congruence|]. intros j Hj.
  rewrite (is_row_ent r _ _ n j Hr); [apply (d_map2_ent f a b n); assumption| | |assumption]; cbn; rewrite ?to_dense_nr, ?to_dense_nc; assumption.
Qed.
Lemma row_multiply a b n : row_vec a n -> row_vec b n -> type_of a = type_of b ->
  exists r, m_multiply a b = Ok r /\ row_vec r n /\ type_of r = type_of a /\ forall j, (j < n)%nat -> ment r 0 j = ment a 0 j * ment b 0 j.
Proof.
  intros Ha Hb Ht. pose proof Ha as (Wa & Ra & Ca). pose proof Hb as (Wb & Rb & Cb).
  destruct (m_multiply_same a b Wa Wb Ht) as (r & E & Hr); [congruence|congruence|].
  exists r. split; [exact E|]. destruct (is_mat_has _ _ _ Hr) as (W & T & R1 & C1).
  cbn [d_map2 tab d_nr d_nc] in R1, C1. rewrite to_dense_nr in R1. rewrite to_dense_nc in C1.
  split; [split; [assumption|split; congruence]|]. split; [congruence|]. intros j Hj.
  rewrite (is_row_ent r _ _ n j Hr); [apply (d_map2_ent Rmult a b n); assumption| | |assumption]; cbn; rewrite ?to_dense_nr, ?to_dense_nc; assumption.
Qed.

Lemma row_to_ones a n : row_vec a n ->
  row_vec (m_to_ones a) n /\ type_of (m_to_ones a) = type_of a /\
  forall j, (j < n)%nat -> ment (m_to_ones a) 0 j = if Rlt_dec 0 (ment a 0 j) then 1 else 0.
Proof.
  intros (W & R1 & C1).
  assert (Ho : is_mat (m_to_ones a) (type_of a) (d_map one_pos (to_dense a))).
  { destruct a as [d|c]; cbn [m_to_ones type_of to_dense].
    - repeat split; apply wf_d_map, W.
    - apply smap_is; [exact W|]. unfold one_pos. cbn [fltb f0 f1 RNum]. unfold Rltb. destruct (Rlt_dec 0 0); [exfalso; lra|reflexivity]. }
  destruct (is_mat_has _ _ _ Ho) as (W' & T & R2 & C2). cbn [d_map tab d_nr d_nc] in R2, C2. rewrite to_dense_nr in R2. rewrite to_dense_nc in C2.
  split; [split; [assumption|split; congruence]|]. split; [exact T|]. intros j Hj.
  rewrite (is_row_ent _ _ _ n j Ho); [|cbn; rewrite to_dense_nr; assumption|cbn; rewrite to_dense_nc; assumption|assumption].
  unfold d_map. rewrite dent_tab by (rewrite ?to_dense_nr, ?to_dense_nc; lia). rewrite dent_to_dense by lia.
  unfold one_pos. cbn [fltb f0 f1 RNum]. unfold Rltb. destruct (Rlt_dec 0 (ment a 0 j)); reflexivity.
Qed.

Lemma dot_sim_row a b n : row_vec a n -> row_vec b n -> type_of a = type_of b ->
  dot_sim a b = Ok (dot n (ment a 0) (ment b 0)).
Proof.
  intros Ha Hb Ht. unfold dot_sim. destruct (row_multiply a b n Ha Hb Ht) as (r & -> & Hr & _ & He). cbn [bind].
  f_equal. rewrite (m_sum_row r n Hr). apply rsum_ext. exact He.
Qed.

Lemma sim_raw_row s a b n : row_vec a n -> row_vec b n -> type_of a = type_of b ->
  sim_raw s a b = Ok (sim_spec s n (ment a 0) (ment b 0)).
Proof.
  intros Ha Hb Ht. destruct s; cbn [sim_raw sim_spec].
  - unfold cos_sim. rewrite (m_norm_row a n Ha), (m_norm_row b n Hb). cbn [feqb f0 RNum]. unfold cosine, Reqb.
    destruct (Req_EM_T (norm n (ment a 0)) 0); [reflexivity|].
    destruct (Req_EM_T (norm n (ment b 0)) 0); [reflexivity|]. cbn [orb].
    rewrite (dot_sim_row a b n Ha Hb Ht). reflexivity.
  - apply dot_sim_row; assumption.
  - unfold euclid_sim, m_sub. destruct (row_zip fsub a b n Ha Hb Ht) as (r & -> & Hr & _ & He). cbn [bind].
    f_equal. rewrite (m_norm_row r n Hr). cbn [fdiv fadd f1 RNum]. unfold euclid_score. do 2 f_equal.
    apply norm_ext. exact He.
  - unfold lin_sim. destruct (row_multiply a b n Ha Hb Ht) as (c & -> & Hc & Tc & Ec). cbn [bind].
    rewrite (m_sum_row a n Ha), (m_sum_row b n Hb). cbn [feqb fadd f0 RNum]. unfold lin_code, Reqb.
    destruct (Req_EM_T (rsum n (ment a 0) + rsum n (ment b 0)) 0); [reflexivity|].
    destruct (row_zip fadd a b n Ha Hb Ht) as (z & Ez & Hz & Tz & Eze). unfold m_add. rewrite Ez. cbn [bind].
    destruct (row_to_ones c n Hc) as (Ho & To & Eo).
    destruct (row_multiply (m_to_ones c) z n Ho Hz) as (p & -> & Hp & _ & Ep); [congruence|]. cbn [bind].
    f_equal. rewrite (m_sum_row p n Hp). cbn [fdiv RNum]. f_equal. apply rsum_ext. intros j Hj.
    rewrite Ep, Eo, Ec, Eze by assumption. cbn [fadd RNum]. destruct (Rlt_dec 0 (ment a 0 j * ment b 0 j)); lra.
Qed.

Lemma row_vec_conv t m n : row_vec m n -> row_vec (conv t m) n /\ forall j, (j < n)%nat -> ment (conv t m) 0 j = ment m 0 j.
Proof.
  intros (W & R1 & C1). split; [split; [apply conv_wf, W|rewrite conv_nr, conv_nc; auto]|].
  intros j Hj. apply ment_conv; [assumption|lia|lia].
Qed.

Lemma sim_spec_ext s n u u' v v' : (forall i, (i < n)%nat -> u i = u' i) -> (forall i, (i < n)%nat -> v i = v' i) ->
  sim_spec s n u v = sim_spec s n u' v'.
Proof.
  intros Hu Hv. destruct s; cbn [sim_spec].
  - unfold cosine. rewrite (norm_ext n u u' Hu), (norm_ext n v v' Hv), (dot_ext n u u' v v' Hu Hv). reflexivity.
  - apply dot_ext; assumption.
  - unfold euclid_score. do 2 f_equal. apply norm_ext. intros i Hi. rewrite Hu, Hv by assumption. reflexivity.
  - unfold lin_code. rewrite (rsum_ext n u u' Hu), (rsum_ext n v v' Hv).
    destruct (Req_EM_T _ _); [reflexivity|]. f_equal. apply rsum_ext. intros i Hi. rewrite Hu, Hv by assumption. reflexivity.
Qed.

(** value of Similarity.get_sim on two row vectors of any classes; different lengths are a ValueError *)
Lemma sim_get_row s a b n : row_vec a n -> row_vec b n -> sim_get s a b = Ok (sim_spec s n (ment a 0) (ment b 0)).
Proof.
  intros Ha Hb. unfold sim_get, to_compatible.
  destruct (row_vec_conv (type_of a) b n Hb) as (Hb' & Eb).
  unfold assert_same_shape. rewrite (proj2 (same_shapeb_iff a (conv (type_of a) b))).
  2:{ destruct Ha as (_&?&?), Hb' as (_&?&?). split; congruence. }
  cbn [check bind]. rewrite (sim_raw_row s a _ n Ha Hb') by (rewrite conv_type; reflexivity).
  f_equal. apply sim_spec_ext; [reflexivity|exact Eb].
Qed.
Lemma sim_get_mismatch s a b n m : row_vec a n -> row_vec b m -> n <> m -> sim_get s a b = Err ValueError.
Proof.
  intros Ha Hb Hne. unfold sim_get, to_compatible. destruct (row_vec_conv (type_of a) b m Hb) as (Hb' & _).
  unfold assert_same_shape. destruct (same_shapeb a (conv (type_of a) b)) eqn:Es; [|reflexivity].
  apply same_shapeb_iff in Es. destruct Ha as (_&_&?), Hb' as (_&_&?). destruct Es. congruence.
Qed.

Definition v1111 : matrix := MD (DM 1 2 [[1; 1]]).
Definition v1m1 : matrix := MD (DM 1 2 [[3; 4]]).
Lemma v1111_row : row_vec v1111 2.
Proof. repeat split; cbn; try lia; repeat constructor. Qed.
Lemma v1m1_row : row_vec v1m1 2.
Proof. repeat split; cbn; try lia; repeat constructor. Qed.

(** ** C11 *)
Theorem C11_cosine : forall u v n, row_vec u n -> row_vec v n ->
  exists c, sim_get Cos u v = Ok c /\
  let nu := norm n (ment u 0) in let nv := norm n (ment v 0) in
  (nu <> 0 -> nv <> 0 -> c = dot n (ment u 0) (ment v 0) / (nu * nv)) /\
  (nu = 0 \/ nv = 0 -> c = 0) /\ -1 <= c <= 1.
Proof.
  intros u v n Hu Hv. eexists. split; [apply (sim_get_row Cos u v n Hu Hv)|]. cbn zeta. cbn [sim_spec]. unfold cosine.
  set (nu := norm n (ment u 0)). set (nv := norm n (ment v 0)).
  pose proof (norm_nonneg n (ment u 0) : 0 <= nu) as H1. pose proof (norm_nonneg n (ment v 0) : 0 <= nv) as H2.
  pose proof (cauchy_schwarz n (ment u 0) (ment v 0)) as HC. fold nu nv in HC.
  destruct (Req_EM_T nu 0) as [E1|E1]; [split; [intros; contradiction|]; split; [reflexivity|lra]|].
  destruct (Req_EM_T nv 0) as [E2|E2]; [split; [intros; contradiction|]; split; [reflexivity|lra]|].
  split; [reflexivity|]. split; [intros [?|?]; contradiction|].
  assert (Hp : 0 < nu * nv) by (apply Rmult_lt_0_compat; lra).
  assert (HC2 : - (nu * nv) <= dot n (ment u 0) (ment v 0) <= nu * nv) by (revert HC; unfold Rabs; destruct (Rcase_abs _); lra).
  split.
  - apply Rmult_le_reg_r with (nu * nv); [exact Hp|]. unfold Rdiv. rewrite Rmult_assoc, Rinv_l by lra. lra.
  - apply Rmult_le_reg_r with (nu * nv); [exact Hp|]. unfold Rdiv. rewrite Rmult_assoc, Rinv_l by lra. lra.
Qed.

Theorem C11_cosine_symmetric : forall u v n, row_vec u n -> row_vec v n -> sim_get Cos u v = sim_get Cos v u.
Proof.
  intros u v n Hu Hv. rewrite (sim_get_row Cos u v n Hu Hv), (sim_get_row Cos v u n Hv Hu). f_equal. cbn [sim_spec].
  unfold cosine. destruct (Req_EM_T (norm n (ment u 0)) 0), (Req_EM_T (norm n (ment v 0)) 0); try reflexivity.
  rewrite dot_sym. f_equal. apply Rmult_comm.
Qed.

Theorem C11_cosine_self : forall u n, row_vec u n -> (exists j, (j < n)%nat /\ ment u 0 j <> 0) -> sim_get Cos u u = Ok 1.
Proof.
  intros u n Hu (j & Hj & Hne). rewrite (sim_get_row Cos u u n Hu Hu). f_equal. cbn [sim_spec]. unfold cosine.
  destruct (Req_EM_T (norm n (ment u 0)) 0) as [E1|E1].
  - exfalso. apply Hne. apply (proj1 (norm_zero n (ment u 0)) E1 j Hj).
  - rewrite norm_sq. field. intros K. apply E1. unfold norm. rewrite K. apply sqrt_0.
Qed.

Theorem C11_cosine_scale : forall a u u' v n, 0 < a -> row_vec u n -> row_vec u' n -> row_vec v n ->
  (forall j, (j < n)%nat -> ment u' 0 j = a * ment u 0 j) -> sim_get Cos u' v = sim_get Cos u v.
Proof.
  intros a u u' v n Ha Hu Hu' Hv He. rewrite (sim_get_row Cos u' v n Hu' Hv), (sim_get_row Cos u v n Hu Hv). f_equal.
  cbn [sim_spec]. unfold cosine.
  rewrite (norm_ext n (ment u' 0) (fun j => a * ment u 0 j) He), norm_scal, Rabs_pos_eq by lra.
  rewrite (dot_ext n (ment u' 0) (fun j => a * ment u 0 j) (ment v 0) (ment v 0) He) by reflexivity. rewrite dot_scal_l.
  destruct (Req_EM_T (norm n (ment u 0)) 0) as [E1|E1].
  - rewrite E1, Rmult_0_r. destruct (Req_EM_T 0 0); [reflexivity|contradiction].
  - destruct (Req_EM_T (a * norm n (ment u 0)) 0) as [E2|E2]; [apply Rmult_integral in E2; lra|].
    destruct (Req_EM_T (norm n (ment v 0)) 0); [reflexivity|]. field. lra.
Qed.
Example C11_example : row_vec v1111 2 /\ row_vec v1m1 2 /\ (exists j, (j < 2)%nat /\ ment v1111 0 j <> 0).
Proof. split; [apply v1111_row|]. split; [apply v1m1_row|]. exists 0%nat. split; [lia|]. cbn. lra. Qed.

(** ** C12 *)
Theorem C12_euclidean : forall u v n, row_vec u n -> row_vec v n ->
  exists c, sim_get Euclid u v = Ok c /\ c = 1 / (1 + norm n (fun j => ment u 0 j - ment v 0 j)) /\
  0 < c <= 1 /\ (c = 1 <-> forall j, (j < n)%nat -> ment u 0 j = ment v 0 j) /\ sim_get Euclid v u = Ok c.
Proof.
  intros u v n Hu Hv. eexists. split; [apply (sim_get_row Euclid u v n Hu Hv)|]. cbn [sim_spec].
  split; [reflexivity|]. unfold euclid_score. set (d := norm n (fun i => ment u 0 i - ment v 0 i)).
  pose proof (norm_nonneg n (fun i => ment u 0 i - ment v 0 i) : 0 <= d) as Hd.
  assert (Hp : 0 < 1 + d) by lra. split; [split|split].
  - apply Rdiv_lt_0_compat; lra.
  - apply Rmult_le_reg_r with (1 + d); [exact Hp|]. unfold Rdiv. rewrite Rmult_assoc, Rinv_l by lra. lra.
  - assert (Hz : (forall j, (j < n)%nat -> ment u 0 j = ment v 0 j) <-> d = 0).
    { unfold d. rewrite norm_zero. split; intros H j Hj; specialize (H j Hj); lra. }
    rewrite Hz. split; intros H.
    + assert (1 = 1 + d); [|lra]. assert (K : 1 / (1 + d) * (1 + d) = 1) by (field; lra). rewrite H in K. lra.
    + rewrite H. unfold Rdiv. rewrite Rplus_0_r, Rinv_1. lra.
  - rewrite (sim_get_row Euclid v u n Hv Hu). cbn [sim_spec]. unfold euclid_score. f_equal.
    replace (norm n (fun i => ment v 0 i - ment u 0 i)) with d; [reflexivity|]. unfold d.
    rewrite (norm_ext n (fun i => ment u 0 i - ment v 0 i) (fun i => (-1) * (ment v 0 i - ment u 0 i))) by (intros; lra).
    rewrite norm_scal. replace (Rabs (-1)) with 1 by (rewrite Rabs_left; lra). lra.
Qed.
Example C12_example : row_vec v1111 2 /\ row_vec v1m1 2.
Proof. split; [apply v1111_row|apply v1m1_row]. Qed.

Lemma lin_code_sym n u v : lin_code n u v = lin_code n v u.
Proof.
  unfold lin_code. rewrite (Rplus_comm (rsum n v)). destruct (Req_EM_T _ _); [reflexivity|]. f_equal. apply rsum_ext. intros j _.
  rewrite (Rmult_comm (v j)). destruct (Rlt_dec _ _); lra.
Qed.
(** ** C13.  For non-negative vectors the code computes Lin's measure; symmetric and in [0,1] *)
Theorem C13_lin_nonneg_partial : forall u v n, row_vec u n -> row_vec v n ->
  (forall j, (j < n)%nat -> 0 <= ment u 0 j) -> (forall j, (j < n)%nat -> 0 <= ment v 0 j) ->
  exists c, sim_get Lin u v = Ok c /\ c = lin_score n (ment u 0) (ment v 0) /\ 0 <= c <= 1 /\ sim_get Lin v u = Ok c.
Proof.
  intros u v n Hu Hv Pu Pv. eexists. split; [apply (sim_get_row Lin u v n Hu Hv)|].
  assert (Hsame : sim_spec Lin n (ment u 0) (ment v 0) = lin_score n (ment u 0) (ment v 0)).
  { cbn [sim_spec]. unfold lin_code, lin_score. destruct (Req_EM_T _ _); [reflexivity|]. f_equal. apply rsum_ext. intros j Hj.
    specialize (Pu j Hj). specialize (Pv j Hj).
    destruct (Rlt_dec 0 (ment u 0 j * ment v 0 j)) as [H|H], (Rlt_dec 0 (ment u 0 j)) as [H1|H1]; try destruct (Rlt_dec 0 (ment v 0 j)) as [H2|H2]; try reflexivity; exfalso; try nra. }
  split; [exact Hsame|]. split.
  - rewrite Hsame. unfold lin_score. destruct (Req_EM_T _ _) as [|Hne]; [lra|].
    set (tot := rsum n (ment u 0) + rsum n (ment v 0)) in *.
    set (com := rsum n _).
    assert (0 <= rsum n (ment u 0)) by (apply rsum_nonneg; exact Pu).
    assert (0 <= rsum n (ment v 0)) by (apply rsum_nonneg; exact Pv).
    assert (Ht : 0 < tot) by (unfold tot in *; lra).
    assert (Hc0 : 0 <= com). { apply rsum_nonneg. intros j Hj. specialize (Pu j Hj). specialize (Pv j Hj). destruct (Rlt_dec _ _); [destruct (Rlt_dec _ _)|]; lra. }
    assert (Hc1 : com <= tot).
    { unfold tot. rewrite <- rsum_plus. apply rsum_le. intros j Hj. specialize (Pu j Hj). specialize (Pv j Hj). destruct (Rlt_dec _ _); [destruct (Rlt_dec _ _)|]; lra. }
    split.
    + apply Rmult_le_reg_r with tot; [exact Ht|]. unfold Rdiv. rewrite Rmult_assoc, Rinv_l by lra. lra.
    + apply Rmult_le_reg_r with tot; [exact Ht|]. unfold Rdiv. rewrite Rmult_assoc, Rinv_l by lra. lra.
  - rewrite (sim_get_row Lin v u n Hv Hu). cbn [sim_spec]. rewrite lin_code_sym. reflexivity.
Qed.
(** symmetric for all vectors *)
Theorem C13_lin_symmetric_partial : forall u v n, row_vec u n -> row_vec v n -> sim_get Lin u v = sim_get Lin v u.
Proof.
  intros u v n Hu Hv. rewrite (sim_get_row Lin v u n Hv Hu), (sim_get_row Lin u v n Hu Hv). cbn [sim_spec]. rewrite lin_code_sym. reflexivity.
Qed.
(** for vectors with negative components it is not Lin's measure: two negative components count as common *)
Definition lin_u : @matrix RNum := MD (@DM RNum 1 2 [[-1; 3]]).
Definition lin_v : @matrix RNum := MD (@DM RNum 1 2 [[-1; 0]]).
Theorem C13_lin_refuted : exists u v n c, row_vec u n /\ row_vec v n /\ sim_get Lin u v = Ok c /\
  c <> lin_score n (ment u 0) (ment v 0).
Proof.
  exists lin_u, lin_v, 2%nat, (-2).
  assert (R1 : row_vec lin_u 2) by (repeat split; cbn; try lia; repeat constructor).
  assert (R2 : row_vec lin_v 2) by (repeat split; cbn; try lia; repeat constructor).
  split; [exact R1|]. split; [exact R2|]. split.
  - rewrite (sim_get_row Lin _ _ 2 R1 R2). apply (f_equal (@Ok R)). cbn [sim_spec]. unfold lin_code, ment, dent. cbn.
    destruct (Req_EM_T _ _); [exfalso; lra|]. destruct (Rlt_dec 0 (-1 * -1)); [|exfalso; lra].
    destruct (Rlt_dec 0 (3 * 0)); [exfalso; lra|]. field; lra.
  - unfold lin_score, ment, dent. cbn. destruct (Req_EM_T _ _); [intros; lra|].
    destruct (Rlt_dec 0 (-1)); [exfalso; lra|]. destruct (Rlt_dec 0 3); [|exfalso; lra].
    destruct (Rlt_dec 0 0); [exfalso; lra|]. unfold Rdiv. rewrite Rplus_0_r, Rplus_0_r, Rmult_0_l. lra.
Qed.
Example C13_example : row_vec v1111 2 /\ row_vec v1m1 2 /\ (forall j, (j < 2)%nat -> 0 <= ment v1111 0 j) /\ (forall j, (j < 2)%nat -> 0 <= ment v1m1 0 j).
Proof.
  split; [apply v1111_row|]. split; [apply v1m1_row|].
  split; intros [|[|j]] Hj; cbn; try lra; lia.
Qed.

(** ** C14 *)
Lemma row_of_matrix m i : mwf m -> (i < m_nr m)%nat ->
  exists r, m_get_row m (Z.of_nat i) = Ok r /\ row_vec r (m_nc m) /\ type_of r = type_of m /\
            forall j, (j < m_nc m)%nat -> ment r 0 j = ment m i j.
Proof.
  intros Hm Hi. destruct (m_get_row_is m i Hm Hi) as (r & E & Hr). exists r. split; [exact E|].
  destruct (is_mat_has _ _ _ Hr) as (W & T & R1 & C1). cbn [d_rows tab d_nr d_nc length] in R1, C1. rewrite to_dense_nc in C1.
  split; [split; auto|]. split; [exact T|]. intros j Hj.
  rewrite (is_row_ent r _ _ (m_nc m) j Hr); [|reflexivity|cbn; apply to_dense_nc|exact Hj].
  unfold d_rows. rewrite dent_tab by (cbn [length]; rewrite ?to_dense_nc; lia). cbn [nth]. apply dent_to_dense; assumption.
Qed.

Lemma dot_sims_value v m n : row_vec v n -> mwf m -> m_nc m = n -> type_of v = type_of m ->
  exists z, dot_sims v m = Ok z /\ has z (type_of m) (m_nr m) 1 /\
            forall i, (i < m_nr m)%nat -> ment z i 0 = dot n (ment v 0) (ment m i).
Proof.
  intros (Wv & Rv & Cv) Hm Cm Ht. unfold dot_sims.
  pose proof (m_transpose_is v Wv) as Htr. destruct (is_mat_has _ _ _ Htr) as (Wt & Tt & Rt & Ct).
  cbn [d_transpose tab d_nr d_nc] in Rt, Ct. rewrite to_dense_nc in Rt. rewrite to_dense_nr in Ct.
  destruct (m_mul_total m (m_transpose v)) as (z & E); [assumption|assumption|congruence|congruence|].
  exists z. split; [exact E|]. apply m_mul_ok in E; [|assumption|assumption]. destruct E as (_&_&Hz).
  destruct (is_mat_has _ _ _ Hz) as (W & T & R1 & C1). cbn [d_mul tab d_nr d_nc] in R1, C1. rewrite to_dense_nr in R1. rewrite to_dense_nc in C1.
  split; [split; [assumption|split; [assumption|split; [assumption|congruence]]]|].
  intros i Hi. rewrite (is_mat_ent z _ _ i 0 Hz) by (cbn; rewrite ?to_dense_nr, ?to_dense_nc; lia).
  unfold d_mul. rewrite dent_tab by (rewrite ?to_dense_nr, ?to_dense_nc; lia). rewrite sumn_rsum, to_dense_nc, Cm.
  apply rsum_ext. intros k Hk. rewrite dent_to_dense by lia. rewrite dent_to_dense by lia.
  rewrite (is_mat_ent _ _ _ k 0 Htr) by (cbn; rewrite ?to_dense_nr, ?to_dense_nc; lia).
  unfold d_transpose. rewrite dent_tab by (rewrite ?to_dense_nr, ?to_dense_nc; lia). rewrite dent_to_dense by lia.
  cbn [fmul RNum]. apply Rmult_comm.
Qed.

Lemma sims_to_matrix_value s v m n : row_vec v n -> mwf m -> m_nc m = n ->
  exists z, sims_to_matrix s v m = Ok z /\ has z (type_of v) (m_nr m) 1 /\
            forall i, (i < m_nr m)%nat -> ment z i 0 = sim_spec s n (ment v 0) (ment m i).
Proof.
  intros Hv Hm Cm. pose proof Hv as (Wv & Rv & Cv). unfold sims_to_matrix, to_compatible.
  set (M := conv (type_of v) m).
  assert (HM : mwf M) by (apply conv_wf, Hm).
  assert (RM : m_nr M = m_nr m) by apply conv_nr. assert (CM : m_nc M = n) by (unfold M; rewrite conv_nc; exact Cm).
  assert (TM : type_of M = type_of v) by apply conv_type.
  assert (EM : forall i j, (i < m_nr m)%nat -> (j < n)%nat -> ment M i j = ment m i j).
  { intros. apply ment_conv; [assumption|assumption|lia]. }
  rewrite Cv, CM, Rv, !Nat.eqb_refl. cbn [andb check bind].
  assert (Hloop : forall s, exists z, loop_sims s v M = Ok z /\ has z (type_of v) (m_nr m) 1 /\
            forall i, (i < m_nr m)%nat -> ment z i 0 = sim_spec s n (ment v 0) (ment m i)).
  { intros s0. unfold loop_sims. pose proof (mwf_pos M HM) as (Pr & _).
    assert (Hmap : mapM (fun i => let* r := m_get_row M (Z.of_nat i) in sim_raw s0 v r) (seq 0 (m_nr M)) =
                   Ok (map (fun i => sim_spec s0 n (ment v 0) (ment m i)) (seq 0 (m_nr M)))).
    { apply mapM_all_ok. intros i Hi. apply in_seq in Hi.
      destruct (row_of_matrix M i HM) as (r & -> & Hr & Tr & Er); [lia|]. cbn [bind].
      rewrite CM in Hr, Er. rewrite (sim_raw_row s0 v r n Hv Hr) by congruence. apply (f_equal (@Ok R)). apply sim_spec_ext; [reflexivity|].
      intros j Hj. rewrite Er by assumption. apply EM; [lia|assumption]. }
    rewrite Hmap. cbn [bind]. eexists. split; [reflexivity|].
    assert (Hd : dwfm (tab (m_nr M) 1 (fun i _ => nth i (map (fun i => sim_spec s0 n (ment v 0) (ment m i)) (seq 0 (m_nr M))) 0))) by (apply tab_wf; lia).
    split. { destruct (has_of_dense (type_of M) _ Hd) as (W&T&R1&C1). split; [exact W|]. split; [exact (eq_trans T TM)|]. split; [exact (eq_trans R1 RM)|exact C1]. }
    intros i Hi. rewrite ment_of_dense by (cbn; lia). rewrite dent_tab by lia. rewrite nth_map_seq by lia. reflexivity. }
  destruct s; try apply Hloop.
  - unfold cos_sims. destruct (dot_sims_value v M n Hv HM CM (eq_sym TM)) as (z & -> & Hz & Ez). cbn [bind].
    set (rn := nonzero_invert _).
    assert (Lrn : length rn = m_nr M) by (unfold rn, nonzero_invert; rewrite !map_length; apply m_norm1_length).
    destruct Hz as (Wz & Tz & Rz & Cz).
    destruct (m_scale_rows_total z rn) as (q & E); [congruence|].
    exists q. split; [exact E|]. split.
    { eapply scale_rows_has; [|exact E]. has_tac. }
    intros i Hi. apply m_scale_rows_ok in E; [|assumption]. destruct E as (_ & Hq).
    rewrite (is_mat_ent q _ _ i 0 Hq) by (cbn; rewrite ?to_dense_nr, ?to_dense_nc; lia).
    unfold d_scale_rows. rewrite dent_tab by (rewrite ?to_dense_nr, ?to_dense_nc; lia).
    rewrite dent_to_dense by lia. rewrite Ez by lia.
    assert (Hn : nth i rn 0 = finv0 (norm n (ment v 0) * norm n (ment m i))).
    { unfold rn, nonzero_invert.
      rewrite nth_indep with (d' := finv0 (m_norm v * 0)) by (unfold rn, nonzero_invert in Lrn; lia).
      rewrite map_nth. rewrite (map_nth (fun x => fmul (m_norm v) x)). cbn [fmul RNum].
      rewrite nth_m_norm1_R by (assumption || lia). rewrite (m_norm_row v n Hv), CM. do 2 f_equal. apply norm_ext.
      intros j Hj. apply EM; assumption. }
    change (@f0 RNum) with 0. rewrite Hn. unfold finv0. cbn [fmul feqb fdiv f0 f1 RNum sim_spec]. unfold cosine, Reqb.
    rewrite (dot_ext n (ment v 0) (ment v 0) (ment M i) (ment m i)) by (intros; auto).
    destruct (Req_EM_T (norm n (ment v 0) * norm n (ment m i)) 0) as [E0|E0].
    + rewrite Rmult_0_r. destruct (Req_EM_T (norm n (ment v 0)) 0); [reflexivity|].
      destruct (Req_EM_T (norm n (ment m i)) 0); [reflexivity|]. apply Rmult_integral in E0. destruct E0; contradiction.
    + destruct (Req_EM_T (norm n (ment v 0)) 0) as [E1|E1]; [rewrite E1 in E0; lra|].
      destruct (Req_EM_T (norm n (ment m i)) 0) as [E2|E2]; [rewrite E2 in E0; lra|]. change (@F RNum) with R. field. auto.
  - destruct (dot_sims_value v M n Hv HM CM (eq_sym TM)) as (z & -> & Hz & Ez). exists z. split; [reflexivity|].
    destruct Hz as (Wz & Tz & Rz & Cz). split; [has_tac|].
    intros i Hi. rewrite Ez by lia. cbn [sim_spec]. apply dot_ext; [reflexivity|]. intros; auto.
Qed.

(** entry i of the column equals the pairwise similarity with row i *)
Theorem C14_sims_to_matrix : forall s v m n, row_vec v n -> mwf m -> m_nc m = n ->
  exists z, sims_to_matrix s v m = Ok z /\ m_nr z = m_nr m /\ m_nc z = 1%nat /\
    forall i, (i < m_nr m)%nat -> exists r, m_get_row m (Z.of_nat i) = Ok r /\ sim_get s v r = Ok (ment z i 0).
Proof.
  intros s v m n Hv Hm Cm. destruct (sims_to_matrix_value s v m n Hv Hm Cm) as (z & E & (_&_&R1&C1) & Ez).
  exists z. split; [exact E|]. split; [exact R1|]. split; [exact C1|]. intros i Hi.
  destruct (row_of_matrix m i Hm Hi) as (r & Er & Hr & _ & Ee). rewrite Cm in Hr, Ee.
  exists r. split; [exact Er|]. rewrite (sim_get_row s v r n Hv Hr), Ez by assumption. apply (f_equal (@Ok R)).
  apply sim_spec_ext; [reflexivity|exact Ee].
Qed.
Example C14_example : row_vec v1111 2 /\ mwf (@m22 RNum) /\ m_nc (@m22 RNum) = 2%nat.
Proof. split; [apply v1111_row|]. split; [apply (@m22_wf RNum)|reflexivity]. Qed.
