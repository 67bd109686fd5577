(** Prop_NmfInit.v -- property C77: the starting points of the non-negative factorisation (nmf.py: v_col_init, random_init,
    nndsvd_init), over exact reals. *)
From Coq Require Import Reals Lra Psatz.
From Verif Require Import Base PyList Dict Num SpecReal Dense Sparse Matrix PSparse PMatrix PMatOps PShape PVals PReal PPos Scaling Linalg Operation
  NmfInit Prop_Scaling Prop_Alike Prop_Svd Prop_Nmf.
#[local] Existing Instance RNum.
Open Scope R_scope.
Open Scope nat_scope.

(** ** specification *)
(** w, h : a non-negative starting point for factoring m into k dimensions, of the class of m *)
Definition starting_point (k : nat) (m w h : matrix) : Prop :=
  mwf w /\ mwf h /\ type_of w = type_of m /\ type_of h = type_of m /\
  m_nr w = m_nr m /\ m_nc w = k /\ m_nr h = k /\ m_nc h = m_nc m /\ non_negative w /\ non_negative h.

(** positive and negative parts of a vector *)
Definition pos (f : nat -> R) : nat -> R := fun i => Rmax 0 (f i).
Definition neg (f : nat -> R) : nat -> R := fun i => Rmax 0 (- f i).
(** non-negative double SVD (Boutsidis and Gallopoulos): the pair built from the singular triple (s, f, g), with f of length r
    and g of length c, is the larger one of the two non-negative sections of s f g', shared evenly between the two vectors *)
Definition nnd_pair (r c : nat) (s : R) (f g : nat -> R) : (nat -> R) * (nat -> R) :=
  let p := (norm r (pos f) * norm c (pos g))%R in
  let q := (norm r (neg f) * norm c (neg g))%R in
  if Rle_dec q p
  then ((fun i => sqrt (s * p) * pos f i / norm r (pos f))%R, (fun j => sqrt (s * p) * pos g j / norm c (pos g))%R)
  else ((fun i => sqrt (s * q) * neg f i / norm r (neg f))%R, (fun j => sqrt (s * q) * neg g j / norm c (neg g))%R).
(** the first pair is taken in absolute value *)
Definition first_pair (s : R) (f g : nat -> R) : (nat -> R) * (nat -> R) :=
  ((fun i => sqrt s * Rabs (f i))%R, (fun j => sqrt s * Rabs (g j))%R).

(** ** lemmas *)
Lemma pos_part_pos x : pos_part x = Rmax 0 x.
Proof. rewrite pos_part_R. unfold Rmax. destruct (Rlt_dec 0 x), (Rle_dec 0 x); lra. Qed.
Lemma vals_div x a t r c f : vals a t r c f -> x <> 0%R -> exists z, m_div a x = Ok z /\ vals z t r c (fun i j => f i j / x)%R.
Proof.
  intros Ha Hx. pose proof (vals_has _ _ _ _ _ Ha) as (W&T&R0&C). unfold m_div. cbn [feqb f0 RNum]. unfold Reqb.
  destruct (Req_EM_T x 0); [contradiction|]. cbn [negb check bind]. eexists. split; [reflexivity|]. rewrite T.
  pose proof (vals_pos _ _ _ _ _ Ha) as (Hr & Hc). unfold d_map. rewrite to_dense_nr, to_dense_nc, R0, C.
  eapply vals_ext; [apply vals_of_dense; assumption|]. intros i j Hi Hj. cbn beta. cbn [fdiv RNum]. change (@F RNum) with R.
  rewrite (vals_dent a t r c f) by assumption. reflexivity.
Qed.
Lemma vals_norm a t r c f : vals a t r c f -> m_norm a = sqrt (rsum r (fun i => rsum c (fun j => f i j * f i j)))%R.
Proof.
  intros V. rewrite m_norm_R by exact (vals_wf _ _ _ _ _ V). rewrite (vals_nr _ _ _ _ _ V), (vals_nc _ _ _ _ _ V). f_equal.
  apply rsum_ext. intros i Hi. apply rsum_ext. intros j Hj. rewrite !(vals_ent _ _ _ _ _ _ _ V) by assumption. reflexivity.
Qed.
Lemma norm_col a t r f : vals a t r 1 (fun i _ => f i) -> m_norm a = norm r f.
Proof. intros V. rewrite (vals_norm _ _ _ _ _ V). unfold norm, dot. f_equal. apply rsum_ext. intros. cbn. ring. Qed.
Lemma norm_row a t c f : vals a t 1 c (fun _ j => f j) -> m_norm a = norm c f.
Proof. intros V. rewrite (vals_norm _ _ _ _ _ V). unfold norm, dot. f_equal. cbn [rsum]. ring. Qed.

Lemma matrix_abs_vals a t r c f : vals a t r c f -> exists z, matrix_abs a = Ok z /\ vals z t r c (fun i j => Rabs (f i j)).
Proof.
  intros V. unfold matrix_abs. pose proof (vals_get_non_negative _ _ _ _ _ V) as P.
  destruct (vals_sub _ _ _ _ _ _ _ P V) as (n & -> & Vn). cbn [bind]. destruct (vals_add _ _ _ _ _ _ _ P Vn) as (z & -> & Vz).
  exists z. split; [reflexivity|]. eapply vals_ext; [exact Vz|]. intros i j _ _. cbn beta. rewrite pos_part_pos. cbn [fadd fsub RNum].
  unfold Rmax, Rabs. destruct (Rle_dec 0 (f i j)), (Rcase_abs (f i j)); lra.
Qed.
Lemma math_sqrt_ok x : (0 <= x)%R -> math_sqrt x = Ok (sqrt x).
Proof. intros H. unfold math_sqrt. change (@f0 RNum) with 0%R. change (@F RNum) with R in *. rewrite (proj2 (fleb_R 0 x) H). reflexivity. Qed.

Lemma first_vals s uu vv t r c f g : (0 <= s)%R -> vals uu t r 1 (fun i _ => f i) -> vals vv t 1 c (fun _ j => g j) ->
  exists a b, nndsvd_first s uu vv = Ok (a, b) /\ vals a t r 1 (fun i _ => fst (first_pair s f g) i) /\ vals b t 1 c (fun _ j => snd (first_pair s f g) j).
Proof.
  intros Hs Vu Vv. unfold nndsvd_first. rewrite (math_sqrt_ok s Hs). cbn [bind].
  destruct (matrix_abs_vals _ _ _ _ _ Vu) as (a & -> & Va). destruct (matrix_abs_vals _ _ _ _ _ Vv) as (b & -> & Vb). cbn [bind].
  do 2 eexists. split; [reflexivity|]. split; (eapply vals_ext; [apply vals_scal; eassumption|]); intros i j _ _; cbn; ring.
Qed.

(** the two vectors have entries of a common sign *)
Definition mixed (r c : nat) (f g : nat -> R) : Prop :=
  ((exists i, i < r /\ (0 < f i)%R) /\ (exists j, j < c /\ (0 < g j)%R)) \/ ((exists i, i < r /\ (f i < 0)%R) /\ (exists j, j < c /\ (g j < 0)%R)).
Lemma rsum_term n f i : (forall k, k < n -> (0 <= f k)%R) -> i < n -> (f i <= rsum n f)%R.
Proof.
  induction n as [|n IH]; intros H Hi; [lia|]. cbn [rsum]. pose proof (H n ltac:(lia)). assert (H' : forall k, k < n -> (0 <= f k)%R) by (intros; apply H; lia).
  pose proof (rsum_nonneg n f H'). destruct (Nat.eq_dec i n) as [->|]; [lra|]. specialize (IH H' ltac:(lia)). lra.
Qed.
Lemma norm_pos_term n f i : i < n -> f i <> 0%R -> (0 < norm n f)%R.
Proof.
  intros Hi Hf. unfold norm, dot. apply sqrt_lt_R0. pose proof (rsum_term n (fun k => f k * f k)%R i) as H. cbn beta in H.
  specialize (H ltac:(intros; apply Rle_0_sqr) Hi). pose proof (Rsqr_pos_lt (f i) Hf) as K. unfold Rsqr in K. lra.
Qed.
Lemma norm_nonneg n f : (0 <= norm n f)%R.  Proof. apply sqrt_pos. Qed.
Lemma mixed_norms r c f g : mixed r c f g -> (0 < norm r (pos f) * norm c (pos g) \/ 0 < norm r (neg f) * norm c (neg g))%R.
Proof.
  intros [((i & Hi & Hf) & (j & Hj & Hg)) | ((i & Hi & Hf) & (j & Hj & Hg))]; [left|right]; apply Rmult_lt_0_compat;
    (eapply norm_pos_term; [eassumption|]); unfold pos, neg, Rmax; destruct (Rle_dec _ _); lra.
Qed.
Lemma step_vals s uu vv t r c f g : (0 <= s)%R -> mixed r c f g -> vals uu t r 1 (fun i _ => f i) -> vals vv t 1 c (fun _ j => g j) ->
  exists a b, nndsvd_step s uu vv = Ok (a, b) /\ vals a t r 1 (fun i _ => fst (nnd_pair r c s f g) i) /\ vals b t 1 c (fun _ j => snd (nnd_pair r c s f g) j).
Proof.
  intros Hs Hm Vu Vv. unfold nndsvd_step.
  pose proof (vals_get_non_negative _ _ _ _ _ Vu) as Pu. pose proof (vals_get_non_negative _ _ _ _ _ Vv) as Pv.
  destruct (vals_sub _ _ _ _ _ _ _ Pu Vu) as (uun & -> & Nu). destruct (vals_sub _ _ _ _ _ _ _ Pv Vv) as (vvn & -> & Nv). cbn [bind].
  assert (Pu' : vals (m_get_non_negative uu) t r 1 (fun i _ => pos f i)) by (eapply vals_ext; [exact Pu|]; intros; apply pos_part_pos).
  assert (Pv' : vals (m_get_non_negative vv) t 1 c (fun _ j => pos g j)) by (eapply vals_ext; [exact Pv|]; intros; apply pos_part_pos).
  assert (X : forall x, fsub (pos_part x) x = Rmax 0 (- x)).
  { intros x. rewrite pos_part_pos. cbn [fsub RNum]. unfold Rmax. destruct (Rle_dec 0 x), (Rle_dec 0 (- x)); lra. }
  assert (Nu' : vals uun t r 1 (fun i _ => neg f i)) by (eapply vals_ext; [exact Nu|]; intros; apply X).
  assert (Nv' : vals vvn t 1 c (fun _ j => neg g j)) by (eapply vals_ext; [exact Nv|]; intros; apply X).
  clear Pu Pv Nu Nv X. rewrite (norm_col _ _ _ _ Pu'), (norm_col _ _ _ _ Nu'), (norm_row _ _ _ _ Pv'), (norm_row _ _ _ _ Nv').
  pose proof (mixed_norms _ _ _ _ Hm) as M. unfold nnd_pair. cbn [fmul RNum].
  pose proof (norm_nonneg r (pos f)) as B1. pose proof (norm_nonneg r (neg f)) as B2. pose proof (norm_nonneg c (pos g)) as B3. pose proof (norm_nonneg c (neg g)) as B4.
  destruct (Rle_dec _ _) as [L|L].
  - rewrite (proj2 (fleb_R _ _) L). assert (Z : (0 < norm r (pos f) * norm c (pos g))%R) by lra.
    assert (Z1 : norm r (pos f) <> 0%R) by (intros K; rewrite K in Z; lra). assert (Z2 : norm c (pos g) <> 0%R) by (intros K; rewrite K in Z; lra).
    rewrite math_sqrt_ok by (apply Rmult_le_pos; lra). cbn [bind].
    destruct (vals_div _ _ _ _ _ _ (vals_scal (sqrt (s * (norm r (pos f) * norm c (pos g)))) _ _ _ _ _ Pu') Z1) as (a & -> & Va). cbn [bind].
    destruct (vals_div _ _ _ _ _ _ (vals_scal (sqrt (s * (norm r (pos f) * norm c (pos g)))) _ _ _ _ _ Pv') Z2) as (b & -> & Vb). cbn [bind].
    exists a, b. split; [reflexivity|]. split; (eapply vals_ext; [eassumption|]); intros; cbn [fst snd fmul RNum]; f_equal; ring.
  - destruct (fleb _ _) eqn:Q; [apply fleb_R in Q; contradiction|]. clear Q. assert (Z : (0 < norm r (neg f) * norm c (neg g))%R) by (pose proof (Rmult_le_pos _ _ B1 B3); lra).
    assert (Z1 : norm r (neg f) <> 0%R) by (intros K; rewrite K in Z; lra). assert (Z2 : norm c (neg g) <> 0%R) by (intros K; rewrite K in Z; lra).
    rewrite math_sqrt_ok by (apply Rmult_le_pos; lra). cbn [bind].
    destruct (vals_div _ _ _ _ _ _ (vals_scal (sqrt (s * (norm r (neg f) * norm c (neg g)))) _ _ _ _ _ Nu') Z1) as (a & -> & Va). cbn [bind].
    destruct (vals_div _ _ _ _ _ _ (vals_scal (sqrt (s * (norm r (neg f) * norm c (neg g)))) _ _ _ _ _ Nv') Z2) as (b & -> & Vb). cbn [bind].
    exists a, b. split; [reflexivity|]. split; (eapply vals_ext; [eassumption|]); intros; cbn [fst snd fmul RNum]; f_equal; ring.
Qed.

(** stacking one-column and one-row matrices *)
Lemma hstack_cols t r (d : matrix) : forall l (f : nat -> nat -> R), l <> [] -> (forall a, a < length l -> vals (nth a l d) t r 1 (fun i _ => f i a)) ->
  exists z, nary_hstack l = Ok z /\ vals z t r (length l) f.
Proof.
  induction l as [|m [|m' l] IH]; intros f Hl H; [contradiction| |].
  - exists m. split; [reflexivity|]. eapply vals_ext; [exact (H 0 ltac:(cbn; lia))|]. intros i j _ Hj. cbn beta. cbn in Hj. replace j with 0 by lia. reflexivity.
  - destruct (IH (fun i a => f i (S a)) ltac:(discriminate)) as (z & E & V).
    { intros a Ha. exact (H (S a) ltac:(cbn in *; lia)). }
    change (nary_hstack (m :: m' :: l)) with (let* r := nary_hstack (m' :: l) in m_hstack m r). rewrite E. cbn [bind].
    destruct (vals_hstack m z _ _ _ _ _ _ (H 0 ltac:(cbn; lia)) V) as (y & -> & Vy). exists y. split; [reflexivity|].
    eapply vals_ext; [exact Vy|]. intros i j _ _. cbn beta. destruct (Nat.ltb_spec j 1); [replace j with 0 by lia; reflexivity|]. f_equal. lia.
Qed.
Lemma vstack_rows t c (d : matrix) : forall l (f : nat -> nat -> R), l <> [] -> (forall a, a < length l -> vals (nth a l d) t 1 c (fun _ j => f a j)) ->
  exists z, nary_vstack t l = Ok z /\ vals z t (length l) c f.
Proof.
  induction l as [|m [|m' l] IH]; intros f Hl H; [contradiction| |].
  - exists (conv t m). split; [reflexivity|]. eapply vals_ext; [exact (vals_conv t _ _ _ _ _ (H 0 ltac:(cbn; lia)))|]. intros i j Hi _. cbn beta. cbn in Hi. replace i with 0 by lia. reflexivity.
  - destruct (IH (fun a j => f (S a) j) ltac:(discriminate)) as (z & E & V).
    { intros a Ha. exact (H (S a) ltac:(cbn in *; lia)). }
    change (nary_vstack t (m :: m' :: l)) with (let* r := nary_vstack t (m' :: l) in m_vstack (conv t m) r). rewrite E. cbn [bind].
    destruct (vals_vstack (conv t m) z _ _ _ _ _ _ (vals_conv t m _ _ _ _ (H 0 ltac:(cbn; lia))) V) as (y & -> & Vy). exists y. split; [reflexivity|].
    eapply vals_ext; [exact Vy|]. intros i j _ _. cbn beta. destruct (Nat.ltb_spec i 1); [replace i with 0 by lia; reflexivity|]. f_equal. lia.
Qed.

Lemma nnd_nonneg r c s f g : (forall i, (0 <= fst (nnd_pair r c s f g) i)%R) /\ (forall j, (0 <= snd (nnd_pair r c s f g) j)%R).
Proof.
  assert (D : forall x y z, (0 <= x -> 0 <= y -> 0 <= z -> 0 <= x * y / z)%R).
  { intros x y z Hx Hy Hz. destruct (Req_dec z 0) as [-> | Hn]; [unfold Rdiv; rewrite Rinv_0; lra|]. apply Rmult_le_pos; [apply Rmult_le_pos; assumption|]. apply Rlt_le, Rinv_0_lt_compat. lra. }
  assert (P : forall h i, (0 <= pos h i)%R) by (intros; apply Rmax_l). assert (Q : forall h i, (0 <= neg h i)%R) by (intros; apply Rmax_l).
  unfold nnd_pair. destruct (Rle_dec _ _); split; intros x; cbn [fst snd]; apply D; auto using sqrt_pos, norm_nonneg.
Qed.
Lemma first_nonneg s f g : (forall i, (0 <= fst (first_pair s f g) i)%R) /\ (forall j, (0 <= snd (first_pair s f g) j)%R).
Proof. split; intros x; cbn [fst snd first_pair]; (apply Rmult_le_pos; [apply sqrt_pos|apply Rabs_pos]). Qed.

Section WithExt.
Context {E : @Ext RNum}.

Lemma linalg_svd_has k m u s v : mwf m -> linalg_svd m k = Ok (u, s, v) ->
  0 < m_nc u /\ m_nc u <= k /\ has u (type_of m) (m_nr m) (m_nc u) /\ has v (type_of m) (m_nc m) (m_nc u) /\ length s = m_nc u.
Proof.
  intros Wm H. pose proof (mwf_pos _ Wm) as (Hr & Hc). unfold linalg_svd in H. destruct (Nat.eqb_spec k 0) as [|Kn]; [discriminate|]. cbn [negb check bind] in H.
  destruct m as [d|c0]; cbn [m_nr m_nc type_of] in *.
  - unfold dense_svd in H. apply bind_ok in H. destruct H as (((u0 & s0) & vt) & _ & H). cbv zeta in H.
    set (n := Nat.min (Nat.min (d_nr d) (d_nc d)) _) in H. destruct (Nat.eqb_spec n 0); [discriminate|]. cbn [negb check bind] in H.
    assert (Hn : 0 < n) by lia. assert (Hk : n <= k) by (unfold n; lia).
    assert (Hs : length (firstn n (map s0 (seq 0 (Nat.min (d_nr d) (d_nc d))))) = n) by (rewrite firstn_length, map_length, seq_length; unfold n; lia).
    pose proof (vals_of_dense TDense (d_nr d) n u0 Hr Hn) as Vu. pose proof (vals_of_dense TDense (d_nc d) n (fun i j => vt j i) Hc Hn) as Vv. cbn [of_dense] in Vu, Vv.
    destruct (m_is_mostly_positive _) in H; injection H as <- <- <-.
    + rewrite (vals_nc _ _ _ _ _ Vu). repeat split; try assumption; try (apply (vals_wf _ _ _ _ _ Vu)); try (apply (vals_wf _ _ _ _ _ Vv)).
    + pose proof (vals_neg _ _ _ _ _ Vu) as Vu'. pose proof (vals_neg _ _ _ _ _ Vv) as Vv'. rewrite (vals_nc _ _ _ _ _ Vu').
      split; [assumption|]. split; [assumption|]. split; [exact (vals_has _ _ _ _ _ Vu')|]. split; [exact (vals_has _ _ _ _ _ Vv')|assumption].
  - unfold sparse_svd in H. apply bind_ok in H. destruct H as ((((dim & u0) & s0) & vt) & _ & H). cbv zeta in H.
    set (n := Nat.min dim k) in H. destruct (Nat.eqb_spec n 0); [discriminate|]. cbn [negb check bind] in H.
    assert (Hn : 0 < n) by lia. assert (Hk : n <= k) by (unfold n; lia).
    assert (Hs : length (map s0 (seq 0 n)) = n) by (rewrite map_length, seq_length; reflexivity).
    pose proof (vals_of_dense TSparse (s_nr c0) n (fun i j => u0 j i) Hr Hn) as Vu. pose proof (vals_of_dense TSparse (s_nc c0) n (fun i j => vt j i) Hc Hn) as Vv. cbn [of_dense] in Vu, Vv.
    destruct (m_is_mostly_positive _) in H; injection H as <- <- <-.
    + rewrite (vals_nc _ _ _ _ _ Vu). split; [assumption|]. split; [assumption|]. split; [exact (vals_has _ _ _ _ _ Vu)|]. split; [exact (vals_has _ _ _ _ _ Vv)|assumption].
    + pose proof (vals_neg _ _ _ _ _ Vu) as Vu'. pose proof (vals_neg _ _ _ _ _ Vv) as Vv'. rewrite (vals_nc _ _ _ _ _ Vu').
      split; [assumption|]. split; [assumption|]. split; [exact (vals_has _ _ _ _ _ Vu')|]. split; [exact (vals_has _ _ _ _ _ Vv')|assumption].
Qed.

(** pair a of the initialisation made from the decomposition u, s, v *)
Definition svd_pair (u : matrix) (s : list R) (v : matrix) (a : nat) : (nat -> R) * (nat -> R) :=
  if Nat.eqb a 0 then first_pair (nth 0 s 0%R) (fun i => ment u i 0) (fun j => ment v j 0)
  else nnd_pair (m_nr u) (m_nr v) (nth a s 0%R) (fun i => ment u i a) (fun j => ment v j a).

Lemma nndsvd_value k m u s v : mwf m -> linalg_svd m k = Ok (u, s, v) ->
  (forall a, a < m_nc u -> (0 <= nth a s 0)%R) ->
  (forall a, 0 < a -> a < m_nc u -> mixed (m_nr u) (m_nr v) (fun i => ment u i a) (fun j => ment v j a)) ->
  exists w h, nndsvd_init k m = Ok (w, h) /\
    vals w (type_of m) (m_nr m) k (fun i a => if Nat.ltb a (m_nc u) then fst (svd_pair u s v a) i else 0%R) /\
    vals h (type_of m) k (m_nc m) (fun a j => if Nat.ltb a (m_nc u) then snd (svd_pair u s v a) j else 0%R).
Proof.
  intros Wm Hs P M. pose proof (mwf_pos _ Wm) as (Hr & Hc). destruct (linalg_svd_has k m u s v Wm Hs) as (Hn & Hk & Hu & Hv & Ls).
  unfold nndsvd_init. rewrite Hs. cbn [bind]. pose proof (vals_of _ _ _ _ Hu) as Vu. pose proof (vals_of _ _ _ _ Hv) as Vv.
  pose proof (vals_transpose _ _ _ _ _ Vv) as Vt. cbv zeta.
  set (step := fun i => let* uu := m_get_cols u [i] in let* vv := m_get_row (m_transpose v) (Z.of_nat i) in
        if Nat.eqb i 0 then nndsvd_first (nth i s f0) uu vv else nndsvd_step (nth i s f0) uu vv).
  set (n := m_nc u) in *.
  assert (S1 : forall i, i < n -> exists a b, step i = Ok (a, b) /\ vals a (type_of m) (m_nr m) 1 (fun r _ => fst (svd_pair u s v i) r) /\
       vals b (type_of m) 1 (m_nc m) (fun _ c => snd (svd_pair u s v i) c)).
  { intros i Hi. unfold step. destruct (vals_get_cols _ _ _ _ _ [i] Vu) as (uu & -> & Vuu); [repeat constructor; exact Hi|cbn; lia|]. cbn [bind].
    destruct (vals_get_row _ _ _ _ _ i Vt Hi) as (vv & -> & Vvv). cbn [bind]. unfold svd_pair.
    assert (Vuu' : vals uu (type_of m) (m_nr m) 1 (fun r _ => ment u r i)) by (eapply vals_ext; [exact Vuu|]; intros ? j _ Hj; cbn in Hj; replace j with 0 by lia; reflexivity).
    assert (Vvv' : vals vv (type_of m) 1 (m_nc m) (fun _ c => ment v c i)) by exact Vvv. change (@f0 RNum) with 0%R.
    destruct (Nat.eqb_spec i 0) as [-> | Hi0].
    - apply first_vals; [exact (P 0 Hi)|exact Vuu'|exact Vvv'].
    - rewrite (vals_nr _ _ _ _ _ Vu), (vals_nr _ _ _ _ _ Vv). apply step_vals; [exact (P i Hi)| |exact Vuu'|exact Vvv'].
      specialize (M i ltac:(lia) Hi). rewrite (vals_nr _ _ _ _ _ Vu), (vals_nr _ _ _ _ _ Vv) in M. exact M. }
  assert (S2 : exists ps, mapM step (seq 0 n) = Ok ps /\ length ps = n /\ forall i, i < n -> step i = Ok (nth i ps (m, m))).
  { assert (X : exists ps, mapM step (seq 0 n) = Ok ps).
    { clear -S1. assert (K : forall l, (forall i, In i l -> i < n) -> exists ps, mapM step l = Ok ps).
      { induction l as [|i l IH]; intros Hl; [exists []; reflexivity|]. cbn [mapM]. destruct (S1 i (Hl i (or_introl eq_refl))) as (a & b & -> & _).
        cbn [bind]. destruct IH as (ps & ->); [intros; apply Hl; right; assumption|]. cbn [bind]. eauto. }
      apply K. intros i Hi. apply in_seq in Hi. lia. }
    destruct X as (ps & X). exists ps. split; [exact X|]. pose proof (mapM_ok_length _ _ _ X) as L. rewrite seq_length in L. split; [exact L|].
    intros i Hi. pose proof (mapM_ok_nth _ _ _ 0 (m, m) X i) as K. rewrite seq_length, seq_nth in K by assumption. exact (K Hi). }
  destruct S2 as (ps & -> & Lp & Sp). cbn [bind].
  assert (Hp : ps <> []) by (intros ->; cbn in Lp; lia).
  destruct (hstack_cols (type_of m) (m_nr m) m (map fst ps) (fun i a => fst (svd_pair u s v a) i)) as (w & -> & Vw).
  { destruct ps; [contradiction|discriminate]. }
  { intros a Ha. rewrite map_length, Lp in Ha. change m with (fst (m, m)) at 1. rewrite map_nth. destruct (S1 a Ha) as (x & y & E1 & V1 & _). rewrite (Sp a Ha) in E1. injection E1 as E1. rewrite E1. exact V1. }
  destruct (vstack_rows (type_of m) (m_nc m) m (map snd ps) (fun a j => snd (svd_pair u s v a) j)) as (h & -> & Vh).
  { destruct ps; [contradiction|discriminate]. }
  { intros a Ha. rewrite map_length, Lp in Ha. change m with (snd (m, m)) at 1. rewrite map_nth. destruct (S1 a Ha) as (x & y & E1 & _ & V1). rewrite (Sp a Ha) in E1. injection E1 as E1. rewrite E1. exact V1. }
  cbn [bind]. rewrite map_length, Lp in Vw, Vh. destruct (Nat.ltb_spec n k) as [Lt|Ge].
  - unfold padd_zeros. rewrite (vals_type _ _ _ _ _ Vw), (vals_type _ _ _ _ _ Vh), (vals_nr _ _ _ _ _ Vw), (vals_nc _ _ _ _ _ Vh).
    destruct (vals_hstack _ _ _ _ _ _ _ _ Vw (vals_const (type_of m) (m_nr m) (k - n) f0 Hr ltac:(lia))) as (w' & -> & Vw'). cbn [bind].
    destruct (vals_vstack _ _ _ _ _ _ _ _ Vh (vals_const (type_of m) (k - n) (m_nc m) f0 ltac:(lia) Hc)) as (h' & -> & Vh'). cbn [bind].
    replace (n + (k - n)) with k in Vw', Vh' by lia. exists w', h'. split; [reflexivity|]. split; assumption.
  - assert (n = k) as -> by lia. exists w, h. split; [reflexivity|].
    split; (eapply vals_ext; [eassumption|]); intros i j Hi Hj; cbn beta.
    + destruct (Nat.ltb_spec j k); [reflexivity|lia].
    + destruct (Nat.ltb_spec i k); [reflexivity|lia].
Qed.
(** ** C77 *)
(** u, s, v are singular triples of m with positive singular values: m v_a = s_a u_a and u_a is not null *)
Definition triples_of (m u : matrix) (s : list R) (v : matrix) : Prop := forall a, a < m_nc u ->
  (0 < nth a s 0)%R /\ (exists i, i < m_nr m /\ ment u i a <> 0%R) /\
  (forall i, i < m_nr m -> rsum (m_nc m) (fun j => ment m i j * ment v j a)%R = (nth a s 0 * ment u i a)%R).

Lemma rsum_pos_exists n f : (0 < rsum n f)%R -> exists j, j < n /\ (0 < f j)%R.
Proof.
  induction n as [|n IH]; cbn [rsum]; intros H; [lra|]. destruct (Rlt_dec 0 (f n)); [exists n; split; [lia|assumption]|].
  destruct IH as (j & Hj & Hf); [lra|]. exists j. split; [lia|exact Hf].
Qed.
Lemma triples_mixed m u s v a : non_negative m -> triples_of m u s v -> m_nr u = m_nr m -> m_nr v = m_nc m -> a < m_nc u ->
  mixed (m_nr u) (m_nr v) (fun i => ment u i a) (fun j => ment v j a).
Proof.
  intros Nm T R1 R2 Ha. destruct (T a Ha) as (Hs & (i & Hi & Hu) & Hm). rewrite R1, R2. specialize (Hm i Hi).
  destruct (Rtotal_order (ment u i a) 0) as [L|[Z|G]]; [right|contradiction|left].
  - split; [exists i; auto|]. destruct (rsum_pos_exists (m_nc m) (fun j => ment m i j * - ment v j a)%R) as (j & Hj & K).
    + rewrite (rsum_ext _ _ (fun j => (-1) * (ment m i j * ment v j a))%R) by (intros; ring). rewrite rsum_scal_l, Hm. 
      assert (0 < nth a s 0 * - ment u i a)%R by (apply Rmult_lt_0_compat; lra). lra.
    + exists j. split; [exact Hj|]. specialize (Nm i j Hi Hj). destruct (Rlt_dec (ment v j a) 0); [assumption|].
      exfalso. assert (0 <= ment m i j * ment v j a)%R by (apply Rmult_le_pos; lra). lra.
  - split; [exists i; auto|]. destruct (rsum_pos_exists (m_nc m) (fun j => ment m i j * ment v j a)%R) as (j & Hj & K).
    + rewrite Hm. apply Rmult_lt_0_compat; lra.
    + exists j. split; [exact Hj|]. specialize (Nm i j Hi Hj). destruct (Rlt_dec 0 (ment v j a)); [assumption|].
      exfalso. assert (0 <= ment m i j * - ment v j a)%R by (apply Rmult_le_pos; lra). lra.
Qed.

(** nndsvd_init: for a non-negative matrix and singular triples of it, never fails (no division by zero, no root of a negative
    number); gives a non-negative starting point whose pair a is the one of the non-negative double SVD, filled up with zeros *)
Theorem C77_nndsvd : forall k m u s v, mwf m -> non_negative m -> linalg_svd m k = Ok (u, s, v) -> triples_of m u s v ->
  exists w h, nndsvd_init k m = Ok (w, h) /\ starting_point k m w h /\
    (forall a, a < m_nc u -> (forall i, i < m_nr m -> ment w i a = fst (svd_pair u s v a) i) /\ (forall j, j < m_nc m -> ment h a j = snd (svd_pair u s v a) j)) /\
    (forall a, m_nc u <= a -> a < k -> (forall i, i < m_nr m -> ment w i a = 0%R) /\ (forall j, j < m_nc m -> ment h a j = 0%R)).
Proof.
  intros k m u s v Wm Nm Hs T. destruct (linalg_svd_has k m u s v Wm Hs) as (Hn & Hk & (U1&U2&U3&U4) & (V1&V2&V3&V4) & Ls).
  destruct (nndsvd_value k m u s v Wm Hs) as (w & h & E1 & Vw & Vh).
  { intros a Ha. apply Rlt_le, T, Ha. }
  { intros a _ Ha. apply (triples_mixed m u s v); assumption. }
  exists w, h. split; [exact E1|]. pose proof (vals_has _ _ _ _ _ Vw) as (A1&A2&A3&A4). pose proof (vals_has _ _ _ _ _ Vh) as (B1&B2&B3&B4).
  assert (NP : forall a, (forall i, (0 <= fst (svd_pair u s v a) i)%R) /\ (forall j, (0 <= snd (svd_pair u s v a) j)%R)).
  { intros a. unfold svd_pair. destruct (Nat.eqb a 0); [apply first_nonneg|apply nnd_nonneg]. }
  split; [|split].
  - unfold starting_point. do 8 (split; [assumption|]). split.
    + intros i j Hi Hj. rewrite (vals_ent _ _ _ _ _ _ _ Vw) by lia. destruct (Nat.ltb j (m_nc u)); [apply NP|lra].
    + intros i j Hi Hj. rewrite (vals_ent _ _ _ _ _ _ _ Vh) by lia. destruct (Nat.ltb i (m_nc u)); [apply NP|lra].
  - intros a Ha. split; intros i Hi.
    + rewrite (vals_ent _ _ _ _ _ _ _ Vw) by lia. destruct (Nat.ltb_spec a (m_nc u)); [reflexivity|lia].
    + rewrite (vals_ent _ _ _ _ _ _ _ Vh) by lia. destruct (Nat.ltb_spec a (m_nc u)); [reflexivity|lia].
  - intros a Ha1 Ha2. split; intros i Hi.
    + rewrite (vals_ent _ _ _ _ _ _ _ Vw) by lia. destruct (Nat.ltb_spec a (m_nc u)); [lia|reflexivity].
    + rewrite (vals_ent _ _ _ _ _ _ _ Vh) by lia. destruct (Nat.ltb_spec a (m_nc u)); [lia|reflexivity].
Qed.

(** what the decompositions of the two classes give: every correct numpy SVD, and every correct sparse SVD that returns no zero
    singular value *)
Theorem C77_triples_dense : forall k d u s v, mwf (MD d) -> numpy_svd_correct -> linalg_svd (MD d) k = Ok (u, s, v) -> triples_of (MD d) u s v.
Proof.
  intros k d u s v Wm HC H. pose proof (mwf_pos _ Wm) as (Hr & Hc). unfold linalg_svd in H. destruct (Nat.eqb_spec k 0) as [|Kn]; [discriminate|]. cbn [negb check bind] in H.
  cbn [m_nr m_nc] in *. unfold dense_svd in H. apply bind_ok in H. destruct H as (((u0 & s0) & vt) & E1 & H). cbv zeta in H.
  set (p := Nat.min (d_nr d) (d_nc d)) in H. set (rk := count _ _) in H. set (n := Nat.min p (Nat.min k rk)) in H.
  destruct (Nat.eqb_spec n 0); [discriminate|]. cbn [negb check bind] in H. assert (Hn : 0 < n) by lia.
  destruct (HC d u0 s0 vt Wm E1) as (HT & _ & HI & HP). fold p in HT, HI, HP.
  assert (Hs : forall a, a < n -> nth a (firstn n (map s0 (seq 0 p))) 0%R = s0 a) by (intros a Ha; apply nth_firstn_map_seq; [exact Ha|unfold n; lia]).
  assert (Hpos : forall a, a < n -> (0 < s0 a)%R).
  { intros a Ha. pose proof (proj1 (count_threshold s0 tolerance p HI a ltac:(unfold n in Ha; lia))) as K.
    assert (tolerance < s0 a)%R by (apply K; change (a < rk); unfold n in Ha; lia). unfold tolerance in *. lra. }
  assert (Hnz : forall a, a < n -> exists i, i < d_nr d /\ u0 i a <> 0%R).
  { intros a Ha. pose proof (st_left _ _ _ _ _ _ _ HT a a ltac:(unfold n in Ha; lia) ltac:(unfold n in Ha; lia)) as K. unfold delta in K. rewrite Nat.eqb_refl in K.
    destruct (rsum_pos_exists (d_nr d) (fun i => u0 i a * u0 i a)%R) as (i & Hi & X); [rewrite K; lra|]. exists i. split; [exact Hi|]. intros Z. rewrite Z in X. lra. }
  assert (Hmul : forall a, a < n -> forall i, i < d_nr d -> rsum (d_nc d) (fun j => dent d i j * vt a j)%R = (s0 a * u0 i a)%R).
  { intros a Ha i Hi. apply (st_mul _ _ _ _ _ _ _ HT); [exact Hi|unfold n in Ha; lia]. }
  pose proof (vals_of_dense TDense (d_nr d) n u0 Hr Hn) as Vu. pose proof (vals_of_dense TDense (d_nc d) n (fun i j => vt j i) Hc Hn) as Vv. cbn [of_dense] in Vu, Vv.
  destruct (m_is_mostly_positive _) in H; injection H as <- <- <-; intros a Ha.
  - rewrite (vals_nc _ _ _ _ _ Vu) in Ha. rewrite Hs by exact Ha. split; [auto|]. split.
    + destruct (Hnz a Ha) as (i & Hi & X). exists i. split; [exact Hi|]. rewrite (vals_ent _ _ _ _ _ _ _ Vu) by assumption. exact X.
    + intros i Hi. rewrite (vals_ent _ _ _ _ _ _ _ Vu) by assumption. rewrite <- (Hmul a Ha i Hi). apply rsum_ext. intros j Hj. rewrite (vals_ent _ _ _ _ _ _ _ Vv) by assumption. reflexivity.
  - apply vals_neg in Vu. apply vals_neg in Vv. rewrite (vals_nc _ _ _ _ _ Vu) in Ha. rewrite Hs by exact Ha. split; [auto|]. split.
    + destruct (Hnz a Ha) as (i & Hi & X). exists i. split; [exact Hi|]. rewrite (vals_ent _ _ _ _ _ _ _ Vu) by assumption. cbn [fopp RNum]. lra.
    + intros i Hi. rewrite (vals_ent _ _ _ _ _ _ _ Vu) by assumption. cbn [fopp RNum].
      transitivity (- (s0 a * u0 i a))%R; [|ring]. rewrite <- (Hmul a Ha i Hi). transitivity ((-1) * rsum (d_nc d) (fun j => dent d i j * vt a j))%R; [|ring].
      rewrite <- rsum_scal_l. apply rsum_ext. intros j Hj. rewrite (vals_ent _ _ _ _ _ _ _ Vv) by assumption. cbn [fopp RNum]. cbn [ment]. change (@F RNum) with R. ring.
Qed.
Theorem C77_triples_sparse : forall k c u s v, mwf (MS c) -> sparsesvd_correct -> linalg_svd (MS c) k = Ok (u, s, v) ->
  (forall a, a < m_nc u -> (0 < nth a s 0)%R) -> triples_of (MS c) u s v.
Proof.
  intros k c u s v Wm HC H Hp. pose proof (mwf_pos _ Wm) as (Hr & Hc). unfold linalg_svd in H. destruct (Nat.eqb_spec k 0) as [|Kn]; [discriminate|]. cbn [negb check bind] in H.
  cbn [m_nr m_nc] in *. unfold sparse_svd in H. apply bind_ok in H. destruct H as ((((dim & u0) & s0) & vt) & E1 & H). cbv zeta in H.
  set (n := Nat.min dim k) in H. destruct (Nat.eqb_spec n 0); [discriminate|]. cbn [negb check bind] in H. assert (Hn : 0 < n) by lia.
  pose proof (HC c _ dim u0 s0 vt Wm E1) as HT.
  assert (Hs : forall a, a < n -> nth a (map s0 (seq 0 n)) 0%R = s0 a) by (intros a Ha; apply nth_map_seq, Ha).
  assert (Hnz : forall a, a < n -> exists i, i < s_nr c /\ u0 a i <> 0%R).
  { intros a Ha. pose proof (st_left _ _ _ _ _ _ _ HT a a ltac:(unfold n in Ha; lia) ltac:(unfold n in Ha; lia)) as K. unfold delta in K. rewrite Nat.eqb_refl in K. cbn beta in K.
    destruct (rsum_pos_exists (s_nr c) (fun i => u0 a i * u0 a i)%R) as (i & Hi & X); [change (@F RNum) with R in *; rewrite K; lra|]. exists i. split; [exact Hi|]. intros Z. rewrite Z in X. lra. }
  assert (Hmul : forall a, a < n -> forall i, i < s_nr c -> rsum (s_nc c) (fun j => sent c i j * vt a j)%R = (s0 a * u0 a i)%R).
  { intros a Ha i Hi. apply (st_mul _ _ _ _ _ _ _ HT); [exact Hi|unfold n in Ha; lia]. }
  pose proof (vals_of_dense TSparse (s_nr c) n (fun i j => u0 j i) Hr Hn) as Vu. pose proof (vals_of_dense TSparse (s_nc c) n (fun i j => vt j i) Hc Hn) as Vv. cbn [of_dense] in Vu, Vv.
  destruct (m_is_mostly_positive _) in H; injection H as <- <- <-; intros a Ha; (split; [exact (Hp a Ha)|]).
  - rewrite (vals_nc _ _ _ _ _ Vu) in Ha. rewrite Hs by exact Ha. split.
    + destruct (Hnz a Ha) as (i & Hi & X). exists i. split; [exact Hi|]. rewrite (vals_ent _ _ _ _ _ _ _ Vu) by assumption. exact X.
    + intros i Hi. rewrite (vals_ent _ _ _ _ _ _ _ Vu) by assumption. rewrite <- (Hmul a Ha i Hi). apply rsum_ext. intros j Hj. rewrite (vals_ent _ _ _ _ _ _ _ Vv) by assumption. reflexivity.
  - apply vals_neg in Vu. apply vals_neg in Vv. rewrite (vals_nc _ _ _ _ _ Vu) in Ha. rewrite Hs by exact Ha. split.
    + destruct (Hnz a Ha) as (i & Hi & X). exists i. split; [exact Hi|]. rewrite (vals_ent _ _ _ _ _ _ _ Vu) by assumption. cbn [fopp RNum]. lra.
    + intros i Hi. rewrite (vals_ent _ _ _ _ _ _ _ Vu) by assumption. cbn [fopp RNum].
      transitivity (- (s0 a * u0 a i))%R; [|ring]. rewrite <- (Hmul a Ha i Hi). transitivity ((-1) * rsum (s_nc c) (fun j => sent c i j * vt a j))%R; [|ring].
      rewrite <- rsum_scal_l. apply rsum_ext. intros j Hj. rewrite (vals_ent _ _ _ _ _ _ _ Vv) by assumption. cbn [fopp RNum]. cbn [ment]. change (@F RNum) with R. ring.
Qed.

(** the pairs: each entry of w_a h_a is the entry s f_i g_j of the singular triple or 0, and the two vectors have equal length *)
Theorem C77_sections : forall r c s f g, (0 <= s)%R -> mixed r c f g ->
  (forall i j, fst (nnd_pair r c s f g) i * snd (nnd_pair r c s f g) j = s * f i * g j \/ fst (nnd_pair r c s f g) i * snd (nnd_pair r c s f g) j = 0)%R /\
  norm r (fst (nnd_pair r c s f g)) = norm c (snd (nnd_pair r c s f g)).
Proof.
  intros r c s f g Hs Hm. pose proof (mixed_norms _ _ _ _ Hm) as M.
  pose proof (norm_nonneg r (pos f)) as B1. pose proof (norm_nonneg r (neg f)) as B2. pose proof (norm_nonneg c (pos g)) as B3. pose proof (norm_nonneg c (neg g)) as B4.
  assert (G : forall x y n1 n2, (0 < n1 * n2 -> sqrt (s * (n1 * n2)) * x / n1 * (sqrt (s * (n1 * n2)) * y / n2) = s * x * y)%R).
  { intros x y n1 n2 Hz. assert (n1 <> 0)%R by (intros K; rewrite K in Hz; lra). assert (n2 <> 0)%R by (intros K; rewrite K in Hz; lra).
    assert (Q : (sqrt (s * (n1 * n2)) * sqrt (s * (n1 * n2)) = s * (n1 * n2))%R) by (apply sqrt_sqrt, Rmult_le_pos; lra).
    transitivity ((sqrt (s * (n1 * n2)) * sqrt (s * (n1 * n2))) * (x * y) / (n1 * n2))%R; [field; auto|]. rewrite Q. field. auto. }
  assert (L : forall n x h, (0 <= x -> norm n h <> 0 -> norm n (fun i => x * h i / norm n h) = x)%R).
  { intros n x h Hx Hh. unfold norm at 1. unfold dot. rewrite (rsum_ext n _ (fun i => (x / norm n h * (x / norm n h)) * (h i * h i))%R).
    - rewrite rsum_scal_l. fold (dot n h h).
      assert (D : dot n h h = (norm n h * norm n h)%R) by (unfold norm; rewrite sqrt_sqrt; [reflexivity|]; apply rsum_nonneg; intros; apply Rle_0_sqr).
      rewrite D. replace (x / norm n h * (x / norm n h) * (norm n h * norm n h))%R with (x * x)%R by (field; exact Hh). apply sqrt_square, Hx.
    - intros i _. field. exact Hh. }
  unfold nnd_pair. destruct (Rle_dec _ _) as [Le|Gt]; cbn [fst snd].
  - assert (Z : (0 < norm r (pos f) * norm c (pos g))%R) by lra. split.
    + intros i j. rewrite (G _ _ _ _ Z). unfold pos, Rmax. destruct (Rle_dec 0 (f i)), (Rle_dec 0 (g j)); [left; ring|right; ring|right; ring|right; ring].
    + rewrite !L; auto using sqrt_pos; intros K; rewrite K in Z; lra.
  - assert (Z : (0 < norm r (neg f) * norm c (neg g))%R) by (pose proof (Rmult_le_pos _ _ B1 B3); lra). split.
    + intros i j. rewrite (G _ _ _ _ Z). unfold neg, Rmax. destruct (Rle_dec 0 (- f i)), (Rle_dec 0 (- g j)); [left; ring|right; ring|right; ring|right; ring].
    + rewrite !L; auto using sqrt_pos; intros K; rewrite K in Z; lra.
Qed.

(** random_init: k columns and k rows of the matrix *)
Theorem C77_random : forall k m, mwf m -> 0 < k -> exists w h, random_init k m = Ok (w, h) /\
  (non_negative m -> starting_point k m w h) /\
  (forall a, a < k -> (exists c, c < m_nc m /\ forall i, i < m_nr m -> ment w i a = ment m i c) /\ (exists r, r < m_nr m /\ forall j, j < m_nc m -> ment h a j = ment m r j)).
Proof.
  intros k m Wm Hk. pose proof (mwf_pos _ Wm) as (Hr & Hc). unfold random_init.
  set (cs := map (fun q => e_rndcol 0 q mod m_nc m) (seq 0 k)). set (rs := map (fun q => e_rndrow 0 q mod m_nr m) (seq 0 k)).
  assert (Lc : length cs = k) by (unfold cs; rewrite map_length, seq_length; reflexivity). assert (Lr : length rs = k) by (unfold rs; rewrite map_length, seq_length; reflexivity).
  assert (Fc : Forall (fun j => j < m_nc m) cs) by (apply Forall_forall; intros x Hx; apply in_map_iff in Hx; destruct Hx as (q & <- & _); apply Nat.mod_upper_bound; lia).
  assert (Fr : Forall (fun j => j < m_nr m) rs) by (apply Forall_forall; intros x Hx; apply in_map_iff in Hx; destruct Hx as (q & <- & _); apply Nat.mod_upper_bound; lia).
  destruct (vals_get_cols _ _ _ _ _ cs (vals_self m Wm) Fc ltac:(lia)) as (w & -> & Vw). cbn [bind].
  destruct (vals_get_rows _ _ _ _ _ rs (vals_self m Wm) Fr ltac:(lia)) as (h & -> & Vh). cbn [bind]. rewrite Lc in Vw. rewrite Lr in Vh.
  rewrite Forall_forall in Fc, Fr.
  exists w, h. split; [reflexivity|]. split.
  - intros Nm. pose proof (vals_has _ _ _ _ _ Vw) as (A1&A2&A3&A4). pose proof (vals_has _ _ _ _ _ Vh) as (B1&B2&B3&B4).
    unfold starting_point. do 8 (split; [assumption|]). split; intros i j Hi Hj.
    + rewrite (vals_ent _ _ _ _ _ _ _ Vw) by lia. apply Nm; [lia|]. apply Fc, nth_In. lia.
    + rewrite (vals_ent _ _ _ _ _ _ _ Vh) by lia. apply Nm; [|lia]. apply Fr, nth_In. lia.
  - intros a Ha. split.
    + exists (nth a cs 0). split; [apply Fc, nth_In; lia|]. intros i Hi. apply (vals_ent _ _ _ _ _ _ _ Vw); assumption.
    + exists (nth a rs 0). split; [apply Fr, nth_In; lia|]. intros j Hj. apply (vals_ent _ _ _ _ _ _ _ Vh); assumption.
Qed.

(** v_col_init (the one Nmf.apply uses): means of columns and of rows of the matrix *)
Definition mean (n : nat) (f : nat -> R) : R := (rsum n f / INR n)%R.
Theorem C77_v_col : forall k m, mwf m -> 0 < k -> let (w, h) := v_col_init k m in
  (non_negative m -> starting_point k m w h) /\
  (forall a, a < k -> (exists c, (forall q, c q < m_nc m) /\ forall i, i < m_nr m -> ment w i a = mean (m_nc m / 5 + 1) (fun q => ment m i (c q))) /\
     (exists r, (forall q, r q < m_nr m) /\ forall j, j < m_nc m -> ment h a j = mean (m_nr m / 5 + 1) (fun q => ment m (r q) j))).
Proof.
  intros k m Wm Hk. pose proof (mwf_pos _ Wm) as (Hr & Hc). destruct (v_col_init_has k m Wm Hk) as ((A1&A2&A3&A4) & (B1&B2&B3&B4)).
  destruct (v_col_init k m) as (w & h) eqn:Ev. cbn [fst snd] in *. split.
  - intros Nm. pose proof (v_col_init_nonneg k m Wm Hk Nm) as (N1 & N2). rewrite Ev in N1, N2. unfold starting_point. auto 12.
  - unfold v_col_init in Ev. injection Ev as <- <-. intros a Ha. split.
    + exists (fun q => e_rndcol a q mod m_nc m). split; [intros q; apply Nat.mod_upper_bound; lia|]. intros i Hi.
      rewrite (vals_ent _ _ _ _ _ _ _ (vals_of_dense _ _ _ _ Hr Hk)) by assumption. unfold mean. rewrite sumn_rsum. cbn [fdiv fofZ RNum]. rewrite INR_IZR_INZ. reflexivity.
    + exists (fun q => e_rndrow a q mod m_nr m). split; [intros q; apply Nat.mod_upper_bound; lia|]. intros j Hj.
      rewrite (vals_ent _ _ _ _ _ _ _ (vals_of_dense _ _ _ _ Hk Hc)) by assumption. unfold mean. rewrite sumn_rsum. cbn [fdiv fofZ RNum]. rewrite INR_IZR_INZ. reflexivity.
Qed.

(** from every starting point the factorisation returns, stays non-negative, and its error does not grow *)
Theorem C77_factorise : forall k m w h, mwf m -> starting_point k m w h ->
  exists w' h', linalg_nmf m w h = Ok (w', h') /\ starting_point k m w' h' /\ (reconstruction_error m w' h' <= reconstruction_error m w h)%R.
Proof.
  intros k m w h Wm (W1 & W2 & T1 & T2 & R1 & R2 & R3 & R4 & N1 & N2).
  destruct (linalg_nmf_feasible m w h Wm W1 W2 T1 T2 R1) as (w' & h' & E1 & (A1&A2&A3&A4) & (B1&B2&B3&B4) & C1 & C2 & Er); [congruence|assumption|assumption|assumption|].
  exists w', h'. split; [exact E1|]. split; [unfold starting_point; rewrite R2 in *; auto 12|].
  unfold reconstruction_error. rewrite A4. apply sqrt_le_1; [apply sq_error_nonneg|apply sq_error_nonneg|exact Er].
Qed.
(** Nmf(k) on a non-negative matrix fails only when np.linalg.pinv does; the reduced matrix is the first factor of a factorisation
    that reconstructs the matrix no worse than the starting point, and the pseudo-inverse of the second factor is kept *)
Theorem C22_total : forall k m, mwf m -> 0 < k -> non_negative m -> exists w h, starting_point k m w h /\
  (reconstruction_error m w h <= reconstruction_error m (fst (v_col_init k m)) (snd (v_col_init k m)))%R /\
  op_apply (create_operation (TDim DNmf k)) m = match linalg_pinv h with Ok p => Ok (conv TDense w, OpDim DNmf k (Some p)) | Err e => Err e end.
Proof.
  intros k m Wm Hk Nm. pose proof (C77_v_col k m Wm Hk) as K. destruct (v_col_init k m) as (w0 & h0) eqn:Ev. destruct K as (K & _).
  destruct (C77_factorise k m w0 h0 Wm (K Nm)) as (w & h & E1 & S & L). exists w, h. split; [exact S|]. split; [exact L|].
  cbn [create_operation op_apply dimred_apply]. unfold nmf_apply. destruct (assert_positive_iff m Wm) as (AP & AD).
  rewrite (proj2 AP); [|intros i j Hi Hj; apply Nm; assumption]. cbn [bind]. rewrite Ev, E1. cbn [bind]. destruct (linalg_pinv h); reflexivity.
Qed.
End WithExt.

(** *** example: the 2x2 identity, three dimensions asked, two found *)
Example C77_example : mwf (MD eye2) /\ non_negative (MD eye2) /\
  exists u s v, @linalg_svd RNum Eex (MD eye2) 3 = Ok (u, s, v) /\ m_nc u = 2 /\ triples_of (MD eye2) u s v /\
  exists w h, @nndsvd_init RNum Eex 3 (MD eye2) = Ok (w, h) /\ starting_point 3 (MD eye2) w h /\ ment w 0 0 = 1%R /\ ment h 0 0 = 1%R /\ ment w 0 2 = 0%R.
Proof.
  destruct C21_example as (We & Hc & _ & (x & Hx) & _).
  assert (Ne : non_negative (MD eye2)).
  { intros i j Hi Hj. cbn in Hi, Hj. unfold ment, dent, eye2. cbn. destruct i as [|[|i]]; destruct j as [|[|j]]; cbn; try lra; lia. }
  split; [exact We|]. split; [exact Ne|].
  assert (Hv : exists u s v, @linalg_svd RNum Eex (MD eye2) 3 = Ok (u, s, v) /\ m_nc u = 2 /\ nth 0 s 0%R = 1%R /\ Rabs (ment u 0 0) = 1%R /\ Rabs (ment v 0 0) = 1%R).
  { unfold linalg_svd. cbn [Nat.eqb negb check bind]. unfold dense_svd. assert (Hs : @e_svd RNum Eex eye2 = Ok (delta, (fun _ => 1%R), delta)).
    { revert Hx. cbn. destruct (_ && _); [reflexivity|discriminate]. }
    rewrite Hs. cbn [bind d_nr d_nc eye2 Nat.min seq map]. unfold count. cbn [filter]. 
    replace (@fltb RNum svd_tol 1%R) with true.
    2:{ symmetry. apply Rltb_true. unfold svd_tol. cbn [f1 fdiv fofZ RNum]. lra. }
    cbn [length Nat.min Nat.eqb negb check bind firstn].
    destruct (m_is_mostly_positive _); do 3 eexists; (split; [reflexivity|]); (split; [reflexivity|]); (split; [reflexivity|]).
    - cbn. unfold dent, delta. cbn. rewrite Rabs_R1. auto.
    - cbn. unfold dent, delta. cbn. rewrite Rabs_Ropp, Rabs_R1. auto. }
  destruct Hv as (u & s & v & E1 & Hn & H1 & H2 & H3). exists u, s, v. split; [exact E1|]. split; [exact Hn|].
  pose proof (@C77_triples_dense Eex 3 eye2 u s v We Hc E1) as T. split; [exact T|].
  destruct (@C77_nndsvd Eex 3 (MD eye2) u s v We Ne E1 T) as (w & h & E2 & S & P & Z). exists w, h. split; [exact E2|]. split; [exact S|].
  rewrite Hn in *. destruct (P 0 ltac:(lia)) as (P1 & P2). destruct (Z 2 ltac:(lia) ltac:(lia)) as (Z1 & _).
  rewrite (P1 0 ltac:(cbn; lia)), (P2 0 ltac:(cbn; lia)), (Z1 0 ltac:(cbn; lia)). unfold svd_pair. cbn [Nat.eqb]. unfold first_pair. cbn [fst snd]. change (@F RNum) with R in *. rewrite H1, H2, H3, sqrt_1. split; [ring|]. split; [ring|reflexivity].
Qed.
