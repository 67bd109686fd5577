(** Prop_Methods.v -- property C99: what every method of DenseMatrix and SparseMatrix computes, over exact reals. *)
From Coq Require Import Reals Lra Psatz QArith Qcanon Permutation.
From Verif Require Import Base PyList Num SpecReal Dense Sparse Matrix PSparse PMatrix PMatOps PShape PVals PReal PPos PReshape PSort Prop_Scaling NmfInit.
From Verif Require PLexFun Prop_Nmf Prop_NmfInit.
#[local] Existing Instance RNum.
Open Scope R_scope.
Open Scope nat_scope.

(** ** vocabulary *)
(** [z] is a well-formed matrix of class [t] with [r] rows and [c] columns whose entry (i,j) is [f i j] *)
Definition grid (z : matrix) (t : mtype) (r c : nat) (f : nat -> nat -> R) : Prop :=
  mwf z /\ type_of z = t /\ m_nr z = r /\ m_nc z = c /\ forall i j, i < r -> j < c -> ment z i j = f i j.
(** the call returns such a matrix *)
Definition gives (x : res matrix) (t : mtype) (r c : nat) (f : nat -> nat -> R) : Prop :=
  exists z, x = Ok z /\ grid z t r c f.

Lemma grid_vals z t r c f : grid z t r c f <-> vals z t r c f.
Proof. split; [intros (A&B&C&D&E); repeat split; assumption|intros ((A&B&C&D)&E); repeat split; assumption]. Qed.
Lemma gives_vals x t r c f : (exists z, x = Ok z /\ vals z t r c f) -> gives x t r c f.
Proof. intros (z & E & V). exists z. split; [exact E|]. apply grid_vals, V. Qed.
Lemma grid_ext z t r c f g : vals z t r c f -> (forall i j, i < r -> j < c -> f i j = g i j) -> grid z t r c g.
Proof. intros V E. apply grid_vals. eapply vals_ext; eassumption. Qed.
Lemma gives_ext x t r c f g : (exists z, x = Ok z /\ vals z t r c f) -> (forall i j, i < r -> j < c -> f i j = g i j) -> gives x t r c g.
Proof. intros (z & E & V) K. exists z. split; [exact E|]. eapply grid_ext; eassumption. Qed.

(** *** C99: methods that work on every entry separately *)
(** the positive logarithm: 0 below 1, the natural logarithm above *)
Definition poslog (x : R) : R := if Rlt_dec x 1 then 0%R else ln x.
Theorem C99_entrywise : forall a, mwf a ->
  grid (m_neg a) (type_of a) (m_nr a) (m_nc a) (fun i j => - ment a i j)%R /\
  (forall x, grid (m_scal x a) (type_of a) (m_nr a) (m_nc a) (fun i j => ment a i j * x)%R) /\
  (forall x, x <> 0%R -> gives (m_div a x) (type_of a) (m_nr a) (m_nc a) (fun i j => ment a i j / x)%R) /\
  m_div a 0%R = Err ZeroDivisionError /\
  grid (m_plog a) (type_of a) (m_nr a) (m_nc a) (fun i j => poslog (ment a i j)) /\
  grid (m_to_non_negative a) (type_of a) (m_nr a) (m_nc a) (fun i j => Rmax 0 (ment a i j)) /\
  grid (m_get_non_negative a) (type_of a) (m_nr a) (m_nc a) (fun i j => Rmax 0 (ment a i j)) /\
  grid (m_to_ones a) (type_of a) (m_nr a) (m_nc a) (fun i j => if Rlt_dec 0 (ment a i j) then 1%R else 0%R) /\
  (forall eps, grid (m_remove_small a eps) (type_of a) (m_nr a) (m_nc a) (fun i j => if Rlt_dec eps (ment a i j) then ment a i j else 0%R)).
Proof.
  intros a W. pose proof (vals_self a W) as V.
  split; [apply grid_vals, vals_neg, V|]. split; [intros x; apply grid_vals; exact (vals_scal x _ _ _ _ _ V)|].
  split; [intros x Hx; apply gives_vals; exact (Prop_NmfInit.vals_div x _ _ _ _ _ V Hx)|].
  split. { unfold m_div. change (@f0 RNum) with 0%R. rewrite feqb_refl. reflexivity. }
  split; [apply grid_vals; exact (vals_plog _ _ _ _ _ V)|].
  split; [eapply grid_ext; [exact (Prop_Nmf.vals_to_non_negative _ _ _ _ _ V)|]; intros; apply Prop_NmfInit.pos_part_pos|].
  split; [eapply grid_ext; [exact (vals_get_non_negative _ _ _ _ _ V)|]; intros; apply Prop_NmfInit.pos_part_pos|].
  assert (Z : @one_pos RNum 0%R = 0%R) by (unfold one_pos; cbn [fltb f0 f1 RNum]; unfold Rltb; destruct (Rlt_dec 0 0); [lra|reflexivity]).
  split.
  { eapply grid_ext; [exact (vals_map_raw one_pos one_pos _ _ _ _ _ V Z (fun x => eq_refl))|]. intros i j _ _. cbn beta. unfold one_pos. cbn [fltb f0 f1 RNum]. unfold Rltb.
    destruct (Rlt_dec 0 (ment a i j)); reflexivity. }
  intros eps. assert (K0 : keep_gt eps 0%R = 0%R) by (unfold keep_gt; destruct (fltb eps 0%R); reflexivity).
  eapply grid_ext; [exact (vals_map_raw (keep_gt eps) (keep_gt eps) _ _ _ _ _ V K0 (fun x => eq_refl))|]. intros i j _ _. cbn beta. unfold keep_gt. cbn [fltb f0 RNum]. unfold Rltb.
  destruct (Rlt_dec eps (ment a i j)); reflexivity.
Qed.

(** *** C99: methods on two matrices *)
(** position read in an operand of [n] rows (or columns) when numpy broadcasts it: a single row (column) is repeated *)
Definition spread (n i : nat) : nat := if Nat.eqb n 1 then 0 else i.
(** the number of rows (columns) of a broadcast result *)
Definition bcast_len (n m k : nat) : Prop := n = m /\ k = n \/ n = 1 /\ k = m \/ m = 1 /\ k = n.

Lemma bcast_dim_spec n m : match bcast_dim n m with Some k => bcast_len n m k | None => n <> m /\ n <> 1 /\ m <> 1 end.
Proof. unfold bcast_dim, bcast_len. destruct (Nat.eqb_spec n m); [auto|]. destruct (Nat.eqb_spec n 1); [auto|]. destruct (Nat.eqb_spec m 1); auto. Qed.
Lemma bcast_len_fun n m k k' : 0 < n -> 0 < m -> bcast_len n m k -> bcast_len n m k' -> k = k'.
Proof. unfold bcast_len. lia. Qed.

Lemma same_type_diff a b : type_of a <> type_of b -> same_type a b = Err TypeError.
Proof. unfold same_type. destruct (type_of a), (type_of b); cbn; congruence. Qed.

Theorem C99_pairs : forall a b, mwf a -> mwf b -> type_of a = type_of b ->
  (m_nr a = m_nr b -> m_nc a = m_nc b ->
     gives (m_add a b) (type_of a) (m_nr a) (m_nc a) (fun i j => ment a i j + ment b i j)%R /\
     gives (m_sub a b) (type_of a) (m_nr a) (m_nc a) (fun i j => ment a i j - ment b i j)%R /\
     gives (m_multiply a b) (type_of a) (m_nr a) (m_nc a) (fun i j => ment a i j * ment b i j)%R) /\
  (~ (m_nr a = m_nr b /\ m_nc a = m_nc b) -> m_multiply a b = Err ValueError) /\
  (m_nc a = m_nr b -> gives (m_mul a b) (type_of a) (m_nr a) (m_nc b) (fun i j => rsum (m_nc a) (fun k => ment a i k * ment b k j)%R)) /\
  (m_nc a <> m_nr b -> m_mul a b = Err ValueError) /\
  (m_nc a = m_nc b -> gives (m_vstack a b) (type_of a) (m_nr a + m_nr b) (m_nc a) (fun i j => if Nat.ltb i (m_nr a) then ment a i j else ment b (i - m_nr a) j)) /\
  (m_nc a <> m_nc b -> m_vstack a b = Err ValueError) /\
  (m_nr a = m_nr b -> gives (m_hstack a b) (type_of a) (m_nr a) (m_nc a + m_nc b) (fun i j => if Nat.ltb j (m_nc a) then ment a i j else ment b i (j - m_nc a))) /\
  (m_nr a <> m_nr b -> m_hstack a b = Err ValueError).
Proof.
  intros a b Wa Wb T. pose proof (vals_self a Wa) as Va. pose proof (vals_self b Wb) as Vb. rewrite <- T in Vb.
  split. { intros HR HC. rewrite <- HR, <- HC in Vb. split; [apply gives_vals; exact (vals_add _ _ _ _ _ _ _ Va Vb)|]. split; [apply gives_vals; exact (vals_sub _ _ _ _ _ _ _ Va Vb)|apply gives_vals; exact (vals_multiply _ _ _ _ _ _ _ Va Vb)]. }
  split. { intros H. unfold m_multiply. rewrite same_type_same by exact T. cbn [bind]. destruct (same_shapeb a b) eqn:E; [apply same_shapeb_iff in E; contradiction|reflexivity]. }
  split. { intros H. rewrite <- H in Vb. eapply gives_ext; [exact (vals_mul _ _ _ _ _ _ _ _ Va Vb)|]. intros i j _ _. cbn beta. apply sumn_rsum. }
  split. { intros H. unfold m_mul. rewrite same_type_same by exact T. cbn [bind]. apply Nat.eqb_neq in H. rewrite H. reflexivity. }
  split. { intros H. rewrite <- H in Vb. apply gives_vals. exact (vals_vstack _ _ _ _ _ _ _ _ Va Vb). }
  split. { intros H. unfold m_vstack. rewrite same_type_same by exact T. cbn [bind]. apply Nat.eqb_neq in H. rewrite H. reflexivity. }
  split. { intros H. rewrite <- H in Vb. apply gives_vals. exact (vals_hstack _ _ _ _ _ _ _ _ Va Vb). }
  intros H. unfold m_hstack. rewrite same_type_same by exact T. cbn [bind]. apply Nat.eqb_neq in H. rewrite H. reflexivity.
Qed.
(** operands of different classes are refused by all of them *)
Theorem C99_classes : forall a b, type_of a <> type_of b ->
  m_add a b = Err TypeError /\ m_sub a b = Err TypeError /\ m_multiply a b = Err TypeError /\ m_mul a b = Err TypeError /\
  m_vstack a b = Err TypeError /\ m_hstack a b = Err TypeError.
Proof.
  intros a b H. apply same_type_diff in H. unfold m_add, m_sub, m_zip, m_multiply, m_mul, m_vstack, m_hstack. rewrite H. repeat split; reflexivity.
Qed.
(** + and - of dense matrices, all shapes *)
Theorem C99_broadcast : forall a b, mwf a -> mwf b -> type_of a = TDense -> type_of b = TDense ->
  (forall r c, bcast_len (m_nr a) (m_nr b) r -> bcast_len (m_nc a) (m_nc b) c ->
     let x i j := ment a (spread (m_nr a) i) (spread (m_nc a) j) in let y i j := ment b (spread (m_nr b) i) (spread (m_nc b) j) in
     gives (m_add a b) TDense r c (fun i j => x i j + y i j)%R /\ gives (m_sub a b) TDense r c (fun i j => x i j - y i j)%R) /\
  ((forall r, ~ bcast_len (m_nr a) (m_nr b) r) \/ (forall c, ~ bcast_len (m_nc a) (m_nc b) c) -> m_add a b = Err ValueError /\ m_sub a b = Err ValueError).
Proof.
  intros a b Wa Wb Ta Tb. destruct a as [x|]; [|discriminate]. destruct b as [y|]; [|discriminate]. cbn [mwf m_nr m_nc ment] in *.
  pose proof Wa as (A1 & A2 & _). pose proof Wb as (B1 & B2 & _).
  assert (E : forall op, m_zip op (MD x) (MD y) = rmap MD (d_bcast op x y)) by reflexivity.
  pose proof (bcast_dim_spec (d_nr x) (d_nr y)) as SR. pose proof (bcast_dim_spec (d_nc x) (d_nc y)) as SC.
  split.
  - intros r c Hr Hc. cbv zeta.
    destruct (bcast_dim (d_nr x) (d_nr y)) as [r'|] eqn:ER; [|exfalso; unfold bcast_len in Hr; lia].
    destruct (bcast_dim (d_nc x) (d_nc y)) as [c'|] eqn:EC; [|exfalso; unfold bcast_len in Hc; lia].
    pose proof (bcast_len_fun _ _ _ _ A1 B1 Hr SR). pose proof (bcast_len_fun _ _ _ _ A2 B2 Hc SC). subst r' c'.
    assert (Pr : 0 < r) by (unfold bcast_len in Hr; lia). assert (Pc : 0 < c) by (unfold bcast_len in Hc; lia).
    split; apply gives_vals; unfold m_add, m_sub; rewrite E; unfold d_bcast; rewrite ER, EC; eexists; (split; [reflexivity|]); exact (vals_of_dense TDense _ _ _ Pr Pc).
  - intros H. unfold m_add, m_sub. rewrite !E. unfold d_bcast. destruct H as [H|H].
    + destruct (bcast_dim (d_nr x) (d_nr y)); [exfalso; eapply H; exact SR|auto].
    + destruct (bcast_dim (d_nc x) (d_nc y)); [exfalso; eapply H; exact SC|]. destruct (bcast_dim (d_nr x) (d_nr y)); auto.
Qed.

(** *** C99: access, reshaping, scaling *)
(** Python's reading of an index in a sequence of length n: i counts from the end when negative *)
Definition denotes (n : nat) (i : Z) (k : nat) : Prop := k < n /\ (i = Z.of_nat k \/ i = (Z.of_nat k - Z.of_nat n)%Z).
Lemma denotes_index n i k : denotes n i k <-> py_index n i = Some k.
Proof.
  unfold denotes, py_index. destruct (Z.ltb_spec i 0).
  - destruct (Z.ltb_spec (i + Z.of_nat n) 0); cbn [orb]; [split; [lia|discriminate]|]. destruct (Z.leb_spec (Z.of_nat n) (i + Z.of_nat n)); [lia|].
    split; [intros (A & [B|B]); f_equal; lia|intros E]. assert (K : Z.to_nat (i + Z.of_nat n) = k) by congruence. lia.
  - destruct (Z.ltb_spec i 0); [lia|]. cbn [orb]. destruct (Z.leb_spec (Z.of_nat n) i); [split; [lia|discriminate]|].
    split; [intros (A & [B|B]); f_equal; lia|intros E]. assert (K : Z.to_nat i = k) by congruence. lia.
Qed.
Lemma py_indices_all n ids ks : Forall2 (denotes n) ids ks -> py_indices n ids = Ok ks.
Proof.
  induction 1 as [|i k ids ks H _ IH]; [reflexivity|]. apply denotes_index in H. unfold py_indices in *. cbn [mapM]. rewrite H. cbn [bind]. rewrite IH. reflexivity.
Qed.
Lemma py_indices_bad n ids i : In i ids -> (forall k, ~ denotes n i k) -> py_indices n ids = Err IndexError.
Proof.
  intros Hi H. assert (E : py_index n i = None). { destruct (py_index n i) as [k|] eqn:E; [|reflexivity]. exfalso. exact (H k (proj2 (denotes_index _ _ _) E)). }
  induction ids as [|x ids IH]; [destruct Hi|]. unfold py_indices in *. cbn [mapM]. destruct Hi as [->|Hi].
  - rewrite E. reflexivity.
  - destruct (py_index n x); [cbn [bind]; rewrite (IH Hi); reflexivity|reflexivity].
Qed.

Theorem C99_access : forall a, mwf a ->
  grid (m_transpose a) (type_of a) (m_nc a) (m_nr a) (fun i j => ment a j i) /\
  (forall i k, denotes (m_nr a) i k -> gives (m_get_row a i) (type_of a) 1 (m_nc a) (fun _ j => ment a k j)) /\
  (forall i, (forall k, ~ denotes (m_nr a) i k) -> m_get_row a i = Err IndexError) /\
  (forall ids ks, ids <> [] -> Forall2 (denotes (m_nr a)) ids ks -> gives (m_get_rows a ids) (type_of a) (length ids) (m_nc a) (fun i j => ment a (nth i ks 0) j)) /\
  (forall ids i, In i ids -> (forall k, ~ denotes (m_nr a) i k) -> m_get_rows a ids = Err IndexError) /\
  (forall ids, ids <> [] -> (forall j, In j ids -> j < m_nc a) -> gives (m_get_cols a ids) (type_of a) (m_nr a) (length ids) (fun i j => ment a i (nth j ids 0))) /\
  (forall ids j, In j ids -> m_nc a <= j -> m_get_cols a ids = Err IndexError) /\
  (forall v, length v = m_nr a -> gives (m_scale_rows a v) (type_of a) (m_nr a) (m_nc a) (fun i j => ment a i j * nth i v 0)%R) /\
  (forall v, length v <> m_nr a -> m_scale_rows a v = Err ValueError) /\
  (forall v, length v = m_nc a -> gives (m_scale_cols a v) (type_of a) (m_nr a) (m_nc a) (fun i j => ment a i j * nth j v 0)%R) /\
  (forall v, length v <> m_nc a -> m_scale_cols a v = Err ValueError).
Proof.
  intros a W. pose proof (vals_self a W) as V.
  split; [apply grid_vals; exact (vals_transpose _ _ _ _ _ V)|].
  split. { intros i k H. pose proof H as (Hk & _). apply denotes_index in H. destruct (m_get_row_any a i k W H) as (z & E & Z). exists z. split; [exact E|].
    eapply grid_ext; [exact (is_mat_vals' _ _ _ 1 (m_nc a) Z eq_refl (to_dense_nc a))|]. intros i' j Hi Hj. unfold d_rows. rewrite dent_tab by (cbn; rewrite ?to_dense_nc; assumption).
    replace i' with 0 by lia. cbn [nth]. exact (dent_to_dense a k j Hk Hj). }
  split. { intros i H. apply m_get_row_none; [exact W|]. destruct (py_index (m_nr a) i) as [k|] eqn:E; [|reflexivity]. exfalso. exact (H k (proj2 (denotes_index _ _ _) E)). }
  split. { intros ids ks Hn H. assert (L : length ids = length ks) by (clear -H; induction H; cbn; congruence). pose proof (py_indices_all _ _ _ H) as E.
    assert (K : Forall (fun i => i < m_nr a) ks). { clear -H. induction H as [|x y l l' [Hx _] _ IH]; constructor; assumption. }
    assert (P : 0 < length ks) by (destruct ids; [congruence|cbn in L; lia]).
    destruct (vals_get_rows _ _ _ _ _ ks V K P) as (z & Ez & Vz). exists z. rewrite L. split; [|apply grid_vals, Vz].
    unfold m_get_rows in *. rewrite E. replace (py_indices (m_nr a) (map Z.of_nat ks)) with (Ok (A := list nat) ks) in Ez; [exact Ez|].
    symmetry. apply py_indices_all. clear -K. induction K as [|k l Hk _ IH]; cbn [map]; constructor; [|exact IH]. split; [exact Hk|left; reflexivity]. }
  split. { intros ids i Hi H. unfold m_get_rows. rewrite (py_indices_bad _ _ _ Hi H). reflexivity. }
  split. { intros ids Hn H. apply gives_vals. apply (vals_get_cols _ _ _ _ _ ids V); [apply Forall_forall, H|destruct ids; [congruence|cbn; lia]]. }
  split. { intros ids j Hi H. unfold m_get_cols. destruct (forallb _ ids) eqn:E; [|reflexivity]. rewrite forallb_forall in E. specialize (E j Hi). apply Nat.ltb_lt in E. lia. }
  split. { intros v Hv. apply gives_vals. exact (vals_scale_rows _ _ _ _ _ v V Hv). }
  split. { intros v Hv. unfold m_scale_rows. destruct (Nat.eqb_spec (length v) (m_nr a)) as [K|K]; [contradiction|reflexivity]. }
  split. { intros v Hv. apply gives_vals. exact (vals_scale_cols _ _ _ _ _ v V Hv). }
  intros v Hv. unfold m_scale_cols. destruct (Nat.eqb_spec (length v) (m_nc a)) as [K|K]; [contradiction|reflexivity].
Qed.

Theorem C99_shapes : forall a, mwf a ->
  (forall r c, (Z.of_nat (m_nr a) * Z.of_nat (m_nc a) < 2 ^ 63)%Z -> m_nr a * m_nc a = r * c ->
     gives (m_reshape a r c) (type_of a) r c (fun i j => ment a ((i * c + j) / m_nc a) ((i * c + j) mod m_nc a))) /\
  (forall r c, m_nr a * m_nc a <> r * c -> m_reshape a r c = Err ValueError) /\
  (forall t n, 0 < n -> grid (m_identity t n) t n n (fun i j => if Nat.eqb i j then 1%R else 0%R)) /\
  (forall x, gives (padd_matrix a 0 x) (type_of a) (m_nr a + 1) (m_nc a) (fun i j => if Nat.ltb i (m_nr a) then ment a i j else x)) /\
  (forall x, gives (padd_matrix a 1 x) (type_of a) (m_nr a) (m_nc a + 1) (fun i j => if Nat.ltb j (m_nc a) then ment a i j else x)) /\
  (forall k x, padd_matrix a (S (S k)) x = Err ValueError) /\
  (forall t, grid (conv t a) t (m_nr a) (m_nc a) (ment a)) /\
  (forall b, mwf b -> fst (to_compatible a b) = a /\ grid (snd (to_compatible a b)) (type_of a) (m_nr b) (m_nc b) (ment b)).
Proof.
  intros a W. pose proof (vals_self a W) as V. pose proof (vals_pos _ _ _ _ _ V) as (P1 & P2).
  split. { intros r c Hs He. apply gives_vals. exact (PLexFun.vals_reshape _ _ _ _ _ r c V Hs He). }
  split. { intros r c H. destruct a as [d|s]; cbn [m_reshape m_nr m_nc] in *.
    - apply Nat.eqb_neq in H. rewrite H. reflexivity.
    - rewrite s_reshape_reject by exact H. reflexivity. }
  split. { intros t n Hn. apply grid_vals. exact (vals_identity t n Hn). }
  split. { intros x. pose proof (vals_const (type_of a) 1 (m_nc a) x Nat.lt_0_1 P2) as Vc. apply gives_vals. exact (vals_vstack _ _ _ _ _ _ _ _ V Vc). }
  split. { intros x. pose proof (vals_const (type_of a) (m_nr a) 1 x P1 Nat.lt_0_1) as Vc. apply gives_vals. exact (vals_hstack _ _ _ _ _ _ _ _ V Vc). }
  split; [reflexivity|].
  split; [intros t; apply grid_vals; exact (vals_conv t _ _ _ _ _ V)|].
  intros b Wb. split; [reflexivity|]. apply grid_vals. exact (vals_conv (type_of a) _ _ _ _ _ (vals_self b Wb)).
Qed.

(** *** C99: sums, norms, ranking *)
Theorem C99_sums : forall a, mwf a ->
  m_sum a = rsum (m_nr a) (fun i => rsum (m_nc a) (fun j => ment a i j)) /\
  length (m_sum0 a) = m_nc a /\ (forall j, j < m_nc a -> nth j (m_sum0 a) 0%R = rsum (m_nr a) (fun i => ment a i j)) /\
  length (m_sum1 a) = m_nr a /\ (forall i, i < m_nr a -> nth i (m_sum1 a) 0%R = rsum (m_nc a) (fun j => ment a i j)) /\
  m_norm a = sqrt (rsum (m_nr a) (fun i => rsum (m_nc a) (fun j => ment a i j * ment a i j)%R)) /\
  length (m_norm0 a) = m_nc a /\ (forall j, j < m_nc a -> nth j (m_norm0 a) 0%R = norm (m_nr a) (fun i => ment a i j)) /\
  length (m_norm1 a) = m_nr a /\ (forall i, i < m_nr a -> nth i (m_norm1 a) 0%R = norm (m_nc a) (fun j => ment a i j)) /\
  ((forall i j, i < m_nr a -> j < m_nc a -> (0 <= ment a i j)%R) -> m_assert_positive a = Ok tt) /\
  (forall i j, i < m_nr a -> j < m_nc a -> (ment a i j < 0)%R -> m_assert_positive a = Err ValueError).
Proof.
  intros a W. pose proof (vals_self a W) as V.
  split; [apply m_sum_R|]. split. { unfold m_sum0, d_sum0. rewrite map_length, seq_length. apply to_dense_nc. }
  split; [intros j Hj; apply nth_m_sum0_R; exact Hj|]. split. { unfold m_sum1, d_sum1. rewrite map_length, seq_length. apply to_dense_nr. }
  split; [intros i Hi; apply nth_m_sum1_R; exact Hi|]. split; [exact (Prop_NmfInit.vals_norm _ _ _ _ _ V)|].
  split; [apply m_norm0_length|]. split; [intros j Hj; apply nth_m_norm0_R; assumption|]. split; [apply m_norm1_length|]. split; [intros i Hi; apply nth_m_norm1_R; assumption|].
  destruct (assert_positive_iff a W) as (H1 & H2). split; [apply H1|]. intros i j Hi Hj H. destruct H2 as [H2|H2]; [|exact H2]. pose proof (proj1 H1 H2 i j Hi Hj). lra.
Qed.
(** sorted_permutation: a rearrangement of the positions, by decreasing value, ties in order of position *)
Theorem C99_ranking : forall l : list R,
  Permutation (seq 0 (length l)) (sorted_permutation l) /\
  forall a b, a < b -> b < length l ->
    let i := nth a (sorted_permutation l) 0 in let j := nth b (sorted_permutation l) 0 in
    (nth j l 0 < nth i l 0)%R \/ nth i l 0%R = nth j l 0%R /\ i < j.
Proof.
  intros l. split; [apply stable_sort_perm|]. intros a b H1 H2. cbv zeta. destruct (sorted_permutation_order l a b (conj H1 H2)) as (K1 & K2). cbv zeta in *.
  destruct K1 as [K1|K1]; [left; exact K1|right]. split; [symmetry; exact K1|]. apply K2. symmetry. exact K1.
Qed.

(** *** C99: stacking a list *)
(** the number of rows (columns) of the matrices before position k *)
Definition rows_before (l : list matrix) (k : nat) : nat := list_sum (map m_nr (firstn k l)).
Definition cols_before (l : list matrix) (k : nat) : nat := list_sum (map m_nc (firstn k l)).
Lemma before_lt (n : matrix -> nat) (l : list matrix) z : forall k i, k < length l -> i < n (nth k l z) ->
  list_sum (map n (firstn k l)) + i < list_sum (map n (firstn (length l) l)).
Proof.
  induction l as [|x xs IH]; intros k i Hk Hi; cbn [length] in *; [lia|]. cbn [firstn map].
  destruct k as [|k]; cbn [nth firstn map] in *.
  - change (list_sum []) with 0. change (list_sum (n x :: map n (firstn (length xs) xs))) with (n x + list_sum (map n (firstn (length xs) xs))). lia.
  - specialize (IH k i ltac:(lia) Hi). change (list_sum (n x :: map n (firstn k xs))) with (n x + list_sum (map n (firstn k xs))).
    change (list_sum (n x :: map n (firstn (length xs) xs))) with (n x + list_sum (map n (firstn (length xs) xs))). lia.
Qed.
Theorem C99_nary_vstack : forall t l c, l <> [] -> (forall m, In m l -> mwf m /\ m_nc m = c) ->
  exists z, nary_vstack t l = Ok z /\ mwf z /\ type_of z = t /\ m_nr z = rows_before l (length l) /\ m_nc z = c /\
  forall k i j, k < length l -> i < m_nr (nth k l z) -> j < c -> ment z (rows_before l k + i) j = ment (nth k l z) i j.
Proof.
  intros t l c Hn H. induction l as [|m l IH]; [congruence|]. pose proof (H m (or_introl eq_refl)) as (Wm & Cm). pose proof (vals_conv t _ _ _ _ _ (vals_self m Wm)) as Vm. rewrite Cm in Vm.
  destruct l as [|m2 l].
  - exists (conv t m). split; [reflexivity|]. destruct Vm as ((A&B&C&D)&E). split; [exact A|]. split; [exact B|]. split; [unfold rows_before; cbn; lia|]. split; [exact D|].
    intros k i j Hk Hi Hj. assert (k = 0) by (cbn in Hk; lia). subst k. cbn [nth] in *. cbn. exact (E i j Hi Hj).
  - destruct IH as (z & Ez & Wz & Tz & Rz & Cz & Hz); [discriminate|intros; apply H; right; assumption|].
    change (nary_vstack t (m :: m2 :: l)) with (let* r := nary_vstack t (m2 :: l) in m_vstack (conv t m) r). rewrite Ez. cbn [bind].
    pose proof (vals_self z Wz) as Vz. rewrite Tz, Cz in Vz. destruct (vals_vstack _ _ _ _ _ _ _ _ Vm Vz) as (y & -> & ((A&B&C&D)&E)).
    exists y. split; [reflexivity|]. split; [exact A|]. split; [exact B|]. split; [rewrite C, Rz; reflexivity|]. split; [exact D|].
    intros [|k] i j Hk Hi Hj.
    + cbn [nth] in *. change (rows_before (m :: m2 :: l) 0) with 0. cbn [Nat.add]. rewrite E by (lia || assumption). rewrite (proj2 (Nat.ltb_lt _ _)) by exact Hi. reflexivity.
    + change (length (m :: m2 :: l)) with (S (length (m2 :: l))) in Hk. apply Nat.succ_lt_mono in Hk.
      change (nth (S k) (m :: m2 :: l) y) with (nth k (m2 :: l) y) in *. rewrite (nth_indep _ y z Hk) in *.
      change (rows_before (m :: m2 :: l) (S k)) with (m_nr m + rows_before (m2 :: l) k).
      assert (B1 : rows_before (m2 :: l) k + i < m_nr z).
      { rewrite Rz. exact (before_lt m_nr _ z k i Hk Hi). }
      rewrite E by (lia || assumption). rewrite (proj2 (Nat.ltb_ge _ _)) by lia. replace (m_nr m + rows_before (m2 :: l) k + i - m_nr m) with (rows_before (m2 :: l) k + i) by lia. apply Hz; assumption.
Qed.
Theorem C99_nary_hstack : forall t l r, l <> [] -> (forall m, In m l -> mwf m /\ type_of m = t /\ m_nr m = r) ->
  exists z, nary_hstack l = Ok z /\ mwf z /\ type_of z = t /\ m_nr z = r /\ m_nc z = cols_before l (length l) /\
  forall k i j, k < length l -> i < r -> j < m_nc (nth k l z) -> ment z i (cols_before l k + j) = ment (nth k l z) i j.
Proof.
  intros t l c Hn H. induction l as [|m l IH]; [congruence|]. pose proof (H m (or_introl eq_refl)) as (Wm & Tm & Cm). pose proof (vals_self m Wm) as Vm. rewrite Cm, Tm in Vm.
  destruct l as [|m2 l].
  - exists m. split; [reflexivity|]. split; [exact Wm|]. split; [exact Tm|]. split; [exact Cm|]. split; [unfold cols_before; cbn; lia|].
    intros k i j Hk Hi Hj. assert (k = 0) by (cbn in Hk; lia). subst k. reflexivity.
  - destruct IH as (z & Ez & Wz & Tz & Rz & Cz & Hz); [discriminate|intros; apply H; right; assumption|].
    change (nary_hstack (m :: m2 :: l)) with (let* r := nary_hstack (m2 :: l) in m_hstack m r). rewrite Ez. cbn [bind].
    pose proof (vals_self z Wz) as Vz. rewrite Tz, Rz in Vz. destruct (vals_hstack _ _ _ _ _ _ _ _ Vm Vz) as (y & -> & ((A&B&C&D)&E)).
    exists y. split; [reflexivity|]. split; [exact A|]. split; [exact B|]. split; [exact C|]. split; [rewrite D, Cz; reflexivity|].
    intros [|k] i j Hk Hi Hj.
    + cbn [nth] in *. change (cols_before (m :: m2 :: l) 0) with 0. cbn [Nat.add]. rewrite E by (lia || assumption). rewrite (proj2 (Nat.ltb_lt _ _)) by exact Hj. reflexivity.
    + change (length (m :: m2 :: l)) with (S (length (m2 :: l))) in Hk. apply Nat.succ_lt_mono in Hk.
      change (nth (S k) (m :: m2 :: l) y) with (nth k (m2 :: l) y) in *. rewrite (nth_indep _ y z Hk) in *.
      change (cols_before (m :: m2 :: l) (S k)) with (m_nc m + cols_before (m2 :: l) k).
      assert (B1 : cols_before (m2 :: l) k + j < m_nc z).
      { rewrite Cz. exact (before_lt m_nc _ z k j Hk Hj). }
      rewrite E by (lia || assumption). rewrite (proj2 (Nat.ltb_ge _ _)) by lia. replace (m_nc m + cols_before (m2 :: l) k + j - m_nc m) with (cols_before (m2 :: l) k + j) by lia. apply Hz; assumption.
Qed.

(** *** C99: choosing a common class *)
(** get_type_of_largest: the class of the first matrix with the largest number of cells *)
Theorem C99_largest : forall l, l <> [] -> (forall m, In m l -> mwf m) ->
  exists k m, nth_error l k = Some m /\ get_type_of_largest l = Some (type_of m) /\
  (forall i m', nth_error l i = Some m' -> m_nr m' * m_nc m' <= m_nr m * m_nc m) /\
  (forall i m', i < k -> nth_error l i = Some m' -> m_nr m' * m_nc m' < m_nr m * m_nc m).
Proof.
  assert (A : forall l best t, exists r, largest_aux l best t = r /\
    ((r = t /\ forall i m', nth_error l i = Some m' -> m_nr m' * m_nc m' <= best) \/
     exists k m, nth_error l k = Some m /\ r = Some (type_of m) /\ best < m_nr m * m_nc m /\
       (forall i m', nth_error l i = Some m' -> m_nr m' * m_nc m' <= m_nr m * m_nc m) /\
       (forall i m', i < k -> nth_error l i = Some m' -> m_nr m' * m_nc m' < m_nr m * m_nc m))).
  { induction l as [|x l IH]; intros best t; (eexists; split; [reflexivity|]).
    - left. split; [reflexivity|]. intros [|i] m' E; discriminate.
    - cbn [largest_aux]. destruct (Nat.ltb_spec best (m_nr x * m_nc x)) as [L|L].
      + destruct (IH (m_nr x * m_nc x) (Some (type_of x))) as (r & -> & [(-> & H)|(k & m & E & -> & B & H1 & H2)]); right.
        * exists 0, x. split; [reflexivity|]. split; [reflexivity|]. split; [exact L|]. split; [|intros; lia].
          intros [|i] m' E; [cbn in E; inversion E; lia|exact (H i m' E)].
        * exists (S k), m. split; [exact E|]. split; [reflexivity|]. split; [lia|]. split.
          -- intros [|i] m' E'; [cbn in E'; inversion E'; subst; lia|exact (H1 i m' E')].
          -- intros [|i] m' Hi E'; [cbn in E'; inversion E'; subst; lia|exact (H2 i m' ltac:(lia) E')].
      + destruct (IH best t) as (r & -> & [(-> & H)|(k & m & E & -> & B & H1 & H2)]); [left|right].
        * split; [reflexivity|]. intros [|i] m' E; [cbn in E; inversion E; subst; lia|exact (H i m' E)].
        * exists (S k), m. split; [exact E|]. split; [reflexivity|]. split; [lia|]. split.
          -- intros [|i] m' E'; [cbn in E'; inversion E'; subst; lia|exact (H1 i m' E')].
          -- intros [|i] m' Hi E'; [cbn in E'; inversion E'; subst; lia|exact (H2 i m' ltac:(lia) E')]. }
  intros l Hn H. destruct (A l 0 None) as (r & E & [(-> & K)|(k & m & E1 & E2 & _ & H1 & H2)]).
  - exfalso. destruct l as [|x l]; [congruence|]. specialize (K 0 x eq_refl). pose proof (vals_pos _ _ _ _ _ (vals_self x (H x (or_introl eq_refl)))). nia.
  - exists k, m. split; [exact E1|]. split; [unfold get_type_of_largest; rewrite E; exact E2|]. split; assumption.
Qed.
(** matrix_type_conflict: two matrices of different classes; resolve_type_conflict: the same matrices, converted only when
    there is a conflict *)
Theorem C99_conflict : forall l,
  (type_conflict l = true <-> exists a b, In a l /\ In b l /\ type_of a <> type_of b) /\
  (forall t, type_conflict l = false -> resolve_type_conflict l t = Ok l) /\
  (forall t, type_conflict l = true -> (forall m, In m l -> mwf m) ->
     exists l', resolve_type_conflict l (Some t) = Ok l' /\ Forall2 (fun m m' => grid m' t (m_nr m) (m_nc m) (ment m)) l l') /\
  (type_conflict l = true -> resolve_type_conflict l None = Err TypeError).
Proof.
  intros l. split.
  { destruct l as [|m l]; cbn [type_conflict]; [split; [discriminate|intros (a & b & [] & _)]|]. rewrite existsb_exists. split.
    - intros (x & Hx & E). exists x, m. split; [exact Hx|]. split; [left; reflexivity|]. intros K. rewrite K, mtype_eqb_refl in E. discriminate.
    - intros (a & b & Ha & Hb & E). destruct (mtype_eqb (type_of a) (type_of m)) eqn:K.
      + exists b. split; [exact Hb|]. apply mtype_eqb_eq in K. destruct (mtype_eqb (type_of b) (type_of m)) eqn:K'; [|reflexivity]. apply mtype_eqb_eq in K'. congruence.
      + exists a. split; [exact Ha|]. rewrite K. reflexivity. }
  split; [intros t E; unfold resolve_type_conflict; rewrite E; reflexivity|]. split.
  - intros t E W. unfold resolve_type_conflict. rewrite E. eexists. split; [reflexivity|]. clear E. induction l as [|m l IH]; cbn [map]; constructor.
    + apply grid_vals. apply (vals_conv t _ _ _ _ _ (vals_self m (W m (or_introl eq_refl)))).
    + apply IH. intros; apply W; right; assumption.
  - intros E. unfold resolve_type_conflict. rewrite E. reflexivity.
Qed.

(** *** example: a sparse 2x3 matrix with a stored zero and a negative entry *)
Definition ex_a : matrix := MS (@CSR RNum 2 3 [2; 0; -3]%R [0; 2; 1] [0; 2; 3]).
Lemma ex_a_wf : mwf ex_a.
Proof.
  cbn [ex_a mwf]. unfold swf. cbn [s_nr s_nc s_ptr s_data s_ind]. repeat split; try lia; try reflexivity.
  - intros i Hi. destruct i as [|[|i]]; cbn; lia.
  - repeat constructor; lia.
  - intros i Hi. destruct i as [|[|i]]; [| |lia]; unfold srow; cbn; repeat constructor; cbn; intuition discriminate.
Qed.
Example C99_example :
  mwf ex_a /\ (ment ex_a 0 0 = 2 /\ ment ex_a 0 2 = 0 /\ ment ex_a 1 1 = -3)%R /\
  ment (m_to_non_negative ex_a) 1 1 = 0%R /\ ment (m_to_ones ex_a) 0 0 = 1%R /\
  gives (m_mul ex_a (m_transpose ex_a)) TSparse 2 2 (fun i j => rsum 3 (fun k => ment ex_a i k * ment ex_a j k)%R) /\
  denotes (m_nr ex_a) (-1) 1 /\ gives (m_get_row ex_a (-1)) TSparse 1 3 (fun _ j => ment ex_a 1 j) /\
  gives (m_reshape ex_a 3 2) TSparse 3 2 (fun i j => ment ex_a ((i * 2 + j) / 3) ((i * 2 + j) mod 3)).
Proof.
  pose proof ex_a_wf as W. destruct (C99_entrywise ex_a W) as (_ & _ & _ & _ & _ & N & _ & O & _). destruct (C99_access ex_a W) as (T & G & _).
  assert (E : (ment ex_a 0 0 = 2 /\ ment ex_a 0 2 = 0 /\ ment ex_a 1 1 = -3)%R) by (repeat split; reflexivity). destruct E as (E1 & E2 & E3).
  split; [exact W|]. split; [auto|]. split. { destruct N as (_&_&_&_&N). rewrite N by (cbn; lia). rewrite E3. apply Rmax_left. lra. }
  split. { destruct O as (_&_&_&_&O). rewrite O by (cbn; lia). rewrite E1. destruct (Rlt_dec 0 2); [reflexivity|lra]. }
  split. { pose proof T as (Wt & Tt & Rt & Ct & Et). destruct (C99_pairs ex_a (m_transpose ex_a) W Wt (eq_sym Tt)) as (_&_&M&_).
    destruct (M (eq_sym Rt)) as (z & Ez & (A&B&C&D&F)). exists z. split; [exact Ez|]. rewrite Ct in *. repeat split; try assumption.
    intros i j Hi Hj. rewrite F by assumption. apply rsum_ext. intros k Hk. rewrite Et by assumption. reflexivity. }
  assert (Dn : denotes (m_nr ex_a) (-1) 1) by (split; [cbn; lia|right; reflexivity]).
  split; [exact Dn|]. split; [exact (G _ _ Dn)|]. destruct (C99_shapes ex_a W) as (S & _). apply S; [cbn; lia|reflexivity].
Qed.
