(** Prop_Alike.v -- properties C24, C25, C53, C60: dense and sparse matrices behave alike, over exact reals. *)
From Coq Require Import Reals Lra Psatz QArith Qcanon.
From Verif Require Import Base PyList Num SpecReal Dense Sparse Matrix PSparse PMatrix PMatOps PShape PVals PReal PPos PReshape Prop_Scaling.
#[local] Existing Instance RNum.
Open Scope R_scope.
Open Scope nat_scope.

(** ** vocabulary *)
(** same shape, same entries (the classes may differ) *)
Definition same_entries (a b : matrix) : Prop :=
  m_nr a = m_nr b /\ m_nc a = m_nc b /\ forall i j, i < m_nr a -> j < m_nc a -> ment a i j = ment b i j.
(** same decision: the same exception, or results with the same entries *)
Definition alike (x y : res matrix) : Prop :=
  match x, y with
  | Ok a, Ok b => mwf a /\ mwf b /\ same_entries a b
  | Err e, Err e' => e = e'
  | _, _ => False
  end.
(** a dense and a sparse matrix holding the same entries *)
Definition twins (d : dmat) (c : csr) : Prop := mwf (MD d) /\ mwf (MS c) /\ same_entries (MD d) (MS c).

Lemma same_entries_dense a b : mwf a -> mwf b -> same_entries a b -> to_dense a = to_dense b.
Proof. intros Ha Hb (R1&C1&E). apply dense_eq_ment; assumption. Qed.
Lemma twins_vals d c : twins d c -> vals (MD d) TDense (d_nr d) (d_nc d) (dent d) /\ vals (MS c) TSparse (d_nr d) (d_nc d) (dent d) /\ s_nr c = d_nr d /\ s_nc c = d_nc d.
Proof.
  intros (Wd & Wc & R1 & C1 & E). cbn in R1, C1, E. split; [apply (vals_self (MD d)), Wd|]. split; [|auto].
  split; [split; [exact Wc|split; [reflexivity|split; [exact (eq_sym R1)|exact (eq_sym C1)]]]|]. intros i j Hi Hj. symmetry. apply E; assumption.
Qed.
Lemma alike_vals a b t t' r c f : vals a t r c f -> vals b t' r c f -> alike (Ok a) (Ok b).
Proof.
  intros ((Wa&_&Ra&Ca)&Ea) ((Wb&_&Rb&Cb)&Eb). cbn. split; [exact Wa|]. split; [exact Wb|]. split; [congruence|]. split; [congruence|].
  rewrite Ra, Ca. intros i j Hi Hj. rewrite Ea, Eb by assumption. reflexivity.
Qed.
(** an operation determined by the class, the dense content, and a class-independent guard *)
Lemma alike_of_dense t t' d : dwfm d -> alike (Ok (of_dense t d)) (Ok (of_dense t' d)).
Proof.
  intros H. apply (alike_vals _ _ t t' (d_nr d) (d_nc d) (dent d)); rewrite <- (tab_dent d H) at 1; destruct H as (H1&H2&_); apply vals_of_dense; assumption.
Qed.

(** *** C24 (unary operations, row and column access, scalings, norms, tests) *)
Theorem C24_unary : forall d c, twins d c ->
  alike (Ok (m_neg (MD d))) (Ok (m_neg (MS c))) /\
  (forall x, alike (Ok (m_scal x (MD d))) (Ok (m_scal x (MS c)))) /\
  (forall x, alike (m_div (MD d) x) (m_div (MS c) x)) /\
  alike (Ok (m_transpose (MD d))) (Ok (m_transpose (MS c))) /\
  alike (Ok (m_plog (MD d))) (Ok (m_plog (MS c))) /\
  alike (Ok (m_to_non_negative (MD d))) (Ok (m_to_non_negative (MS c))) /\
  alike (Ok (m_get_non_negative (MD d))) (Ok (m_get_non_negative (MS c))) /\
  alike (Ok (m_to_ones (MD d))) (Ok (m_to_ones (MS c))) /\
  (forall eps, alike (Ok (m_remove_small (MD d) eps)) (Ok (m_remove_small (MS c) eps))).
Proof.
  intros d c H. pose proof H as (Wd & Wc & _). destruct (twins_vals d c H) as (Vd & Vc & _).
  pose proof (vals_dense_eq _ _ _ _ _ _ _ Vd Vc) as ED.
  split; [eapply alike_vals; eapply vals_neg; eassumption|].
  split; [intros x; eapply alike_vals; eapply vals_scal; eassumption|].
  split.
  { intros x. unfold m_div. destruct (negb (feqb x f0)); cbn [check bind]; [|reflexivity]. rewrite ED.
    apply alike_of_dense, wf_d_map, to_dense_wf, Wc. }
  split; [eapply alike_vals; eapply vals_transpose; eassumption|].
  split; [eapply alike_vals; eapply vals_plog; eassumption|].
  split.
  { eapply alike_vals; [exact (vals_map_raw pos_part pos_part _ _ _ _ _ Vd pos_part_0 (fun x => eq_refl))|].
    apply (vals_map_raw pos_part clip0 _ _ _ _ _ Vc clip0_0). intros x. unfold clip0, pos_part. cbn [fltb f0 RNum]. unfold Rltb.
    destruct (Rlt_dec x 0), (Rlt_dec 0 x); lra. }
  split; [eapply alike_vals; eapply vals_get_non_negative; eassumption|].
  split.
  { eapply alike_vals; [exact (vals_map_raw one_pos one_pos _ _ _ _ _ Vd ltac:(unfold one_pos; cbn [fltb f0 RNum]; unfold Rltb; destruct (Rlt_dec 0 0); [lra|reflexivity]) (fun x => eq_refl))|].
    apply (vals_map_raw one_pos one_pos _ _ _ _ _ Vc); [|reflexivity]. unfold one_pos; cbn [fltb f0 RNum]; unfold Rltb; destruct (Rlt_dec 0 0); [lra|reflexivity]. }
  intros eps. assert (K0 : keep_gt eps (IZR 0) = IZR 0) by (unfold keep_gt; destruct (fltb eps (IZR 0)); reflexivity).
  eapply alike_vals; [exact (vals_map_raw (keep_gt eps) (keep_gt eps) _ _ _ _ _ Vd K0 (fun x => eq_refl))|exact (vals_map_raw (keep_gt eps) (keep_gt eps) _ _ _ _ _ Vc K0 (fun x => eq_refl))].
Qed.

Theorem C24_access : forall d c, twins d c ->
  (forall i, alike (m_get_row (MD d) i) (m_get_row (MS c) i)) /\
  (forall ids, alike (m_get_rows (MD d) ids) (m_get_rows (MS c) ids)) /\
  (forall ids, alike (m_get_cols (MD d) ids) (m_get_cols (MS c) ids)) /\
  (forall v, alike (m_scale_rows (MD d) v) (m_scale_rows (MS c) v)) /\
  (forall v, alike (m_scale_cols (MD d) v) (m_scale_cols (MS c) v)).
Proof.
  intros d c H. pose proof H as (Wd & Wc & _). destruct (twins_vals d c H) as (Vd & Vc & R1 & C1).
  pose proof (vals_dense_eq _ _ _ _ _ _ _ Vd Vc) as ED. pose proof (to_dense_wf _ Wc) as Wdc.
  split.
  { intros i. destruct (py_index (d_nr d) i) as [k|] eqn:E.
    - destruct (m_get_row_any (MD d) i k Wd E) as (z & -> & Z). destruct (m_get_row_any (MS c) i k Wc) as (z' & -> & Z'); [cbn; rewrite R1; exact E|].
      rewrite ED in Z. eapply alike_vals; [apply is_mat_vals, Z|apply is_mat_vals, Z'].
    - rewrite (m_get_row_none (MD d) i Wd E). rewrite (m_get_row_none (MS c) i Wc); [reflexivity|]. cbn. rewrite R1. exact E. }
  split.
  { intros ids. unfold m_get_rows. cbn [m_nr]. rewrite R1. destruct (py_indices (d_nr d) ids) as [ks|e]; cbn [bind]; [|reflexivity].
    destruct (Nat.eqb_spec (length ks) 0); cbn [negb check bind]; [reflexivity|]. rewrite ED. apply alike_of_dense, wf_d_rows; [exact Wdc|lia]. }
  split.
  { intros ids. unfold m_get_cols. cbn [m_nc]. rewrite C1. destruct (forallb _ _); cbn [check bind]; [|reflexivity].
    destruct (Nat.eqb_spec (length ids) 0); cbn [negb check bind]; [reflexivity|]. rewrite ED. apply alike_of_dense, wf_d_cols; [exact Wdc|lia]. }
  split.
  { intros v. unfold m_scale_rows. cbn [m_nr]. rewrite R1. destruct (Nat.eqb _ _); cbn [check bind]; [|reflexivity]. rewrite ED. apply alike_of_dense, wf_d_scale_rows, Wdc. }
  intros v. unfold m_scale_cols. cbn [m_nc]. rewrite C1. destruct (Nat.eqb _ _); cbn [check bind]; [|reflexivity]. rewrite ED. apply alike_of_dense, wf_d_scale_cols, Wdc.
Qed.

Theorem C24_binary : forall d c d' c', twins d c -> twins d' c' ->
  alike (m_multiply (MD d) (MD d')) (m_multiply (MS c) (MS c')) /\
  alike (m_mul (MD d) (MD d')) (m_mul (MS c) (MS c')) /\
  alike (m_vstack (MD d) (MD d')) (m_vstack (MS c) (MS c')) /\
  alike (m_hstack (MD d) (MD d')) (m_hstack (MS c) (MS c')).
Proof.
  intros d c d' c' H H'. pose proof H as (Wd & Wc & _). pose proof H' as (Wd' & Wc' & _).
  destruct (twins_vals d c H) as (Vd & Vc & R1 & C1). destruct (twins_vals d' c' H') as (Vd' & Vc' & R1' & C1').
  pose proof (vals_dense_eq _ _ _ _ _ _ _ Vd Vc) as ED. pose proof (vals_dense_eq _ _ _ _ _ _ _ Vd' Vc') as ED'.
  pose proof (to_dense_wf _ Wc) as Wdc. pose proof (to_dense_wf _ Wc') as Wdc'.
  split.
  { unfold m_multiply, same_type, same_shapeb. cbn [type_of mtype_eqb check bind m_nr m_nc]. rewrite R1, C1, R1', C1'.
    destruct (_ && _); cbn [check bind]; [|reflexivity]. rewrite ED, ED'. apply alike_of_dense, wf_d_map2, Wdc. }
  split.
  { unfold m_mul, same_type. cbn [type_of mtype_eqb check bind m_nr m_nc]. rewrite C1, R1'. destruct (Nat.eqb _ _); cbn [check bind]; [|reflexivity].
    rewrite ED, ED'. apply alike_of_dense, wf_d_mul; assumption. }
  split.
  { unfold m_vstack, same_type. cbn [type_of mtype_eqb check bind m_nr m_nc]. rewrite C1, C1'. destruct (Nat.eqb _ _); cbn [check bind]; [|reflexivity].
    rewrite ED, ED'. apply alike_of_dense, wf_d_vstack; assumption. }
  unfold m_hstack, same_type. cbn [type_of mtype_eqb check bind m_nr m_nc]. rewrite R1, R1'. destruct (Nat.eqb _ _); cbn [check bind]; [|reflexivity].
  rewrite ED, ED'. apply alike_of_dense, wf_d_hstack; assumption.
Qed.

(** + and - : alike when the shapes agree; when they do not, see C60 (dense matrices broadcast, sparse ones refuse) *)
Theorem C24_add_sub_partial : forall d c d' c', twins d c -> twins d' c' -> d_nr d = d_nr d' -> d_nc d = d_nc d' ->
  alike (m_add (MD d) (MD d')) (m_add (MS c) (MS c')) /\ alike (m_sub (MD d) (MD d')) (m_sub (MS c) (MS c')).
Proof.
  intros d c d' c' H H' HR HC. destruct (twins_vals d c H) as (Vd & Vc & R1 & C1). destruct (twins_vals d' c' H') as (Vd' & Vc' & R1' & C1').
  rewrite <- HR, <- HC in Vd', Vc'.
  destruct (vals_add _ _ _ _ _ _ _ Vd Vd') as (z1 & -> & V1). destruct (vals_add _ _ _ _ _ _ _ Vc Vc') as (z2 & -> & V2).
  destruct (vals_sub _ _ _ _ _ _ _ Vd Vd') as (z3 & -> & V3). destruct (vals_sub _ _ _ _ _ _ _ Vc Vc') as (z4 & -> & V4).
  split; eapply alike_vals; eassumption.
Qed.

Theorem C24_reductions : forall d c, twins d c ->
  m_sum (MD d) = m_sum (MS c) /\ m_sum0 (MD d) = m_sum0 (MS c) /\ m_sum1 (MD d) = m_sum1 (MS c) /\
  m_norm (MD d) = m_norm (MS c) /\ m_norm0 (MD d) = m_norm0 (MS c) /\ m_norm1 (MD d) = m_norm1 (MS c) /\
  m_assert_positive (MD d) = m_assert_positive (MS c).
Proof.
  intros d c H. pose proof H as (Wd & Wc & HR & HC & HE). destruct (twins_vals d c H) as (Vd & Vc & R1 & C1).
  pose proof (vals_dense_eq _ _ _ _ _ _ _ Vd Vc) as ED.
  assert (W2 : dwfm (d_map2 fmul (to_dense (MS c)) (to_dense (MS c)))) by apply wf_d_map2, to_dense_wf, Wc.
  split; [unfold m_sum; rewrite ED; reflexivity|]. split; [unfold m_sum0; rewrite ED; reflexivity|]. split; [unfold m_sum1; rewrite ED; reflexivity|].
  split.
  { rewrite !m_norm_R by assumption. rewrite <- HR, <- HC. f_equal. apply rsum_ext. intros i Hi. apply rsum_ext. intros j Hj. rewrite HE by assumption. reflexivity. }
  split; [unfold m_norm0, m_sum0; rewrite ED; rewrite !to_dense_of_dense by exact W2; reflexivity|].
  split; [unfold m_norm1, m_sum1; rewrite ED; rewrite !to_dense_of_dense by exact W2; reflexivity|].
  destruct (assert_positive_iff (MD d) Wd) as (I1 & D1). destruct (assert_positive_iff (MS c) Wc) as (I2 & D2).
  destruct D1 as [E1|E1], D2 as [E2|E2]; try congruence; exfalso.
  - assert (m_assert_positive (MS c) = Ok tt); [|congruence]. apply I2. intros i j Hi Hj. rewrite <- HE by (rewrite ?HR, ?HC; assumption). apply I1; [exact E1|rewrite HR; exact Hi|rewrite HC; exact Hj].
  - assert (m_assert_positive (MD d) = Ok tt); [|congruence]. apply I1. intros i j Hi Hj. rewrite HE by assumption. apply I2; [exact E2|rewrite <- HR; exact Hi|rewrite <- HC; exact Hj].
Qed.

(** *** C53 (and the reshape part of C24) *)
(** row-major linear position *)
Definition cell_at (m : matrix) (p : nat) : R := ment m (p / m_nc m) (p mod m_nc m).
Theorem C53_reshape : forall c r' c', mwf (MS c) -> (Z.of_nat (s_nr c) * Z.of_nat (s_nc c) < 2 ^ 63)%Z ->
  match m_reshape (MS c) r' c' with
  | Ok z => r' * c' = s_nr c * s_nc c /\ mwf z /\ type_of z = TSparse /\ m_nr z = r' /\ m_nc z = c' /\
            forall p, p < r' * c' -> cell_at z p = cell_at (MS c) p
  | Err e => r' * c' <> s_nr c * s_nc c /\ e = ValueError
  end.
Proof.
  intros c r' c' Hc Hs. cbn [m_reshape]. unfold rmap. destruct (Nat.eq_dec (s_nr c * s_nc c) (r' * c')) as [E|E].
  - destruct (s_reshape_value c r' c' Hc Hs E) as (z & -> & Wz & Rz & Cz & Ez). cbn [bind]. split; [auto|]. split; [exact Wz|]. split; [reflexivity|].
    split; [exact Rz|]. split; [exact Cz|]. intros p Hp. unfold cell_at. cbn [ment m_nc]. rewrite Cz. assert (0 < c') by nia.
    rewrite Ez; [|apply Nat.div_lt_upper_bound; lia|apply Nat.mod_upper_bound; lia].
    replace (p / c' * c' + p mod c') with p by (rewrite (Nat.div_mod p c') at 1; lia). reflexivity.
  - rewrite s_reshape_reject by assumption. cbn. auto.
Qed.
Theorem C53_like_dense : forall d c r' c', twins d c -> (Z.of_nat (s_nr c) * Z.of_nat (s_nc c) < 2 ^ 63)%Z ->
  alike (m_reshape (MD d) r' c') (m_reshape (MS c) r' c').
Proof.
  intros d c r' c' H Hs. pose proof H as (Wd & Wc & HR & HC & HE). cbn [m_nr m_nc ment] in *. cbn [m_reshape]. unfold rmap.
  pose proof Wd as (P1 & P2 & _).
  destruct (Nat.eqb_spec (d_nr d * d_nc d) (r' * c')) as [E|E]; cbn [check bind].
  - destruct (s_reshape_value c r' c' Wc Hs) as (z & -> & Wz & Rz & Cz & Ez); [congruence|]. cbn [bind].
    assert (0 < r') by nia. assert (0 < c') by nia.
    apply (alike_vals _ _ TDense TSparse r' c' (fun i j => dent d ((i * c' + j) / d_nc d) ((i * c' + j) mod d_nc d))).
    + apply (vals_of_dense TDense r' c'); assumption.
    + split; [split; [exact Wz|split; [reflexivity|split; [exact Rz|exact Cz]]]|]. intros i j Hi Hj. cbn [ment]. rewrite Ez by assumption.
      rewrite <- HC. symmetry. apply HE; [|apply Nat.mod_upper_bound; lia]. apply Nat.div_lt_upper_bound; [lia|]. nia.
  - rewrite s_reshape_reject by congruence. reflexivity.
Qed.

(** *** C60 *)
Theorem C60_add_sub_partial : forall a b, mwf a -> mwf b -> type_of a = type_of b ->
  (m_nr a = m_nr b -> m_nc a = m_nc b ->
     exists s d, m_add a b = Ok s /\ m_sub a b = Ok d /\ result_of a s (fun i j => ment a i j + ment b i j)%R /\ result_of a d (fun i j => ment a i j - ment b i j)%R) /\
  (type_of a = TSparse -> ~ (m_nr a = m_nr b /\ m_nc a = m_nc b) -> m_add a b = Err ValueError /\ m_sub a b = Err ValueError) /\
  (* dense: only numpy's broadcasting rule is enforced *)
  (type_of a = TDense -> (m_nr a <> m_nr b /\ m_nr a <> 1 /\ m_nr b <> 1 \/ m_nc a <> m_nc b /\ m_nc a <> 1 /\ m_nc b <> 1) ->
     m_add a b = Err ValueError /\ m_sub a b = Err ValueError).
Proof.
  intros a b Ha Hb HT. split; [|split].
  - intros HR HC. pose proof (vals_self a Ha) as Va. pose proof (vals_self b Hb) as Vb. rewrite <- HT, <- HR, <- HC in Vb.
    destruct (vals_add _ _ _ _ _ _ _ Va Vb) as (s & -> & Vs). destruct (vals_sub _ _ _ _ _ _ _ Va Vb) as (d & -> & Vd).
    exists s, d. split; [reflexivity|]. split; [reflexivity|]. split; apply vals_result; assumption.
  - intros TS HN. unfold m_add, m_sub, m_zip. rewrite same_type_same by assumption. cbn [bind]. destruct a as [?|c]; [discriminate|].
    assert (E : same_shapeb (MS c) b = false). { destruct (same_shapeb (MS c) b) eqn:E; [|reflexivity]. apply same_shapeb_iff in E. contradiction. }
    rewrite E. auto.
  - intros TD HN. destruct a as [d|?]; [|discriminate]. destruct b as [d'|?]; [|discriminate]. cbn [m_nr m_nc] in *.
    unfold m_add, m_sub, m_zip. cbn. unfold d_bcast. 
    assert (bcast_dim (d_nr d) (d_nr d') = None \/ bcast_dim (d_nc d) (d_nc d') = None) as [-> | K].
    { unfold bcast_dim. destruct HN as [(A1&A2&A3)|(A1&A2&A3)]; [left|right]; apply Nat.eqb_neq in A1, A2, A3; rewrite A1, A2, A3; reflexivity. }
    + auto.
    + rewrite K. destruct (bcast_dim (d_nr d) (d_nr d')); auto.
Qed.
(** a dense 1x2 matrix plus a dense 2x2 matrix is accepted; the sparse twins raise ValueError *)
Definition m12 : matrix := MD (@DM RNum 1 2 [[1;2]])%R.
Definition m22' : matrix := MD (@DM RNum 2 2 [[1;2];[3;4]])%R.
Theorem C60_refuted : exists z, mwf m12 /\ mwf m22' /\ m_nr m12 <> m_nr m22' /\ m_add m12 m22' = Ok z /\ m_nr z = 2 /\
  m_add (conv TSparse m12) (conv TSparse m22') = Err ValueError.
Proof.
  eexists. split; [repeat split; cbn; try lia; repeat constructor|]. split; [repeat split; cbn; try lia; repeat constructor|].
  split; [cbn; lia|]. split; [reflexivity|]. split; [reflexivity|]. unfold m_add, m_zip. reflexivity.
Qed.

(** *** C25 *)
(** number of cells of an r x c grid satisfying a test *)
Fixpoint count_upto (n : nat) (p : nat -> bool) : nat := match n with O => 0 | S k => count_upto k p + (if p k then 1 else 0) end.
Fixpoint total_upto (n : nat) (f : nat -> nat) : nat := match n with O => 0 | S k => total_upto k f + f k end.
Definition count_cells (m : matrix) (p : R -> bool) : nat := total_upto (m_nr m) (fun i => count_upto (m_nc m) (fun j => p (ment m i j))).
Definition positive (x : R) : bool := Rltb 0 x.
Definition nonzero (x : R) : bool := negb (Reqb x 0).

Lemma count_app {A} (p : A -> bool) l l' : count p (l ++ l') = count p l + count p l'.
Proof. unfold count. rewrite filter_app, app_length. reflexivity. Qed.
Lemma total_upto_ext n f g : (forall i, i < n -> f i = g i) -> total_upto n f = total_upto n g.
Proof. induction n as [|n IH]; cbn; intros H; [reflexivity|]. rewrite IH, H by (intros; auto; apply H; lia). reflexivity. Qed.
Lemma count_upto_ext n f g : (forall i, i < n -> f i = g i) -> count_upto n f = count_upto n g.
Proof. induction n as [|n IH]; cbn; intros H; [reflexivity|]. rewrite IH, H by (intros; auto; apply H; lia). reflexivity. Qed.
Lemma count_concat_seq {A} (p : A -> bool) (f : nat -> list A) n : count p (concat (map f (seq 0 n))) = total_upto n (fun i => count p (f i)).
Proof. induction n as [|n IH]; [reflexivity|]. rewrite seq_S, map_app, concat_app, count_app, IH. cbn. rewrite app_nil_r. reflexivity. Qed.
Lemma count_map_seq {A} (p : A -> bool) (f : nat -> A) n : count p (map f (seq 0 n)) = count_upto n (fun i => p (f i)).
Proof. induction n as [|n IH]; [reflexivity|]. rewrite seq_S, map_app, count_app, IH. cbn. unfold count. cbn. destruct (p (f n)); reflexivity. Qed.
Lemma count_dense d p : mwf (MD d) -> count p (d_list d) = count_cells (MD d) p.
Proof.
  intros H. cbn in H. rewrite <- (tab_dent d H) at 1. unfold d_list, tab. cbn [d_dat]. rewrite count_concat_seq. unfold count_cells. cbn [m_nr m_nc ment].
  apply total_upto_ext. intros i Hi. apply count_map_seq.
Qed.
Lemma count_upto_split n k p q : (k < n) -> q k = false -> (forall i, i <> k -> p i = q i) -> count_upto n p = count_upto n q + (if p k then 1 else 0).
Proof.
  intros Hk Hq H. induction n as [|n IH]; [lia|]. cbn. destruct (Nat.eq_dec k n) as [->|Hne].
  - rewrite Hq. rewrite (count_upto_ext n p q); [lia|]. intros i Hi. apply H. lia.
  - rewrite IH by lia. rewrite (H n) by lia. lia.
Qed.
Lemma count_row (p : R -> bool) (r : list (nat * R)) n : p 0%R = false -> NoDup (map fst r) -> Forall (fun q => fst q < n) r ->
  count p (map snd r) = count_upto n (fun j => p (rval r j)).
Proof.
  intros H0. induction r as [|[k v] t IH]; cbn [map]; intros Hn Hf.
  - assert (E : forall m, count_upto m (fun j => p (rval [] j)) = 0).
    { induction m as [|m IHm]; [reflexivity|]. cbn [count_upto]. rewrite IHm. unfold rval. cbn [rlookup]. change (@f0 RNum) with 0%R. rewrite H0. reflexivity. }
    symmetry. apply E.
  - inversion Hn as [|? ? Hni Hn']; subst. inversion Hf as [|? ? Hk Hf']; subst. cbn [fst snd] in *.
    change (v :: map snd t) with ([v] ++ map snd t). rewrite count_app, IH by assumption.
    rewrite (count_upto_split n k (fun j => p (rval ((k, v) :: t) j)) (fun j => p (rval t j))).
    + unfold rval at 3. cbn [rlookup]. rewrite Nat.eqb_refl. unfold count. cbn. destruct (p v); cbn; lia.
    + exact Hk.
    + unfold rval. rewrite (proj2 (rlookup_None t k)) by assumption. exact H0.
    + intros i Hi. unfold rval. cbn [rlookup]. rewrite (proj2 (Nat.eqb_neq _ _)) by assumption. reflexivity.
Qed.
Lemma count_data c p : mwf (MS c) -> p 0%R = false -> count p (s_data c) = count_cells (MS c) p.
Proof.
  intros H H0. cbn in H. rewrite data_concat by assumption. unfold srows. rewrite map_map, count_concat_seq. unfold count_cells. cbn [m_nr m_nc ment].
  apply total_upto_ext. intros i Hi. unfold sent. apply count_row; [exact H0|apply H; exact Hi|apply srow_cols; assumption].
Qed.
Lemma half_lt a b : Nat.ltb (b / 2) a = true <-> b < 2 * a.
Proof. rewrite Nat.ltb_lt. pose proof (Nat.div_mod b 2 ltac:(lia)). pose proof (Nat.mod_upper_bound b 2 ltac:(lia)). lia. Qed.
Lemma count_true {A} (l : list A) p : (forall x, In x l -> p x = true) -> count p l = length l.
Proof. intros H. unfold count. induction l as [|x t IH]; [reflexivity|]. cbn. rewrite H by (left; reflexivity). cbn. rewrite IH; [reflexivity|]. intros; apply H; right; assumption. Qed.

(** what is_mostly_positive really computes: more than half of the *cells* (dense) or of the *stored values* (sparse) are
    positive *)
Theorem C25_mostly_positive_dense : forall d, mwf (MD d) ->
  (m_is_mostly_positive (MD d) = true <-> d_nr d * d_nc d < 2 * count_cells (MD d) positive).
Proof. intros d H. cbn [m_is_mostly_positive]. rewrite half_lt. rewrite <- (count_dense d positive H). reflexivity. Qed.
(** the English claim holds for sparse matrices without explicit zeros and for dense matrices without zeros *)
Theorem C25_mostly_positive_partial :
  (forall c, mwf (MS c) -> (forall x, In x (s_data c) -> x <> 0%R) ->
    (m_is_mostly_positive (MS c) = true <-> count_cells (MS c) nonzero < 2 * count_cells (MS c) positive)) /\
  (forall d, mwf (MD d) -> (forall i j, i < d_nr d -> j < d_nc d -> dent d i j <> 0%R) ->
    (m_is_mostly_positive (MD d) = true <-> count_cells (MD d) nonzero < 2 * count_cells (MD d) positive)).
Proof.
  split.
  - intros c H Hz. cbn [m_is_mostly_positive]. rewrite half_lt.
    assert (P0 : positive 0%R = false) by (unfold positive, Rltb; destruct (Rlt_dec 0 0); [lra|reflexivity]).
    assert (N0 : nonzero 0%R = false) by (unfold nonzero, Reqb; destruct (Req_EM_T 0 0); [reflexivity|contradiction]).
    rewrite <- (count_data c positive H P0). assert (E : count_cells (MS c) nonzero = length (s_data c)); [|rewrite E; reflexivity].
    rewrite <- (count_data c nonzero H N0). apply count_true. intros x Hx. unfold nonzero. apply negb_true_iff. unfold Reqb.
    destruct (Req_EM_T x 0) as [K|K]; [exfalso; exact (Hz x Hx K)|reflexivity].
  - intros d H Hz. rewrite C25_mostly_positive_dense by assumption.
    assert (E : count_cells (MD d) nonzero = d_nr d * d_nc d); [|rewrite E; reflexivity].
    rewrite <- (count_dense d nonzero H). etransitivity; [apply count_true|].
    2:{ pose proof H as (_&_&Hl&Hf). unfold d_list. rewrite <- Hl. clear Hl. induction (d_dat d) as [|x t IH]; [reflexivity|]. cbn. rewrite app_length.
      inversion Hf as [|? ? Hx Ht]; subst. specialize (IH Ht). change (@length R x = d_nc d) in Hx. change (@length R (concat t) = length t * d_nc d) in IH. change (@length R x + @length R (concat t) = d_nc d + length t * d_nc d). lia. }
    intros x Hx. apply In_d_list in Hx; [|exact H]. destruct Hx as (i & j & Hi & Hj & ->). unfold nonzero. apply negb_true_iff. unfold Reqb.
      destruct (Req_EM_T (dent d i j) 0) as [K|K]; [exfalso; apply (Hz i j Hi Hj K)|reflexivity].
Qed.
(** [[1,0,0]]: its only non-zero entry is positive, the sparse version says yes and the dense version says no *)
Definition m13 : @dmat RNum := (@DM RNum 1 3 [[1;0;0]])%R.
Definition m13s : @csr RNum := (@CSR RNum 1 3 [1%R] [0] [0;1]).
Theorem C25_refuted : twins m13 m13s /\ count_cells (MD m13) nonzero < 2 * count_cells (MD m13) positive /\
  m_is_mostly_positive (MD m13) = false /\ m_is_mostly_positive (MS m13s) = true.
Proof.
  assert (W : mwf (MD m13)) by (repeat split; cbn; try lia; repeat constructor).
  assert (K : positive 1%R = true /\ positive 0%R = false /\ nonzero 1%R = true /\ nonzero 0%R = false).
  { unfold positive, nonzero, Rltb, Reqb. destruct (Rlt_dec 0 1), (Rlt_dec 0 0), (Req_EM_T 1 0), (Req_EM_T 0 0); try lra; auto. }
  destruct K as (K1&K2&K3&K4).
  split; [|split; [|split]].
  - split; [exact W|]. split.
    + repeat split; cbn; try lia; repeat constructor; intros [|?] ?; cbn; try lia. repeat constructor; cbn; auto.
    + split; [reflexivity|]. split; [reflexivity|]. cbn. intros i j Hi Hj. assert (i = 0) by lia. subst. destruct j as [|[|[|j]]]; try lia; reflexivity.
  - unfold count_cells, m13. cbn. rewrite K1, K2, K3, K4. cbn. lia.
  - apply not_true_is_false. rewrite C25_mostly_positive_dense by exact W. unfold count_cells, m13. cbn. rewrite K1, K2. cbn. lia.
  - cbn. unfold count. cbn. change (Rltb 0 1) with (positive 1). rewrite K1. reflexivity.
Qed.

(** |x - y| <= 1e-8 + 1e-5 |y| for all cells (dense); |x - y| <= 1e-8 for all cells (sparse) *)
Lemma close1_R a b : close1 a b = true <-> (Rabs (a - b) <= 1 / 100000000 + 1 / 100000 * Rabs b)%R.
Proof.
  assert (A : forall x : R, fabs x = Rabs x).
  { intros x. unfold fabs. cbn [fltb fopp f0 RNum]. unfold Rltb. destruct (Rlt_dec x 0); [rewrite Rabs_left; lra|rewrite Rabs_right; lra]. }
  unfold close1. rewrite fleb_R. cbn [fsub fadd fmul RNum]. rewrite !A. unfold atol, rtol. cbn [fdiv f1 fofZ RNum]. reflexivity.
Qed.
Theorem C25_all_close_dense : forall x y, mwf (MD x) -> mwf (MD y) -> d_nr x = d_nr y -> d_nc x = d_nc y ->
  exists b, m_all_close (MD x) (MD y) = Ok b /\
  (b = true <-> forall i j, i < d_nr x -> j < d_nc x -> (Rabs (dent x i j - dent y i j) <= 1 / 100000000 + 1 / 100000 * Rabs (dent y i j))%R).
Proof.
  intros x y Hx Hy HR HC. cbn [m_all_close]. rewrite d_bcast_same by assumption. cbn [bind]. eexists. split; [reflexivity|].
  assert (W : dwfm (d_map2 (fun u v => if close1 u v then f1 else f0) x y)) by apply wf_d_map2, Hx.
  assert (B : forall u v, feqb (if close1 u v then @f1 RNum else f0) f1 = close1 u v).
  { intros u v. destruct (close1 u v); [apply feqb_refl|]. apply feqb_neq. cbn. lra. }
  rewrite forallb_forall. split.
  - intros K i j Hi Hj. apply close1_R. rewrite <- B. apply K. apply In_d_list; [exact W|]. exists i, j. split; [exact Hi|]. split; [exact Hj|].
    unfold d_map2. rewrite dent_tab by assumption. reflexivity.
  - intros K u Hu. apply In_d_list in Hu; [|exact W]. destruct Hu as (i & j & Hi & Hj & ->). unfold d_map2 in *. cbn [tab d_nr d_nc] in Hi, Hj.
    rewrite dent_tab by assumption. rewrite B. apply close1_R. apply K; assumption.
Qed.
Theorem C25_all_close_sparse : forall x y, mwf (MS x) -> mwf (MS y) -> s_nr x = s_nr y -> s_nc x = s_nc y ->
  exists b, m_all_close (MS x) (MS y) = Ok b /\
  (b = true <-> forall i j, i < s_nr x -> j < s_nc x -> (Rabs (sent x i j - sent y i j) <= 1 / 100000000)%R).
Proof.
  intros x y Hx Hy HR HC. cbn [m_all_close]. rewrite (proj2 (same_shapeb_iff (MS x) (MS y)) (conj HR HC)). cbn [check bind]. eexists. split; [reflexivity|].
  assert (W0 : dwfm (d_map2 fsub (dense_of x) (dense_of y))) by apply wf_d_map2, dense_of_wf, Hx.
  pose proof (csr_of_dense_wf _ W0) as W.
  assert (P : forall u : R, close1 u f0 = true <-> (Rabs u <= 1 / 100000000)%R).
  { intros u. rewrite close1_R. change (@f0 RNum) with 0%R. rewrite Rabs_R0, Rminus_0_r. split; intros; lra. }
  rewrite forallb_forall.
  rewrite (data_forall_ent (fun u => close1 u f0 = true) _ W) by (apply P; change (@f0 RNum) with 0%R; rewrite Rabs_R0; lra).
  rewrite csr_of_dense_nr. change (s_nc (csr_of_dense (d_map2 fsub (dense_of x) (dense_of y)))) with (s_nc x). change (d_nr (d_map2 fsub (dense_of x) (dense_of y))) with (s_nr x).
  assert (V : forall i j, i < s_nr x -> j < s_nc x -> sent (csr_of_dense (d_map2 fsub (dense_of x) (dense_of y))) i j = (sent x i j - sent y i j)%R).
  { intros i j Hi Hj. rewrite sent_csr_of_dense by assumption. unfold d_map2. rewrite dent_tab by assumption. rewrite !dent_dense_of by (congruence || lia). reflexivity. }
  split; intros K i j Hi Hj; specialize (K i j Hi Hj); [apply P in K; rewrite V in K by assumption; exact K|]. apply P. rewrite V by assumption. exact K.
Qed.
(** hence a sparse yes implies a dense yes, but not conversely *)
Theorem C25_all_close_partial : forall d c d' c', twins d c -> twins d' c' -> d_nr d = d_nr d' -> d_nc d = d_nc d' ->
  m_all_close (MS c) (MS c') = Ok true -> m_all_close (MD d) (MD d') = Ok true.
Proof.
  intros d c d' c' H H' HR HC K. pose proof H as (W1 & W2 & E1 & E2 & E3). pose proof H' as (W1' & W2' & E1' & E2' & E3'). cbn [m_nr m_nc ment] in *.
  destruct (C25_all_close_sparse c c' W2 W2') as (b & Eb & Hb); [congruence|congruence|].
  destruct (C25_all_close_dense d d' W1 W1' HR HC) as (b' & Eb' & Hb'). rewrite Eb'. rewrite Eb in K. injection K as K.
  f_equal. apply Hb'. intros i j Hi Hj. rewrite E3, E3' by lia. pose proof (proj1 Hb K i j ltac:(lia) ltac:(lia)) as L.
  pose proof (Rabs_pos (sent c' i j)). lra.
Qed.
Definition mone : @dmat RNum := (@DM RNum 1 1 [[1]])%R.
Definition mone' : @dmat RNum := (@DM RNum 1 1 [[1 + 1 / 200000]])%R.
Definition mones : @csr RNum := (@CSR RNum 1 1 [1%R] [0] [0;1]).
Definition mones' : @csr RNum := (@CSR RNum 1 1 [1 + 1 / 200000]%R [0] [0;1]).
Theorem C25_all_close_refuted : twins mone mones /\ twins mone' mones' /\
  m_all_close (MD mone') (MD mone) = Ok true /\ m_all_close (MS mones') (MS mones) = Ok false.
Proof.
  assert (T : forall x, twins (@DM RNum 1 1 [[x]]) (@CSR RNum 1 1 [x] [0] [0;1])).
  { intros x. split; [repeat split; cbn; try lia; repeat constructor|]. split.
    - repeat split; cbn; try lia; repeat constructor; intros [|?] ?; cbn; try lia. repeat constructor; cbn; auto.
    - split; [reflexivity|]. split; [reflexivity|]. cbn. intros i j Hi Hj. assert (i = 0) by lia. assert (j = 0) by lia. subst. reflexivity. }
  split; [apply T|]. split; [apply T|]. pose proof (T 1%R) as (W1&W2&_). pose proof (T (1 + 1 / 200000)%R) as (W3&W4&_). split.
  - destruct (C25_all_close_dense mone' mone W3 W1 eq_refl eq_refl) as (b & -> & Hb). f_equal. apply Hb. cbn. intros i j Hi Hj.
    assert (i = 0) by lia. assert (j = 0) by lia. subst. unfold dent; cbn. rewrite !Rabs_right; lra.
  - destruct (C25_all_close_sparse mones' mones W4 W2 eq_refl eq_refl) as (b & -> & Hb). f_equal. apply not_true_is_false. rewrite Hb. intros K.
    specialize (K 0 0 ltac:(cbn; lia) ltac:(cbn; lia)). cbn in K. rewrite Rabs_right in K; lra.
Qed.

(** *** examples: the hypotheses are met *)
Example twins_ex : twins m13 m13s /\ (Z.of_nat (s_nr m13s) * Z.of_nat (s_nc m13s) < 2 ^ 63)%Z.
Proof. split; [apply C25_refuted|]. cbn. lia. Qed.
(** a sparse matrix with more than 2^31 cells satisfies C53's hypotheses *)
Example C53_large : exists c : @csr RNum, mwf (MS c) /\ (2 ^ 31 < Z.of_nat (s_nr c) * Z.of_nat (s_nc c) < 2 ^ 63)%Z.
Proof.
  set (n := Z.to_nat (2 ^ 32)). exists (@CSR RNum 1 n [] [] [0;0]). assert (Hn : Z.of_nat n = (2 ^ 32)%Z) by (unfold n; rewrite Z2Nat.id; lia).
  split; [|cbn [s_nr s_nc]; rewrite Hn; lia].
  cbn [mwf]. unfold swf. cbn [s_nr s_nc s_ptr s_data s_ind]. split; [lia|]. split; [lia|]. split; [reflexivity|]. split; [reflexivity|].
  split; [intros i Hi; assert (i = 0) by lia; subst; cbn; lia|]. split; [reflexivity|]. split; [reflexivity|]. split; [constructor|].
  intros i Hi. assert (i = 0) by lia. subst. constructor.
Qed.
