(** Prop_RoundSel.v -- property C105: which columns feature selection keeps when sums and norms are computed with rounding errors. *)
From Coq Require Import Reals Lra Psatz.
From Verif Require Import Base PyList Dict Num SpecReal Dense Sparse Matrix PSparse PMatrix PMatOps PShape PVals PReal PSort PPos Scaling Linalg Operation Similarity Space
  Peripheral SpecSpace PDictList PSpace Prop_Space Prop_Scaling Prop_Counts Round PRound Prop_Round.
Open Scope R_scope.

(** sel is the list of the k best of n columns up to a factor x: min(k,n) distinct columns, and no column listed later, or dropped, has a score
    above x times that of one listed earlier *)
Record nearly_best (x : R) (n k : nat) (score : nat -> R) (sel : list nat) : Prop := {
  nb_length : length sel = Nat.min k n;
  nb_distinct : NoDup sel;
  nb_range : forall j, In j sel -> (j < n)%nat;
  nb_order : forall a b, (a < b < length sel)%nat -> score (nth b sel O) <= score (nth a sel O) * x;
  nb_dropped : forall q j, (q < n)%nat -> ~ In q sel -> In j sel -> score q <= score j * x }.
(** the exact choice is clear up to a factor x: each column kept has more than x times the score of the later ones and of the dropped ones *)
Definition clear_by (x : R) (n k : nat) (score : nat -> R) : Prop := forall sel, best_columns n k score sel ->
  (forall a b, (a < b < length sel)%nat -> score (nth b sel O) * x < score (nth a sel O)) /\
  (forall q j, (q < n)%nat -> ~ In q sel -> In j sel -> score q * x < score j).
(** the number of rounding errors of the score of a column, computed from entries with k of them *)
Definition score_errors (c : crit) (nr k : nat) : nat := match c with CSum => k + nr | CLength => S (k + S (S nr) / 2) end.

Section Sel.
Context (o : ops) (t tl : R) (SM : standard o t tl).
Local Notation FN := (FNum o).
Let Ht : 1 <= t := st_t _ _ _ SM.

Lemma near_norm0 k m e j : @approx o t k m e -> (j < @m_nc RNum e)%nat ->
  near t (S (k + S (S (@m_nr RNum e)) / 2)) (nth j (@m_norm0 FN m) 0) (nth j (@m_norm0 RNum e) 0).
Proof.
  intros A Hi. pose proof A as (AT & AR & AC & AW & EW & G).
  assert (Hp : (0 < @m_nr RNum e /\ 0 < @m_nc RNum e)%nat) by (apply mwf_pos, EW). destruct Hp as (Hr & Hc).
  rewrite (nth_m_norm0_R e j EW Hi). unfold m_norm0.
  assert (L : (j < length (@m_sum0 FN (@of_dense FN (@type_of FN m) (@d_map2 FN (@fmul FN) (to_dense m) (to_dense m)))))%nat).
  { rewrite (@len_sum0 FN). rewrite (@of_dense_nc FN). cbn [d_map2 tab d_nc]. rewrite (@to_dense_nc FN). lia. }
  rewrite (nth_indep _ 0 (o_sqrt o 0)) by (rewrite map_length; exact L). rewrite (map_nth (o_sqrt o)).
  apply (near_fsqrt o t tl SM); [apply rsum_nonneg; intros; apply Rle_0_sqr|].
  assert (V : @vals FN (@of_dense FN (@type_of FN m) (@d_map2 FN (@fmul FN) (to_dense m) (to_dense m))) (@type_of FN m) (@m_nr FN m) (@m_nc FN m) (fun i j => @fmul FN (@dent FN (to_dense m) i j) (@dent FN (to_dense m) i j))).
  { unfold d_map2. rewrite (@to_dense_nr FN), (@to_dense_nc FN). apply (@vals_of_dense FN); congruence. }
  rewrite AR, AC in V. pose proof (@vals_sum0 FN _ _ _ _ _ j V Hi) as S1. change (@f0 FN) with 0 in S1.
  refine (eq_ind_r (fun z : R => near t _ z _) _ S1).
  apply (near_mono t Ht (S (2 * k) + @m_nr RNum e)); [pose proof (half_le (S (@m_nr RNum e))); lia|].
  apply (near_sumn o t tl SM). intros i Hi'. split; [apply Rle_0_sqr|].
  rewrite (@dent_to_dense FN) by congruence. apply (near_fsq o t tl SM k (fent m i j)). apply G; assumption.
Qed.
(** computed scores *)
Lemma near_score c k m e j : @approx o t k m e -> (c = CSum -> nonneg e) -> (j < @m_nc RNum e)%nat ->
  near t (score_errors c (@m_nr RNum e) k) (nth j (@fs_norms FN c m) 0) (col_score c e j) /\ 0 <= col_score c e j.
Proof.
  intros A P Hj. pose proof A as (_ & _ & _ & _ & EW & _). rewrite <- (fs_norms_score c e j EW Hj).
  destruct c; cbn [fs_norms score_errors]; [apply (near_sum0 o t tl SM); auto|]. split; [apply near_norm0; assumption|]. rewrite (nth_m_norm0_R e j EW Hj). apply sqrt_pos.
Qed.
Lemma near_le k a b a' b' : near t k a a' -> near t k b b' -> 0 <= a' -> 0 <= b' -> a <= b -> a' <= b' * t ^ (2 * k).
Proof.
  intros A B PA PB H. apply (near_bounds t Ht) in A; [|exact PA]. apply (near_bounds t Ht) in B; [|exact PB].
  pose proof (tpow_pos t Ht k) as T. replace (2 * k)%nat with (k + k)%nat by lia. rewrite pow_add.
  apply Rmult_le_reg_r with (r := / t ^ k); [apply Rinv_0_lt_compat, T|]. replace (b' * (t ^ k * t ^ k) * / t ^ k) with (b' * t ^ k) by (field; lra). unfold Rdiv in A. lra.
Qed.
Lemma near_lt k a b a' b' : near t k a a' -> near t k b b' -> 0 <= a' -> 0 <= b' -> a' * t ^ (2 * k) < b' -> a < b.
Proof. intros A B PA PB H. destruct (Rlt_le_dec a b) as [|L]; [assumption|]. pose proof (near_le k b a b' a' B A PB PA L). lra. Qed.

(** the columns kept are the best ones up to the rounding errors of two scores, and their entries are carried over *)
Theorem C105_selection : forall c K k m e, @approx o t k m e -> (c = CSum -> nonneg e) -> (0 < K)%nat ->
  exists z sel, @topfs_apply FN c K m = Ok (z, sel) /\
    nearly_best (t ^ (2 * score_errors c (@m_nr RNum e) k)) (@m_nc RNum e) K (col_score c e) sel /\
    @mwf FN z /\ @type_of FN z = @type_of FN m /\ @m_nr FN z = @m_nr FN m /\ @m_nc FN z = length sel /\
    (forall i a, (i < @m_nr FN m)%nat -> (a < length sel)%nat -> fent z i a = fent m i (nth a sel O)).
Proof.
  intros c K k m e A P HK. pose proof A as (AT & AR & AC & AW & EW & G). unfold topfs_apply. fold (@fs_norms FN c m). rewrite AC.
  set (keys := @fs_norms FN c m). set (x := t ^ _). change (@sorted_permutation FN keys) with (@sorted_permutation RNum keys).
  assert (LK : length keys = @m_nc RNum e) by (unfold keys; rewrite (@fs_norms_length FN); exact AC).
  pose proof (firstn_best keys (@m_nc RNum e) K (fun j => nth j keys 0) LK (fun _ _ => eq_refl)) as B. set (sel := firstn _ _) in *.
  assert (NS : forall j, (j < @m_nc RNum e)%nat -> near t (score_errors c (@m_nr RNum e) k) (nth j keys 0) (col_score c e j) /\ 0 <= col_score c e j) by (intros; apply near_score; assumption).
  destruct (@mwf_pos FN m AW) as (_ & Hc).
  destruct (@vals_get_cols FN m _ _ _ _ sel (@vals_self FN m AW)) as (z & E & V).
  { apply Forall_forall. rewrite AC. apply B. }
  { rewrite (bc_length _ _ _ _ B). lia. }
  exists z, sel. rewrite E. cbn [bind]. split; [reflexivity|]. split.
  - split.
    + apply B.
    + apply B.
    + apply B.
    + intros a b Hab. destruct (bc_order _ _ _ _ B a b Hab) as (L & _). assert (I1 : In (nth a sel O) sel) by (apply nth_In; lia). assert (I2 : In (nth b sel O) sel) by (apply nth_In; lia).
      apply (bc_range _ _ _ _ B) in I1, I2. destruct (NS _ I1) as (N1 & P1). destruct (NS _ I2) as (N2 & P2). exact (near_le _ _ _ _ _ N2 N1 P2 P1 L).
    + intros q j Hq Hn Hi. destruct (bc_dropped _ _ _ _ B q j Hq Hn Hi) as (L & _). apply (bc_range _ _ _ _ B) in Hi. destruct (NS _ Hi) as (N1 & P1). destruct (NS _ Hq) as (N2 & P2). exact (near_le _ _ _ _ _ N2 N1 P2 P1 L).
  - destruct V as ((W & T & R1 & C1) & He). repeat (split; [assumption|]). exact He.
Qed.
(** what is kept is what the computed scores say *)
Lemma topfs_rounded c K m z sel : @topfs_apply FN c K m = Ok (z, sel) -> best_columns (@m_nc FN m) K (fun j => nth j (@fs_norms FN c m) 0) sel.
Proof.
  intros Q. unfold topfs_apply in Q. fold (@fs_norms FN c m) in Q. set (keys := @fs_norms FN c m) in *. change (@sorted_permutation FN keys) with (@sorted_permutation RNum keys) in Q.
  destruct (@m_get_cols FN m _) as [w|] eqn:Ew in Q; [|discriminate Q]. cbn [bind] in Q.
  assert (QS : sel = firstn (Nat.min K (@m_nc FN m)) (@sorted_permutation RNum keys)) by congruence. rewrite QS. apply firstn_best; [apply (@fs_norms_length FN)|reflexivity].
Qed.
(** when the exact choice is clear by more than those errors, the rounded run makes the same one *)
Theorem C105_same : forall c K k m e, @approx o t k m e -> (c = CSum -> nonneg e) -> (0 < K)%nat ->
  clear_by (t ^ (2 * score_errors c (@m_nr RNum e) k)) (@m_nc RNum e) K (col_score c e) ->
  exists z z' sel, @topfs_apply FN c K m = Ok (z, sel) /\ @topfs_apply RNum c K e = Ok (z', sel) /\ approx t k z z' /\ (nonneg e -> nonneg z').
Proof.
  intros c K k m e A P HK CL. pose proof A as (AT & AR & AC & AW & EW & G).
  destruct (C20_selection c K e EW HK) as (z' & sel & E' & B & W' & T' & R' & C' & X'). destruct (CL sel B) as (CO & CD).
  destruct (C105_selection c K k m e A P HK) as (z & sel2 & E2 & NB & W2 & T2 & R2 & C2 & X2).
  set (keys := @fs_norms FN c m) in *. assert (LK : length keys = @m_nc RNum e) by (unfold keys; rewrite (@fs_norms_length FN); exact AC).
  assert (NS : forall j, (j < @m_nc RNum e)%nat -> near t (score_errors c (@m_nr RNum e) k) (nth j keys 0) (col_score c e j) /\ 0 <= col_score c e j) by (intros; apply near_score; assumption).
  assert (B2 : best_columns (@m_nc RNum e) K (fun j => nth j keys 0) sel2) by (rewrite <- AC; exact (topfs_rounded c K m z sel2 E2)).
  assert (B1 : best_columns (@m_nc RNum e) K (fun j => nth j keys 0) sel).
  { split.
    - apply B.
    - apply B.
    - apply B.
    - intros a b Hab. assert (I1 : In (nth a sel O) sel) by (apply nth_In; lia). assert (I2 : In (nth b sel O) sel) by (apply nth_In; lia).
      apply (bc_range _ _ _ _ B) in I1, I2. destruct (NS _ I1) as (N1 & P1). destruct (NS _ I2) as (N2 & P2). pose proof (near_lt _ _ _ _ _ N2 N1 P2 P1 (CO a b Hab)). split; [lra|intros Q; exfalso; lra].
    - intros q j Hq Hn Hi. pose proof (CD q j Hq Hn Hi) as L. apply (bc_range _ _ _ _ B) in Hi. destruct (NS _ Hi) as (N1 & P1). destruct (NS _ Hq) as (N2 & P2). pose proof (near_lt _ _ _ _ _ N2 N1 P2 P1 L). split; [lra|intros Q; exfalso; lra]. }
  assert (ES : sel2 = sel) by (apply (best_columns_unique (@m_nc RNum e) K (fun j => nth j keys 0) (fun j => nth j keys 0) sel sel2 1); [lra|intros; lra|exact B1|exact B2]). subst sel2.
  exists z, z', sel. split; [exact E2|]. split; [exact E'|].
  assert (RG : forall a, (a < length sel)%nat -> (nth a sel O < @m_nc RNum e)%nat) by (intros a Ha; apply (bc_range _ _ _ _ B), nth_In, Ha).
  split.
  - split; [congruence|]. split; [congruence|]. split; [congruence|]. split; [exact W2|]. split; [exact W'|]. rewrite R', C'. intros i a Hi Ha. rewrite X2 by (rewrite ?AR; assumption). 
    refine (eq_ind_r (fun y : R => near t k _ y) _ (X' i a Hi Ha)). apply G; auto.
  - intros PP i a Hi Ha. rewrite R' in Hi. rewrite C' in Ha. refine (eq_ind_r (fun y : R => 0 <= y) _ (X' i a Hi Ha)). apply PP; auto.
Qed.
End Sel.
