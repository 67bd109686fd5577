(** Prop_Round.v -- properties C79-C80: what rounding does to the scalings and to the similarities. *)
From Coq Require Import Reals Lra Psatz.
From Verif Require Import Base PyList Num SpecReal Dense Sparse Matrix PSparse PMatrix PMatOps PShape PVals PReal PPos Scaling Round PRound.
Open Scope R_scope.

Section Scalings.
Context (o : ops) (t tl : R) (SM : standard o t tl).
Local Notation FN := (FNum o).
Let Ht : 1 <= t := st_t _ _ _ SM.
Let Htl : 1 <= tl := st_tl _ _ _ SM.

(** column marginals known up to b rounding errors *)
Definition marg_near (b : nat) (n : nat) (l l' : list R) : Prop :=
  length l = n /\ length l' = n /\ forall j, (j < n)%nat -> 0 <= nth j l' 0 /\ near t b (nth j l 0) (nth j l' 0).

Lemma nth_inv0 {N : Num} (l : list F) i : nth i (nonzero_invert l) f0 = finv0 (nth i l f0).
Proof.
  unfold nonzero_invert. assert (Z : finv0 f0 = f0) by (unfold finv0; rewrite feqb_refl; reflexivity). rewrite <- Z at 1. apply map_nth.
Qed.
Lemma finv0_nonneg (x : R) : 0 <= x -> 0 <= @finv0 RNum x.
Proof.
  intros H. unfold finv0. change (@f0 RNum) with 0. change (@feqb RNum) with Reqb. destruct (Reqb x 0) eqn:E; [lra|].
  change (0 <= 1 / x). destruct (Req_dec x 0) as [->|Hn]; [assert (Reqb 0 0 = true) by (apply Reqb_eq; reflexivity); congruence|].
  apply Rlt_le, Rdiv_lt_0_compat; lra.
Qed.

Lemma epmi_round a b m e l l' mg mg' : approx t a m e -> nonneg e -> marg_near b (@m_nc RNum e) l l' ->
  match mg with Some c => c | None => @m_sum0 FN m end = l -> match mg' with Some c => c | None => @m_sum0 RNum e end = l' ->
  exists m' e', @epmi_apply FN m mg = Ok m' /\ @epmi_apply RNum e mg' = Ok e' /\ approx t (2 * a + 2 * b + 2 * @m_nc RNum e + 5) m' e' /\ nonneg e' /\
    @type_of RNum e' = @type_of RNum e /\ @m_nr RNum e' = @m_nr RNum e /\ @m_nc RNum e' = @m_nc RNum e.
Proof.
  intros A P (L1 & L2 & HM) Em Em'. pose proof A as (AT & AR & AC & AW & EW & G). unfold epmi_apply. rewrite (approx_pos o t tl SM _ _ _ A).
  rewrite (proj2 (proj1 (assert_positive_iff e EW)) P). cbn [bind]. rewrite Em, Em'. destruct (approx_vals o t _ _ _ A) as (V & W).
  set (r := @m_nr RNum e) in *. set (c := @m_nc RNum e) in *.
  destruct (@vals_scale_rows FN _ _ _ _ _ (@nonzero_invert FN (@m_sum1 FN m)) V) as (m1 & E1 & V1); [unfold nonzero_invert; rewrite map_length, len_sum1; exact AR|].
  destruct (@vals_scale_rows RNum _ _ _ _ _ (@nonzero_invert RNum (@m_sum1 RNum e)) W) as (e1 & F1 & W1); [unfold nonzero_invert; rewrite map_length, len_sum1; reflexivity|].
  rewrite E1, F1. cbn [bind].
  destruct (@vals_scale_cols FN _ _ _ _ _ (map (fun x => @fmul FN x (@suml FN l)) (@nonzero_invert FN l)) V1) as (m2 & E2 & V2); [unfold nonzero_invert; rewrite !map_length; exact L1|].
  destruct (@vals_scale_cols RNum _ _ _ _ _ (map (fun x => @fmul RNum x (@suml RNum l')) (@nonzero_invert RNum l')) W1) as (e2 & F2 & W2); [unfold nonzero_invert; rewrite !map_length; exact L2|].
  rewrite E2, F2. exists m2, e2. split; [reflexivity|]. split; [reflexivity|].
  assert (TOT : near t (b + c) (@suml FN l) (@suml RNum l')).
  { pose proof (near_suml o t tl SM b l l' ltac:(congruence)) as K. rewrite L2 in K. apply K. exact HM. }
  assert (TP : 0 <= @suml RNum l').
  { rewrite suml_fold_right. clear -HM L2. assert (H : forall j, (j < length l')%nat -> 0 <= nth j l' 0) by (intros j Hj; apply HM; lia). clear HM L2.
    induction l' as [|x xs IH]; cbn; [lra|]. pose proof (H O ltac:(cbn; lia)) as H0. cbn in H0. specialize (IH ltac:(intros j Hj; apply (H (S j)); cbn; lia)). lra. }
  assert (NF : forall j, nth j (map (fun x => @fmul FN x (@suml FN l)) (@nonzero_invert FN l)) 0 = nth j (map (fun x => @fmul FN x (@suml FN l)) (@nonzero_invert FN l)) (@f0 FN)) by reflexivity.
  assert (CF : forall j, (j < c)%nat -> nth j (map (fun x => @fmul FN x (@suml FN l)) (@nonzero_invert FN l)) (@f0 FN) = o_mul o (@finv0 FN (nth j l 0)) (@suml FN l)).
  { intros j Hj. rewrite (nth_indep _ (@f0 FN) ((fun x => @fmul FN x (@suml FN l)) (@f0 FN))) by (unfold nonzero_invert; rewrite !map_length; exact (eq_ind_r (fun n => (j < n)%nat) Hj L1)).
    rewrite (map_nth (fun x => @fmul FN x (@suml FN l))). rewrite (@nth_inv0 FN). reflexivity. }
  assert (CR : forall j, (j < c)%nat -> nth j (map (fun x => @fmul RNum x (@suml RNum l')) (@nonzero_invert RNum l')) (@f0 RNum) = (@finv0 RNum (nth j l' 0) * @suml RNum l')).
  { intros j Hj. rewrite (nth_indep _ (@f0 RNum) ((fun x => @fmul RNum x (@suml RNum l')) (@f0 RNum))) by (unfold nonzero_invert; rewrite !map_length; exact (eq_ind_r (fun n => (j < n)%nat) Hj L2)).
    rewrite (map_nth (fun x => @fmul RNum x (@suml RNum l'))). rewrite (@nth_inv0 RNum). reflexivity. }
  pose proof (vals_has _ _ _ _ _ W2) as (_ & T2 & R2 & C2).
  split; [|split; [|auto]].
  - refine (vals_approx o t _ _ _ _ _ _ _ _ V2 W2 _). intros i j Hi Hj. cbn beta. rewrite (CF j Hj), (CR j Hj), (@nth_inv0 FN), (@nth_inv0 RNum).
    apply (near_mono t Ht (S (S (a + S (a + c)) + S (S b + (b + c))))); [lia|]. apply (near_fmul o t tl SM).
    + apply (near_fmul o t tl SM); [apply G; assumption|]. apply (near_finv0 o t tl SM). apply (near_sum1 o t tl SM); assumption.
    + apply (near_fmul o t tl SM); [|exact TOT]. apply (near_finv0 o t tl SM). apply HM. exact Hj.
  - intros i j Hi Hj. rewrite R2 in Hi. rewrite C2 in Hj. rewrite (vals_ent _ _ _ _ _ i j W2 Hi Hj), (CR j Hj), (@nth_inv0 RNum).
    apply Rmult_le_pos; [apply Rmult_le_pos; [apply P; assumption|]|apply Rmult_le_pos; [|exact TP]]; apply finv0_nonneg; [|apply HM; exact Hj].
    pose proof (nth_m_sum1_R e i Hi) as S1. change (@f0 RNum) with 0. rewrite S1. apply rsum_nonneg. intros q Hq. apply P; assumption.
Qed.
End Scalings.

Section Scalings2.
Context (o : ops) (t tl : R) (SM : standard o t tl).
Local Notation FN := (FNum o).
Let Ht : 1 <= t := st_t _ _ _ SM.
Let Htl : 1 <= tl := st_tl _ _ _ SM.

Lemma data_le (c : @csr FN) : @swf FN c -> (length (s_data c) <= s_nr c * s_nc c)%nat.
Proof.
  intros W. pose proof (@data_concat FN c W) as E. apply (f_equal (@length _)) in E. rewrite E. unfold srows. clear E.
  assert (K : forall l, (forall i, In i l -> (i < s_nr c)%nat) -> (length (concat (map (map snd) (map (@srow FN c) l))) <= length l * s_nc c)%nat).
  { induction l as [|i l IH]; intros Hl; [reflexivity|]. cbn [map concat length]. rewrite app_length, map_length. specialize (IH ltac:(intros; apply Hl; right; assumption)).
    assert (Hi : (i < s_nr c)%nat) by (apply Hl; left; reflexivity).
    assert (L : (length (@srow FN c i) <= s_nc c)%nat); [|lia].
    rewrite <- (map_length fst), <- (seq_length (s_nc c) 0). apply NoDup_incl_length; [apply W; exact Hi|]. intros j Hj. apply in_map_iff in Hj. destruct Hj as (p & <- & Hp).
    pose proof (@srow_cols FN c i W Hi) as Hf. rewrite Forall_forall in Hf. specialize (Hf p Hp). apply in_seq. lia. }
  specialize (K (seq 0 (s_nr c))). rewrite seq_length in K. apply K. intros i Hi. apply in_seq in Hi. lia.
Qed.
Lemma stored_le (m : @matrix FN) : @mwf FN m -> (stored o m <= @m_nr FN m * @m_nc FN m + @m_nr FN m + @m_nc FN m)%nat.
Proof. destruct m as [d|c]; cbn [stored m_nr m_nc mwf]; intros W; [lia|]. pose proof (data_le c W). lia. Qed.

(** number of rounding errors in an entry of the scaled matrix, for r rows and c columns when the given entries have a of them *)
Definition rounding_errors (s : scaling) (r c a : nat) : nat :=
  match s with
  | Epmi => 4 * a + 2 * (r + c) + 5
  | RowNorm CSum => 2 * a + c + 2
  | RowNorm CLength => 2 * a + (c + 2) / 2 + 3
  | Norm CSum => 2 * a + r + c + 2
  | Norm CLength => 2 * a + (r * c + r + c + 2) / 2 + 3
  | Ppmi | Plmi | Plog => 0
  end.
(** scalings without logarithm *)
Definition no_log (s : scaling) : bool := match s with Epmi | RowNorm _ | Norm _ => true | _ => false end.

Lemma sums_near a m e : @approx o t a m e -> nonneg e -> marg_near t (a + @m_nr RNum e) (@m_nc RNum e) (@m_sum0 FN m) (@m_sum0 RNum e).
Proof.
  intros A P. pose proof A as (_ & _ & AC & _). split; [rewrite (@len_sum0 FN); exact AC|]. split; [apply len_sum0|]. intros j Hj.
  destruct (near_sum0 o t tl SM _ _ _ j A P Hj). auto.
Qed.
Lemma rows_round a k m e v v' : @approx o t a m e -> nonneg e -> length v = @m_nr RNum e -> length v' = @m_nr RNum e ->
  (forall i, (i < @m_nr RNum e)%nat -> 0 <= nth i v' 0 /\ near t k (nth i v 0) (nth i v' 0)) ->
  exists m' e', @m_scale_rows FN m (@nonzero_invert FN v) = Ok m' /\ @m_scale_rows RNum e (@nonzero_invert RNum v') = Ok e' /\
    approx t (a + k + 2) m' e' /\ nonneg e' /\ @m_nr RNum e' = @m_nr RNum e /\ @m_nc RNum e' = @m_nc RNum e.
Proof.
  intros A P L1 L2 HV. pose proof A as (AT & AR & AC & AW & EW & G). destruct (approx_vals o t _ _ _ A) as (V & W).
  destruct (@vals_scale_rows FN _ _ _ _ _ (@nonzero_invert FN v) V) as (m1 & E1 & V1); [unfold nonzero_invert; rewrite map_length; exact L1|].
  destruct (@vals_scale_rows RNum _ _ _ _ _ (@nonzero_invert RNum v') W) as (e1 & F1 & W1); [unfold nonzero_invert; rewrite map_length; exact L2|].
  exists m1, e1. split; [exact E1|]. split; [exact F1|]. pose proof (vals_has _ _ _ _ _ W1) as (_ & T2 & R2 & C2). split; [|split; [|auto]].
  - refine (vals_approx o t _ _ _ _ _ _ _ _ V1 W1 _). intros i j Hi Hj. cbn beta. rewrite (@nth_inv0 FN), (@nth_inv0 RNum).
    replace (a + k + 2)%nat with (S (a + S k)) by lia. apply (near_fmul o t tl SM); [apply G; assumption|]. apply (near_finv0 o t tl SM). apply HV, Hi.
  - intros i j Hi Hj. rewrite R2 in Hi. rewrite C2 in Hj. rewrite (vals_ent _ _ _ _ _ i j W1 Hi Hj), (@nth_inv0 RNum).
    apply Rmult_le_pos; [apply P; assumption|]. apply finv0_nonneg. apply HV, Hi.
Qed.
Lemma whole_round a k m e x x' : @approx o t a m e -> nonneg e -> 0 <= x' -> near t k x x' ->
  exists m' e', (if @feqb FN x (@f0 FN) then Ok m else Ok (@m_scal FN (@fdiv FN (@f1 FN) x) m)) = Ok m' /\
    (if @feqb RNum x' (@f0 RNum) then Ok e else Ok (@m_scal RNum (@fdiv RNum (@f1 RNum) x') e)) = Ok e' /\
    approx t (a + k + 2) m' e' /\ nonneg e' /\ @m_nr RNum e' = @m_nr RNum e /\ @m_nc RNum e' = @m_nc RNum e.
Proof.
  intros A P X0 X. pose proof A as (AT & AR & AC & AW & EW & G). destruct (approx_vals o t _ _ _ A) as (V & W).
  assert (Z : @feqb FN x (@f0 FN) = @feqb RNum x' (@f0 RNum)).
  { change (Reqb x 0 = Reqb x' 0). pose proof (near_zero t Ht _ _ _ X) as K. rewrite <- !Reqb_eq in K. destruct (Reqb x 0), (Reqb x' 0); intuition congruence. }
  rewrite Z. destruct (@feqb RNum x' (@f0 RNum)) eqn:E.
  - exists m, e. do 2 (split; [reflexivity|]). split; [apply (approx_mono o t tl SM a); [lia|exact A]|auto].
  - assert (N0 : x' <> 0) by (intros ->; change (Reqb 0 0 = false) in E; assert (Reqb 0 0 = true) by (apply Reqb_eq; reflexivity); congruence).
    eexists. eexists. do 2 (split; [reflexivity|]). pose proof (@vals_scal FN (@fdiv FN (@f1 FN) x) _ _ _ _ _ V) as V1. pose proof (@vals_scal RNum (@fdiv RNum (@f1 RNum) x') _ _ _ _ _ W) as W1.
    pose proof (vals_has _ _ _ _ _ W1) as (_ & T2 & R2 & C2). split; [|split; [|auto]].
    + refine (vals_approx o t _ _ _ _ _ _ _ _ V1 W1 _). intros i j Hi Hj. replace (a + k + 2)%nat with (S (a + S (0 + k))) by lia.
      apply (near_fmul o t tl SM); [apply G; assumption|]. apply (near_fdiv o t tl SM 0 k 1 x 1 x'); [exact N0|apply near_refl, Ht|exact X].
    + intros i j Hi Hj. rewrite R2 in Hi. rewrite C2 in Hj. rewrite (vals_ent _ _ _ _ _ i j W1 Hi Hj). apply Rmult_le_pos; [apply P; assumption|].
      change (0 <= 1 / x'). apply Rlt_le, Rdiv_lt_0_compat; lra.
Qed.

(** ** C79 *)
(** Scaling a matrix of non-negative numbers without logarithm: the rounded computation returns what the exact computation returns, each
    entry up to the stated number of rounding errors. *)
Theorem C79_scaling : forall s a m e, no_log s = true -> @approx o t a m e -> nonneg e ->
  exists m' e', @scaling_apply FN s m None = Ok m' /\ @scaling_apply RNum s e None = Ok e' /\
    approx t (rounding_errors s (@m_nr RNum e) (@m_nc RNum e) a) m' e' /\ nonneg e' /\ @m_nr RNum e' = @m_nr RNum e /\ @m_nc RNum e' = @m_nc RNum e.
Proof.
  intros s a m e Hs A P. pose proof A as (AT & AR & AC & AW & EW & G). destruct s as [| | | |[]|[]]; try discriminate; cbn [scaling_apply rounding_errors].
  - destruct (epmi_round o t tl SM a (a + @m_nr RNum e) m e _ _ None None A P (sums_near a m e A P) eq_refl eq_refl) as (m' & e' & E1 & E2 & A' & P' & _ & R' & C').
    exists m', e'. do 2 (split; [assumption|]). split; [|auto]. refine (approx_mono o t tl SM _ _ _ _ _ A'); lia.
  - destruct (rows_round a (a + @m_nc RNum e) m e (@m_sum1 FN m) (@m_sum1 RNum e) A P) as (m' & e' & E1 & E2 & A' & P' & R' & C').
    + rewrite (@len_sum1 FN). exact AR.
    + apply len_sum1.
    + intros i Hi. split; [|apply (near_sum1 o t tl SM); assumption]. refine (eq_ind_r (fun z : R => 0 <= z) _ (nth_m_sum1_R e i Hi)). apply rsum_nonneg. intros; apply P; assumption.
    + exists m', e'. do 2 (split; [assumption|]). split; [|auto]. refine (approx_mono o t tl SM _ _ _ _ _ A'); lia.
  - assert (ev : ((@m_nc RNum e + 2) / 2 = S (S (@m_nc RNum e)) / 2)%nat) by (f_equal; lia). rewrite ev. clear ev.
    destruct (rows_round a (S (a + S (S (@m_nc RNum e)) / 2)) m e (@m_norm1 FN m) (@m_norm1 RNum e) A P) as (m' & e' & E1 & E2 & A' & P' & R' & C').
    + unfold m_norm1. rewrite map_length, (@len_sum1 FN). destruct m; cbn [of_dense type_of m_nr d_map2 tab d_nr csr_of_dense csr_of_rows s_nr to_dense dense_of] in *; rewrite ?map_length, ?seq_length; exact AR.
    + unfold m_norm1. rewrite map_length, len_sum1. destruct e; cbn [of_dense type_of m_nr d_map2 tab d_nr csr_of_dense csr_of_rows s_nr to_dense dense_of] in *; rewrite ?map_length, ?seq_length; reflexivity.
    + intros i Hi. split; [|apply (near_norm1 o t tl SM); assumption]. refine (eq_ind_r (fun z : R => 0 <= z) _ (nth_m_norm1_R e i EW Hi)). apply sqrt_pos.
    + exists m', e'. do 2 (split; [assumption|]). split; [|auto]. refine (approx_mono o t tl SM _ _ _ _ _ A'); lia.
  - destruct (whole_round a (a + @m_nc RNum e + @m_nr RNum e) m e (@m_sum FN m) (@m_sum RNum e) A P) as (m' & e' & E1 & E2 & A' & P' & R' & C').
    + refine (eq_ind_r (fun z : R => 0 <= z) _ (m_sum_R e)). apply rsum_nonneg. intros; apply rsum_nonneg; intros; apply P; assumption.
    + apply (near_sum o t tl SM); assumption.
    + exists m', e'. do 2 (split; [assumption|]). split; [|auto]. refine (approx_mono o t tl SM _ _ _ _ _ A'); lia.
  - destruct (whole_round a (S (a + S (S (stored o m)) / 2)) m e (@m_norm FN m) (@m_norm RNum e) A P) as (m' & e' & E1 & E2 & A' & P' & R' & C').
    + refine (eq_ind_r (fun z : R => 0 <= z) _ (m_norm_R e EW)). apply sqrt_pos.
    + apply (near_norm o t tl SM); assumption.
    + exists m', e'. do 2 (split; [assumption|]). split; [|auto]. refine (approx_mono o t tl SM _ _ _ _ _ A').
      pose proof (stored_le m AW) as SL. rewrite AR, AC in SL. pose proof (Nat.div_le_mono (S (S (stored o m))) (@m_nr RNum e * @m_nc RNum e + @m_nr RNum e + @m_nc RNum e + 2) 2 ltac:(lia) ltac:(lia)). lia.
Qed.
End Scalings2.

Section Logs.
Context (o : ops) (t tl : R) (SM : standard o t tl).
Local Notation FN := (FNum o).
Let Ht : 1 <= t := st_t _ _ _ SM.
Let Htl : 1 <= tl := st_tl _ _ _ SM.

(** a chain of scalings, one after the other *)
Definition all_scalings {N : Num} (ss : list scaling) (m : matrix) : res matrix := foldM (fun m s => scaling_apply s m None) ss m.
Theorem C79_chain : forall ss a m e, Forall (fun s => no_log s = true) ss -> @approx o t a m e -> nonneg e ->
  exists m' e', @all_scalings FN ss m = Ok m' /\ @all_scalings RNum ss e = Ok e' /\
    approx t (fold_left (fun k s => rounding_errors s (@m_nr RNum e) (@m_nc RNum e) k) ss a) m' e' /\ nonneg e'.
Proof.
  induction ss as [|s ss IH]; intros a m e Hs A P; cbn [all_scalings foldM fold_left].
  - exists m, e. auto.
  - inversion Hs as [|x l H1 H2]; subst. destruct (C79_scaling o t tl SM s a m e H1 A P) as (m1 & e1 & E1 & E2 & A1 & P1 & R1 & C1).
    unfold all_scalings. cbn [foldM]. rewrite E1, E2. cbn [bind]. rewrite <- R1, <- C1 in A1 |- *. apply (IH _ m1 e1 H2 A1 P1).
Qed.
(** ... and exactly the matrices the exact computation rejects are rejected *)
Theorem C79_rejects : forall s a m e, In s [Epmi; Ppmi; Plmi] -> @approx o t a m e -> ~ nonneg e ->
  @scaling_apply FN s m None = Err ValueError /\ @scaling_apply RNum s e None = Err ValueError.
Proof.
  intros s a m e Hs A P. pose proof A as (AT & AR & AC & AW & EW & G). destruct (assert_positive_iff e EW) as (I & [D|D]); [exfalso; apply P; intros i j Hi Hj; apply I; assumption|].
  pose proof (approx_pos o t tl SM _ _ _ A) as K. rewrite D in K. cbn [In] in Hs. destruct Hs as [<-|[<-|[<-|[]]]]; cbn [scaling_apply]; unfold plmi_apply, ppmi_apply, epmi_apply; rewrite K, D; auto.
Qed.
(** peripheral spaces: the marginals of the core space are given, up to b rounding errors *)
Theorem C79_peripheral : forall a b m e l l', @approx o t a m e -> nonneg e -> marg_near t b (@m_nc RNum e) l l' ->
  exists m' e', @scaling_apply FN Epmi m (Some (@SCol FN l)) = Ok m' /\ @scaling_apply RNum Epmi e (Some (@SCol RNum l')) = Ok e' /\
    approx t (2 * a + 2 * b + 2 * @m_nc RNum e + 5) m' e' /\ nonneg e'.
Proof.
  intros a b m e l l' A P M. destruct (epmi_round o t tl SM a b m e l l' (Some l) (Some l') A P M eq_refl eq_refl) as (m' & e' & E1 & E2 & A' & P' & _).
  exists m', e'. auto.
Qed.

(** *** logarithms *)
Definition fplog (x : R) : R := o_ln o (if Rlt_dec x 1 then 1 else x).
Lemma o_ln_1 : o_ln o 1 = 0.
Proof. destruct (st_ln _ _ _ SM 1 ltac:(lra)) as (q & _ & E). rewrite E, ln_1. ring. Qed.
Lemma fplog_d x : @dplog1 FN x = fplog x.
Proof. unfold dplog1, fplog. cbn [fltb f1 fln FNum]. unfold Rltb. destruct (Rlt_dec x 1); reflexivity. Qed.
Lemma fplog_s x : @splog1 FN x = fplog x.
Proof.
  unfold splog1, fplog, fleb. cbn [fltb f1 fln FNum]. unfold Rltb. destruct (Rlt_dec 1 x); cbn [negb]; destruct (Rlt_dec x 1); try reflexivity; try lra.
  f_equal. lra.
Qed.
Lemma vals_fplog m ty r c f : @vals FN m ty r c f -> @vals FN (@m_plog FN m) ty r c (fun i j => fplog (f i j)).
Proof.
  intros Hm. pose proof (@vals_has FN _ _ _ _ _ Hm) as (W & T & R1 & C1). destruct m as [d|s]; cbn in T, R1, C1; subst ty r c; cbn [m_plog].
  - eapply (@vals_is FN _ _ _ _ _ _ f (@d_map FN (@dplog1 FN) d) (fun _ _ x => fplog x)); [exact Hm| |reflexivity|reflexivity|].
    + repeat split; apply (@wf_d_map FN), W.
    + intros. unfold d_map. rewrite (@dent_tab FN) by assumption. apply fplog_d.
  - eapply (@vals_is FN _ _ _ _ _ _ f (@d_map FN (@splog1 FN) (@dense_of FN s)) (fun _ _ x => fplog x)); [exact Hm|apply (@smap_is FN); [exact W|]|reflexivity|reflexivity|].
    + change (@splog1 FN 0 = 0). rewrite fplog_s. unfold fplog. destruct (Rlt_dec 0 1); [apply o_ln_1|lra].
    + intros. unfold d_map. rewrite (@dent_tab FN) by assumption. apply fplog_s.
Qed.
Lemma ln_t : 0 <= ln t.
Proof. rewrite <- ln_1. destruct (Req_dec t 1) as [->|]; [lra|]. apply Rlt_le, ln_increasing; lra. Qed.
Lemma ln_tpow k : ln (t ^ k) = INR k * ln t.
Proof. rewrite <- Rpower_pow by lra. unfold Rpower. apply ln_exp. Qed.
Lemma ln_le x y : 0 < x -> x <= y -> ln x <= ln y.
Proof. intros Hx [H|H]; [apply Rlt_le, ln_increasing; assumption|subst; lra]. Qed.
Lemma fplog_near k x x' : near t k x' x -> Rabs (fplog x' - plogf x) <= tl * INR k * ln t + (tl - 1) * plogf x.
Proof.
  intros N. set (y := if Rlt_dec x 1 then 1 else x). set (y' := if Rlt_dec x' 1 then 1 else x').
  assert (Y1 : 1 <= y) by (unfold y; destruct (Rlt_dec x 1); lra). assert (Y1' : 1 <= y') by (unfold y'; destruct (Rlt_dec x' 1); lra).
  assert (PY : plogf x = ln y) by (unfold plogf, y; destruct (Rlt_dec x 1); [rewrite ln_1|]; reflexivity).
  pose proof (tpow_ge1 t Ht k) as TK. pose proof (tpow_pos t Ht k) as TP.
  assert (B : y / t ^ k <= y' <= y * t ^ k).
  { assert (D : y / t ^ k <= y) by (unfold Rdiv; rewrite <- (Rmult_1_r y) at 2; apply Rmult_le_compat_l; [lra|apply tinv_le1, Ht]).
    destruct (Rlt_dec x 1) as [L|L]; unfold y in *; unfold y' in *; destruct (Rlt_dec x' 1) as [L'|L'].
    - lra.
    - split; [lra|]. rewrite Rmult_1_l. destruct (Rle_dec 0 x) as [X0|X0]; [|apply near_neg in N; [lra|exact Ht|lra]].
      apply near_bounds in N; [|exact Ht|exact X0]. assert (x * t ^ k <= 1 * t ^ k) by (apply Rmult_le_compat_r; lra). lra.
    - split; [|nra]. apply near_bounds in N; [|exact Ht|lra]. lra.
    - apply near_bounds in N; [exact N|exact Ht|lra]. }
  assert (LN : Rabs (ln y' - ln y) <= INR k * ln t).
  { rewrite <- ln_tpow. apply Rabs_le. assert (U : ln y' <= ln y + ln (t ^ k)) by (rewrite <- ln_mult by lra; apply ln_le; lra).
    assert (L : ln y - ln (t ^ k) <= ln y').
    { apply Rle_trans with (ln (y / t ^ k)); [|apply ln_le; [apply Rdiv_lt_0_compat; lra|lra]]. unfold Rdiv. rewrite ln_mult, ln_Rinv; [lra|lra|lra|apply Rinv_0_lt_compat; lra]. }
    lra. }
  pose proof ln_t as LT. pose proof (pos_INR k) as KP.
  assert (L0 : 0 <= ln y) by (rewrite <- ln_1; apply ln_le; lra). assert (L0' : 0 <= ln y') by (rewrite <- ln_1; apply ln_le; lra).
  destruct (st_ln _ _ _ SM y' Y1') as (q & (Q1 & Q2) & Eq). change (fplog x') with (o_ln o y'). rewrite PY, Eq.
  assert (QB : Rabs (q - 1) <= tl - 1).
  { apply Rabs_le. rewrite pow_1 in Q1, Q2. split; [|lra]. assert (2 - tl <= / tl); [|lra].
    apply Rmult_le_reg_r with (r := tl); [lra|]. rewrite Rinv_l by lra. nra. }
  replace (ln y' * q - ln y) with (ln y' * (q - 1) + (ln y' - ln y)) by ring.
  apply Rle_trans with (1 := Rabs_triang _ _). rewrite Rabs_mult, (Rabs_right (ln y')) by lra.
  assert (ln y' <= ln y + INR k * ln t) by (pose proof (Rle_abs (ln y' - ln y)); lra).
  assert (ln y' * Rabs (q - 1) <= (ln y + INR k * ln t) * (tl - 1)) by (apply Rmult_le_compat; [lra|apply Rabs_pos|lra|exact QB]).
  nra.
Qed.

(** how far a logarithmic entry p may be off, when its argument carries k rounding errors *)
Definition log_error (k : nat) (p : R) : R := tl * INR k * ln t + (tl - 1) * p.
(** rounding errors in the argument of the logarithm *)
Definition arg_errors (s : scaling) (r c a : nat) : nat := match s with Plog => a | _ => rounding_errors Epmi r c a end.
(** plog and ppmi: absolute errors *)
Theorem C79_logarithm : forall s a m e, s = Plog \/ s = Ppmi /\ nonneg e -> @approx o t a m e ->
  exists m' e', @scaling_apply FN s m None = Ok m' /\ @scaling_apply RNum s e None = Ok e' /\
    @type_of FN m' = @type_of RNum e' /\ @m_nr FN m' = @m_nr RNum e' /\ @m_nc FN m' = @m_nc RNum e' /\ @m_nr RNum e' = @m_nr RNum e /\ @m_nc RNum e' = @m_nc RNum e /\ nonneg e' /\
    forall i j, (i < @m_nr RNum e)%nat -> (j < @m_nc RNum e)%nat ->
      Rabs (fent m' i j - @ment RNum e' i j) <= log_error (arg_errors s (@m_nr RNum e) (@m_nc RNum e) a) (@ment RNum e' i j).
Proof.
  assert (K : forall k m e, @approx o t k m e -> let m' := @m_plog FN m in let e' := @m_plog RNum e in
    @type_of FN m' = @type_of RNum e' /\ @m_nr FN m' = @m_nr RNum e' /\ @m_nc FN m' = @m_nc RNum e' /\ @m_nr RNum e' = @m_nr RNum e /\ @m_nc RNum e' = @m_nc RNum e /\ nonneg e' /\
    forall i j, (i < @m_nr RNum e)%nat -> (j < @m_nc RNum e)%nat -> Rabs (fent m' i j - @ment RNum e' i j) <= log_error k (@ment RNum e' i j)).
  { intros k m e A m' e'. destruct (approx_vals o t _ _ _ A) as (V & W). apply vals_fplog in V. apply vals_plog in W. fold m' in V. fold e' in W.
    pose proof (@vals_has FN _ _ _ _ _ V) as (_ & V2 & V3 & V4). pose proof (vals_has _ _ _ _ _ W) as (_ & W2 & W3 & W4).
    split; [congruence|]. split; [congruence|]. split; [congruence|]. split; [exact W3|]. split; [exact W4|]. split.
    - intros i j Hi Hj. rewrite W3 in Hi. rewrite W4 in Hj. rewrite (vals_ent _ _ _ _ _ i j W Hi Hj). apply plogf_nonneg.
    - intros i j Hi Hj. unfold fent. rewrite (@vals_ent FN _ _ _ _ _ i j V Hi Hj), (vals_ent _ _ _ _ _ i j W Hi Hj). apply fplog_near. apply A; assumption. }
  intros s a m e [-> | (-> & P)] A.
  - exists (@m_plog FN m), (@m_plog RNum e). split; [reflexivity|]. split; [reflexivity|]. apply (K a); exact A.
  - destruct (C79_scaling o t tl SM Epmi a m e eq_refl A P) as (m1 & e1 & E1 & E2 & A1 & P1 & R1 & C1). cbn [scaling_apply] in E1, E2 |- *. unfold ppmi_apply. rewrite E1, E2. cbn [bind].
    eexists. eexists. split; [reflexivity|]. split; [reflexivity|]. specialize (K _ m1 e1 A1). cbv zeta in K. rewrite R1, C1 in K. exact K.
Qed.
(** plmi: the entry x of the given matrix times the ppmi *)
Theorem C79_plmi : forall a m e, @approx o t a m e -> nonneg e ->
  exists m' e' p, @scaling_apply FN Plmi m None = Ok m' /\ @scaling_apply RNum Plmi e None = Ok e' /\ @scaling_apply RNum Ppmi e None = Ok p /\
    @type_of FN m' = @type_of RNum e' /\ @m_nr FN m' = @m_nr RNum e' /\ @m_nc FN m' = @m_nc RNum e' /\
    forall i j, (i < @m_nr RNum e)%nat -> (j < @m_nc RNum e)%nat ->
      @ment RNum e' i j = @ment RNum e i j * @ment RNum p i j /\
      Rabs (fent m' i j - @ment RNum e' i j) <=
        @ment RNum e i j * (t ^ S a * log_error (rounding_errors Epmi (@m_nr RNum e) (@m_nc RNum e) a) (@ment RNum p i j) + (t ^ S a - 1) * @ment RNum p i j).
Proof.
  intros a m e A P. destruct (C79_logarithm Ppmi a m e (or_intror (conj eq_refl P)) A) as (m1 & e1 & E1 & E2 & T1 & R1 & C1 & R2 & C2 & P1 & H1).
  cbn [scaling_apply] in E1, E2 |- *. unfold plmi_apply. rewrite E1, E2. cbn [bind]. destruct (approx_vals o t _ _ _ A) as (V & W). pose proof A as (AT & AR & AC & AW & EW & G).
  assert (W1 : @mwf FN m1 /\ @type_of FN m1 = @type_of RNum e).
  { pose proof (@ppmi_has FN m None m1 _ _ _ (@has_self FN m AW) E1) as (Q1 & Q2 & _). split; [exact Q1|congruence]. }
  assert (W1' : @mwf RNum e1 /\ @type_of RNum e1 = @type_of RNum e).
  { pose proof (@ppmi_has RNum e None e1 _ _ _ (has_self e EW) E2) as (Q1 & Q2 & _). auto. }
  destruct W1 as (W1 & TT1). destruct W1' as (W1' & TT1').
  assert (V1 : @vals FN m1 (@type_of RNum e) (@m_nr RNum e) (@m_nc RNum e) (fent m1)).
  { rewrite <- TT1, <- R2, <- C2, <- R1, <- C1. apply (@vals_self FN). exact W1. }
  assert (V1' : @vals RNum e1 (@type_of RNum e) (@m_nr RNum e) (@m_nc RNum e) (@ment RNum e1)).
  { rewrite <- TT1' at 1. rewrite <- R2, <- C2. apply vals_self. exact W1'. }
  destruct (@vals_multiply FN _ _ _ _ _ _ _ V V1) as (m2 & F2 & V2). destruct (@vals_multiply RNum _ _ _ _ _ _ _ W V1') as (e2 & G2 & W2).
  rewrite F2, G2. exists m2, e2, e1. do 3 (split; [reflexivity|]). pose proof (@vals_has FN _ _ _ _ _ V2) as (_ & V22 & V23 & V24). pose proof (vals_has _ _ _ _ _ W2) as (_ & W22 & W23 & W24).
  split; [congruence|]. split; [congruence|]. split; [congruence|]. intros i j Hi Hj. rewrite (vals_ent _ _ _ _ _ i j W2 Hi Hj). split; [reflexivity|].
  unfold fent at 1. rewrite (@vals_ent FN _ _ _ _ _ i j V2 Hi Hj). specialize (H1 i j Hi Hj). cbn [arg_errors] in H1.
  set (x := @ment RNum e i j) in *. set (p := @ment RNum e1 i j) in *. set (x' := fent m i j). set (p' := fent m1 i j) in *.
  assert (N : near t (S a) (o_mul o x' p') (x * p')).
  { replace (S a) with (S (a + 0)) by lia. apply (near_fmul o t tl SM); [apply G; assumption|apply near_refl, Ht]. }
  destruct N as (q & (Q1 & Q2) & Eq). change (@fmul FN x' p') with (o_mul o x' p'). change (@fmul RNum x p) with (x * p). rewrite Eq.
  assert (X0 : 0 <= x) by (apply P; assumption). assert (P0 : 0 <= p) by (apply P1; rewrite ?R2, ?C2; assumption).
  replace (x * p' * q - x * p) with (x * ((p' - p) * q + p * (q - 1))) by ring. rewrite Rabs_mult, (Rabs_right x) by lra. apply Rmult_le_compat_l; [exact X0|].
  apply Rle_trans with (1 := Rabs_triang _ _). rewrite !Rabs_mult. pose proof (tinv_pos t Ht (S a)) as TI. rewrite (Rabs_right q) by lra. rewrite (Rabs_right p) by lra.
  assert (QB : Rabs (q - 1) <= t ^ S a - 1).
  { apply Rabs_le. pose proof (tpow_ge1 t Ht (S a)). split; [|lra]. assert (2 - t ^ S a <= / t ^ S a); [|lra].
    apply Rmult_le_reg_r with (r := t ^ S a); [lra|]. rewrite Rinv_l by lra. nra. }
  apply Rplus_le_compat.
  - rewrite Rmult_comm. apply Rmult_le_compat; [lra|apply Rabs_pos|lra|exact H1].
  - rewrite Rmult_comm. apply Rmult_le_compat_r; assumption.
Qed.
End Logs.
