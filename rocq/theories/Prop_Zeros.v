(** Prop_Zeros.v -- property C106: words and contexts that never occur do not matter. *)
From Coq Require Import Reals Lra Psatz Permutation Sorted Ascii.
From Verif Require Import Base PyList Dict Num SpecReal Dense Sparse Matrix PSparse PMatrix PMatOps PShape PVals PReal PPos PSort Scaling Linalg Operation
  Similarity Space Peripheral SpecSpace PDictList PSpace Prop_Space Prop_Scaling Prop_Sim Prop_Neigh PMoved Prop_Periph PCols Prop_Order Prop_Counts Prop_Transpose Prop_Unit
  Learner Composition SpecComp PComp Prop_Comp Utils LexFun Str PStr IO SpecIO PIO Prop_IO Prop_Lines Prop_ColOrder.
#[local] Existing Instance RNum.
Local Open Scope R_scope.
Local Open Scope string_scope.
Local Open Scope list_scope.
Local Open Scope nat_scope.

(** ** specification *)
(** the number that a space holds for a word and a column label; 0 if it has no such row or no such column *)
Definition value (s : space) (w c : string) : R :=
  if in_dec string_dec w (s_id2row s) then
    if in_dec string_dec c (s_id2col s) then ment (s_mat s) (position w (s_id2row s)) (position c (s_id2col s)) else 0%R
  else 0%R.
(** the two spaces agree on every word and label, where a word or label that one of them lacks counts as all zeros there;
    rows and columns may come in any order, and each matrix may be dense or sparse *)
Record same_counts (s1 s2 : space) : Prop := {
  sc_ok1 : consistent s1;
  sc_ok2 : consistent s2;
  sc_lab1 : s_id2col s1 <> [];
  sc_lab2 : s_id2col s2 <> [];
  sc_dims : length (s_eshape s2) = length (s_eshape s1);
  sc_value : forall w c, value s2 w c = value s1 w c }.
(** the same exception, or results that agree *)
Definition same_results (x y : res space) : Prop :=
  match x, y with Ok a, Ok b => same_counts a b | Err e, Err e' => e = e' | _, _ => False end.
(** no column that a selection drops has the same score as one that it keeps, unless that score is zero *)
Definition clear_cut0 (c : crit) (k : nat) (m : matrix) : Prop :=
  forall sel a b, best_columns (m_nc m) k (col_score c m) sel -> In a sel -> b < m_nc m -> ~ In b sel -> col_score c m a <> 0%R -> col_score c m b <> col_score c m a.

(** ** sums over labels *)
Fixpoint lsum (L : list string) (g : string -> R) : R := match L with [] => 0%R | x :: L => (g x + lsum L g)%R end.
Lemma lsum_ext L g h : (forall x, In x L -> g x = h x) -> lsum L g = lsum L h.
Proof. induction L as [|x L IH]; cbn [lsum]; intros H; [reflexivity|]. rewrite (H x (or_introl eq_refl)), IH; [reflexivity|]. intros y Hy. apply H. right. exact Hy. Qed.
Lemma lsum_perm L M g : Permutation L M -> lsum L g = lsum M g.
Proof. induction 1; cbn [lsum]; try lra. Qed.
Lemma lsum_zero L g : (forall x, In x L -> g x = 0%R) -> lsum L g = 0%R.
Proof. induction L as [|x L IH]; cbn [lsum]; intros H; [reflexivity|]. rewrite (H x (or_introl eq_refl)), IH; [lra|]. intros y Hy. apply H. right. exact Hy. Qed.
Definition nonzero (g : string -> R) (x : string) : bool := if Req_EM_T (g x) 0 then false else true.
Lemma lsum_nonzero L g : lsum (filter (nonzero g) L) g = lsum L g.
Proof. induction L as [|x L IH]; cbn [filter lsum]; [reflexivity|]. unfold nonzero at 1. destruct (Req_EM_T (g x) 0) as [Z|Z]; cbn [lsum]; lra. Qed.
Lemma lsum_same L M g : NoDup L -> NoDup M -> (forall x, ~ In x L -> g x = 0%R) -> (forall x, ~ In x M -> g x = 0%R) -> lsum L g = lsum M g.
Proof.
  intros NL NM HL HM. rewrite <- (lsum_nonzero L), <- (lsum_nonzero M). apply lsum_perm, NoDup_Permutation; try (apply NoDup_filter; assumption).
  intros x. rewrite !filter_In. unfold nonzero. destruct (Req_EM_T (g x) 0) as [Z|Z]; [split; intros (_ & K); discriminate|].
  split; intros (_ & _); (split; [|reflexivity]).
  - destruct (in_dec string_dec x M) as [I0|I0]; [exact I0|]. exfalso. exact (Z (HM x I0)).
  - destruct (in_dec string_dec x L) as [I0|I0]; [exact I0|]. exfalso. exact (Z (HL x I0)).
Qed.
Lemma rsum_shift n f : rsum (S n) f = (f O + rsum n (fun i => f (S i)))%R.
Proof. induction n as [|n IH]; [cbn; lra|]. change (rsum (S (S n)) f) with (rsum (S n) f + f (S n))%R. rewrite IH. cbn [rsum]. lra. Qed.
Lemma rsum_labels L g f : (forall i x, nth_error L i = Some x -> f i = g x) -> rsum (length L) f = lsum L g.
Proof.
  revert f. induction L as [|x L IH]; intros f H; [reflexivity|]. cbn [length lsum]. rewrite rsum_shift, (H 0 x eq_refl). f_equal. apply IH. intros i y Hy. apply (H (S i) y Hy).
Qed.

(** ** values *)
Lemma position_at l i (w : string) : NoDup l -> nth_error l i = Some w -> position w l = i.
Proof.
  intros Nd H. apply (proj1 (NoDup_nth_error l) Nd); [apply nth_error_Some; rewrite (position_ok w l (nth_error_In _ _ H)); discriminate|]. rewrite H. apply position_ok. exact (nth_error_In _ _ H).
Qed.
Lemma value_at s i j w c : consistent s -> nth_error (s_id2row s) i = Some w -> nth_error (s_id2col s) j = Some c -> value s w c = ment (s_mat s) i j.
Proof.
  intros C Hi Hj. pose proof C as (_&_&_&(Nr&_)&_&(Nc&_)&_). unfold value.
  destruct (in_dec string_dec w (s_id2row s)) as [K|K]; [|exfalso; exact (K (nth_error_In _ _ Hi))]. destruct (in_dec string_dec c (s_id2col s)) as [K'|K']; [|exfalso; exact (K' (nth_error_In _ _ Hj))].
  rewrite (position_at _ i w Nr Hi), (position_at _ j c Nc Hj). reflexivity.
Qed.
Lemma value_no_word s w c : ~ In w (s_id2row s) -> value s w c = 0%R.
Proof. intros H. unfold value. destruct (in_dec string_dec w (s_id2row s)); [contradiction|reflexivity]. Qed.
Lemma value_no_label s w c : ~ In c (s_id2col s) -> value s w c = 0%R.
Proof. intros H. unfold value. destruct (in_dec string_dec w (s_id2row s)); [|reflexivity]. destruct (in_dec string_dec c (s_id2col s)); [contradiction|reflexivity]. Qed.
Lemma value_cases s w c : value s w c = 0%R \/ exists i j, nth_error (s_id2row s) i = Some w /\ nth_error (s_id2col s) j = Some c.
Proof.
  destruct (in_dec string_dec w (s_id2row s)) as [I1|I1]; [|left; apply value_no_word, I1]. destruct (in_dec string_dec c (s_id2col s)) as [I2|I2]; [|left; apply value_no_label, I2].
  right. apply In_nth_error in I1, I2. destruct I1 as (i & Hi), I2 as (j & Hj). eauto.
Qed.
Lemma row_label s i : consistent s -> i < m_nr (s_mat s) -> exists w, nth_error (s_id2row s) i = Some w.
Proof. intros (_&L&_) Hi. destruct (nth_error (s_id2row s) i) eqn:K; [eauto|]. apply nth_error_None in K. lia. Qed.
Lemma col_label s j : consistent s -> s_id2col s <> [] -> j < m_nc (s_mat s) -> exists c, nth_error (s_id2col s) j = Some c.
Proof. intros C Hl Hj. destruct (nth_error (s_id2col s) j) eqn:K; [eauto|]. apply nth_error_None in K. rewrite (labelled_width s C Hl) in Hj. lia. Qed.
Lemma row_bound s i w : consistent s -> nth_error (s_id2row s) i = Some w -> i < m_nr (s_mat s).
Proof. intros (_&L&_) H. rewrite <- L. exact (nth_error_lt _ _ _ H). Qed.
Lemma col_bound s j c : consistent s -> nth_error (s_id2col s) j = Some c -> j < m_nc (s_mat s).
Proof. intros C H. rewrite (labelled_width s C); [exact (nth_error_lt _ _ _ H)|]. intros K. rewrite K in H. destruct j; discriminate. Qed.
(** sums of a row, of a column, and of the whole table, by labels *)
Definition wsum (s : space) (g : R -> R) (w : string) : R := lsum (s_id2col s) (fun c => g (value s w c)).
Definition ctsum (s : space) (g : R -> R) (c : string) : R := lsum (s_id2row s) (fun w => g (value s w c)).
Definition tsum (s : space) (g : R -> R) : R := lsum (s_id2row s) (fun w => wsum s g w).
Lemma wsum_at s g i w : consistent s -> s_id2col s <> [] -> nth_error (s_id2row s) i = Some w -> rsum (m_nc (s_mat s)) (fun j => g (ment (s_mat s) i j)) = wsum s g w.
Proof. intros C Hl Hi. rewrite (labelled_width s C Hl). apply rsum_labels. intros j c Hj. rewrite (value_at s i j w c C Hi Hj). reflexivity. Qed.
Lemma ctsum_at s g j c : consistent s -> nth_error (s_id2col s) j = Some c -> rsum (m_nr (s_mat s)) (fun i => g (ment (s_mat s) i j)) = ctsum s g c.
Proof. intros C Hj. pose proof C as (_&L&_). rewrite <- L. apply rsum_labels. intros i w Hi. rewrite (value_at s i j w c C Hi Hj). reflexivity. Qed.
Lemma tsum_at s g : consistent s -> s_id2col s <> [] -> rsum (m_nr (s_mat s)) (fun i => rsum (m_nc (s_mat s)) (fun j => g (ment (s_mat s) i j))) = tsum s g.
Proof. intros C Hl. pose proof C as (_&L&_). rewrite <- L. apply rsum_labels. intros i w Hi. apply wsum_at; assumption. Qed.
Section Same.
Context (s1 s2 : space) (H : same_counts s1 s2).
Lemma counts_nodup : (NoDup (s_id2row s1) /\ NoDup (s_id2col s1)) /\ NoDup (s_id2row s2) /\ NoDup (s_id2col s2).
Proof. pose proof (sc_ok1 _ _ H) as (_&_&_&(A&_)&_&(B&_)&_). pose proof (sc_ok2 _ _ H) as (_&_&_&(C&_)&_&(D&_)&_). auto. Qed.
Lemma wsum_same g w : g 0%R = 0%R -> wsum s2 g w = wsum s1 g w.
Proof.
  intros Hg. destruct counts_nodup as ((_ & A) & (_ & B)). unfold wsum. rewrite (lsum_ext (s_id2col s2) _ (fun c => g (value s1 w c))) by (intros c _; rewrite (sc_value _ _ H); reflexivity).
  apply lsum_same; try assumption; intros c Hc; [rewrite <- (sc_value _ _ H)|]; rewrite value_no_label by exact Hc; exact Hg.
Qed.
Lemma ctsum_same g c : g 0%R = 0%R -> ctsum s2 g c = ctsum s1 g c.
Proof.
  intros Hg. destruct counts_nodup as ((A & _) & (B & _)). unfold ctsum. rewrite (lsum_ext (s_id2row s2) _ (fun w => g (value s1 w c))) by (intros w _; rewrite (sc_value _ _ H); reflexivity).
  apply lsum_same; try assumption; intros w Hw; [rewrite <- (sc_value _ _ H)|]; rewrite value_no_word by exact Hw; exact Hg.
Qed.
Lemma wsum_no_word s g w : g 0%R = 0%R -> ~ In w (s_id2row s) -> wsum s g w = 0%R.
Proof. intros Hg Hw. apply lsum_zero. intros c _. rewrite value_no_word by exact Hw. exact Hg. Qed.
Lemma tsum_same g : g 0%R = 0%R -> tsum s2 g = tsum s1 g.
Proof.
  intros Hg. destruct counts_nodup as ((A & _) & (B & _)). unfold tsum. rewrite (lsum_ext (s_id2row s2) _ (wsum s1 g)) by (intros w _; apply wsum_same, Hg).
  apply lsum_same; try assumption; intros w Hw; [rewrite <- wsum_same by exact Hg|]; apply wsum_no_word; assumption.
Qed.
Lemma counts_nonneg : non_negative (s_mat s1) -> non_negative (s_mat s2).
Proof.
  intros N i j Hi Hj. pose proof (sc_ok1 _ _ H) as C1. pose proof (sc_ok2 _ _ H) as C2. destruct (row_label s2 i C2 Hi) as (w & Hw). destruct (col_label s2 j C2 (sc_lab2 _ _ H) Hj) as (c & Hc).
  rewrite <- (value_at s2 i j w c C2 Hw Hc), (sc_value _ _ H). destruct (value_cases s1 w c) as [->|(a & b & Ha & Hb)]; [change (0 <= 0)%R; lra|].
  rewrite (value_at s1 a b w c C1 Ha Hb). apply N; [exact (row_bound s1 a w C1 Ha)|exact (col_bound s1 b c C1 Hb)].
Qed.
Lemma counts_negative : (exists i j, i < m_nr (s_mat s1) /\ j < m_nc (s_mat s1) /\ (ment (s_mat s1) i j < 0)%R) -> exists i j, i < m_nr (s_mat s2) /\ j < m_nc (s_mat s2) /\ (ment (s_mat s2) i j < 0)%R.
Proof.
  intros (i & j & Hi & Hj & K). pose proof (sc_ok1 _ _ H) as C1. pose proof (sc_ok2 _ _ H) as C2. destruct (row_label s1 i C1 Hi) as (w & Hw). destruct (col_label s1 j C1 (sc_lab1 _ _ H) Hj) as (c & Hc).
  rewrite <- (value_at s1 i j w c C1 Hw Hc), <- (sc_value _ _ H) in K. destruct (value_cases s2 w c) as [Z|(a & b & Ha & Hb)]; [rewrite Z in K; lra|].
  rewrite (value_at s2 a b w c C2 Ha Hb) in K. exists a, b. split; [exact (row_bound s2 a w C2 Ha)|]. split; [exact (col_bound s2 b c C2 Hb)|exact K].
Qed.
End Same.

(** ** scalings, by labels *)
Definition id1 (x : R) : R := x.
Definition sq (x : R) : R := (x * x)%R.
Definition measure (k : crit) : R -> R := match k with CSum => id1 | CLength => sq end.
Definition close_up (k : crit) (x : R) : R := match k with CSum => x | CLength => sqrt x end.
Lemma measure0 k : measure k 0%R = 0%R.  Proof. destruct k; cbn; unfold id1, sq; lra. Qed.
Definition l_epmi (s : space) (w c : string) : R :=
  if Req_EM_T (wsum s id1 w) 0 then 0%R else if Req_EM_T (ctsum s id1 c) 0 then 0%R else (value s w c * tsum s id1 / (wsum s id1 w * ctsum s id1 c))%R.
Definition l_ppmi (s : space) (w c : string) : R := let e := l_epmi s w c in if Rlt_dec 0 e then Rmax 0 (ln e) else 0%R.
Definition scaled (sc : scaling) (s : space) (w c : string) : R :=
  match sc with
  | Epmi => l_epmi s w c
  | Ppmi => l_ppmi s w c
  | Plmi => (value s w c * l_ppmi s w c)%R
  | Plog => if Rle_dec 1 (value s w c) then ln (value s w c) else 0%R
  | RowNorm k => let r := close_up k (wsum s (measure k) w) in if Req_EM_T r 0 then 0%R else (value s w c / r)%R
  | Norm k => let r := close_up k (tsum s (measure k)) in if Req_EM_T r 0 then value s w c else (value s w c / r)%R
  end.
Lemma l_epmi_zero s w c : value s w c = 0%R -> l_epmi s w c = 0%R.
Proof. intros Z. unfold l_epmi. rewrite Z. destruct (Req_EM_T _ _); [reflexivity|]. destruct (Req_EM_T _ _); [reflexivity|]. unfold Rdiv. rewrite !Rmult_0_l. reflexivity. Qed.
Lemma l_ppmi_zero s w c : value s w c = 0%R -> l_ppmi s w c = 0%R.
Proof. intros Z. unfold l_ppmi. cbv zeta. rewrite (l_epmi_zero s w c Z). destruct (Rlt_dec 0 0); [lra|reflexivity]. Qed.
Lemma scaled_zero sc s w c : value s w c = 0%R -> scaled sc s w c = 0%R.
Proof.
  intros Z. destruct sc as [| | | |k|k]; cbn [scaled].
  - apply l_epmi_zero, Z.
  - apply l_ppmi_zero, Z.
  - rewrite Z. lra.
  - rewrite Z. destruct (Rle_dec 1 0); [lra|reflexivity].
  - cbv zeta. rewrite Z. destruct (Req_EM_T _ _); [reflexivity|]. unfold Rdiv. apply Rmult_0_l.
  - cbv zeta. rewrite Z. destruct (Req_EM_T _ _); [reflexivity|]. unfold Rdiv. apply Rmult_0_l.
Qed.
Lemma scaled_same s1 s2 sc w c : same_counts s1 s2 -> scaled sc s2 w c = scaled sc s1 w c.
Proof.
  intros H. assert (Ep : l_epmi s2 w c = l_epmi s1 w c).
  { unfold l_epmi. rewrite (wsum_same _ _ H), (ctsum_same _ _ H), (tsum_same _ _ H), (sc_value _ _ H) by reflexivity. reflexivity. }
  assert (Pp : l_ppmi s2 w c = l_ppmi s1 w c) by (unfold l_ppmi; rewrite Ep; reflexivity).
  destruct sc as [| | | |k|k]; cbn [scaled]; rewrite ?Ep, ?Pp, ?(sc_value _ _ H), ?(wsum_same _ _ H _ _ (measure0 k)), ?(tsum_same _ _ H _ (measure0 k)); reflexivity.
Qed.
Section AtLabels.
Context (s : space) (C : consistent s) (Hl : s_id2col s <> []) (i j : nat) (w c : string) (Hi : nth_error (s_id2row s) i = Some w) (Hj : nth_error (s_id2col s) j = Some c).
Lemma at_value : ment (s_mat s) i j = value s w c.  Proof. symmetry. apply value_at; assumption. Qed.
Lemma at_row_sum : row_sum (s_mat s) i = wsum s id1 w.  Proof. exact (wsum_at s id1 i w C Hl Hi). Qed.
Lemma at_col_sum : col_sum (s_mat s) j = ctsum s id1 c.  Proof. exact (ctsum_at s id1 j c C Hj). Qed.
Lemma at_total : total (s_mat s) = tsum s id1.  Proof. exact (tsum_at s id1 C Hl). Qed.
Lemma at_epmi : epmi_entry (s_mat s) i j = l_epmi s w c.
Proof. unfold epmi_entry, l_epmi. rewrite at_row_sum, at_col_sum, at_total, at_value. reflexivity. Qed.
Lemma at_ppmi : ppmi_entry (s_mat s) i j = l_ppmi s w c.
Proof. unfold ppmi_entry, l_ppmi. rewrite at_epmi. reflexivity. Qed.
Lemma at_row_size k : row_size k (s_mat s) i = close_up k (wsum s (measure k) w).
Proof. destruct k; cbn [row_size close_up measure]; [exact at_row_sum|]. unfold norm. f_equal. exact (wsum_at s sq i w C Hl Hi). Qed.
Lemma at_size k : size k (s_mat s) = close_up k (tsum s (measure k)).
Proof. destruct k; cbn [size close_up measure]; [exact at_total|]. unfold frobenius. f_equal. exact (tsum_at s sq C Hl). Qed.
Lemma at_score k : col_score k (s_mat s) j = close_up k (ctsum s (measure k) c).
Proof. destruct k; cbn [col_score close_up measure]; [exact at_col_sum|]. unfold norm. f_equal. exact (ctsum_at s sq j c C Hj). Qed.
End AtLabels.
(** the matrix of a scaled space, by labels *)
Lemma scaled_entry s sc z : consistent s -> s_id2col s <> [] -> scaling_apply sc (s_mat s) None = Ok z -> m_nc z = m_nc (s_mat s) /\
  forall i j w c, nth_error (s_id2row s) i = Some w -> nth_error (s_id2col s) j = Some c -> ment z i j = scaled sc s w c.
Proof.
  intros C Hl Hz. pose proof C as (W&_).
  assert (Out : forall f z', result_of (s_mat s) z' f -> scaling_apply sc (s_mat s) None = Ok z' ->
    (forall i j w c, nth_error (s_id2row s) i = Some w -> nth_error (s_id2col s) j = Some c -> f i j = scaled sc s w c) ->
    m_nc z = m_nc (s_mat s) /\ forall i j w c, nth_error (s_id2row s) i = Some w -> nth_error (s_id2col s) j = Some c -> ment z i j = scaled sc s w c).
  { intros f z' (_&_&_&N&V) Hz' Hf. assert (z' = z) by congruence. subst z'. split; [exact N|]. intros i j w c Hi Hj. rewrite V; [apply Hf; assumption|exact (row_bound s i w C Hi)|exact (col_bound s j c C Hj)]. }
  assert (Neg : In sc [Epmi; Ppmi; Plmi] -> non_negative (s_mat s)).
  { intros Hs. destruct (non_negative_dec (s_mat s)) as [P|P]; [exact P|]. exfalso. rewrite (C15_negative_rejected _ sc W Hs P) in Hz. discriminate. }
  destruct sc as [| | | |k|k].
  - destruct (C15_epmi _ W (Neg ltac:(cbn; tauto))) as (z' & Hz' & R'). apply (Out _ z' R' Hz'). intros i j w c Hi Hj. cbn [scaled]. apply at_epmi; assumption.
  - destruct (C16_ppmi _ W (Neg ltac:(cbn; tauto))) as (z' & Hz' & R' & _). apply (Out _ z' R' Hz'). intros i j w c Hi Hj. cbn [scaled]. apply at_ppmi; assumption.
  - destruct (C16_plmi _ W (Neg ltac:(cbn; tauto))) as (z' & Hz' & R' & _). apply (Out _ z' R' Hz'). intros i j w c Hi Hj. cbn [scaled]. rewrite (at_ppmi s C Hl i j w c Hi Hj), (at_value s C i j w c Hi Hj). reflexivity.
  - destruct (C17_plog _ W) as (z' & Hz' & R' & _). apply (Out _ z' R' Hz'). intros i j w c Hi Hj. cbn [scaled]. rewrite (at_value s C i j w c Hi Hj). reflexivity.
  - destruct (C18_row_normalization k _ W) as (z' & Hz' & R' & _). apply (Out _ z' R' Hz'). intros i j w c Hi Hj. cbn [scaled]. cbv zeta. rewrite (at_row_size s C Hl i w Hi k), (at_value s C i j w c Hi Hj). reflexivity.
  - destruct (C19_normalization k _ W) as (z' & Hz' & P1 & P2). destruct (Req_EM_T (size k (s_mat s)) 0) as [Z|Z].
    + assert (z = s_mat s) as -> by (rewrite <- (P2 Z); congruence). split; [reflexivity|]. intros i j w c Hi Hj. cbn [scaled]. cbv zeta. rewrite <- (at_size s C Hl k). destruct (Req_EM_T (size k (s_mat s)) 0); [apply at_value; assumption|contradiction].
    + apply (Out _ z' (proj1 (P1 Z)) Hz'). intros i j w c Hi Hj. cbn [scaled]. cbv zeta. rewrite <- (at_size s C Hl k), (at_value s C i j w c Hi Hj). destruct (Req_EM_T (size k (s_mat s)) 0); [contradiction|reflexivity].
Qed.
Section Spaces.
Context {E : @Ext RNum}.
Lemma scaled_space s sc z : consistent s -> s_id2col s <> [] -> scaling_apply sc (s_mat s) None = Ok z -> exists s', space_apply s (TScale sc) = Ok s' /\ consistent s' /\
  s_id2row s' = s_id2row s /\ s_id2col s' = s_id2col s /\ length (s_eshape s') = 1 /\ forall w c, value s' w c = scaled sc s w c.
Proof.
  intros C Hl Hz. destruct (scaled_entry s sc z C Hl Hz) as (_ & V). destruct (apply_scale s sc z C Hz) as (s' & A & C' & M & Rw & Cl & Sh). exists s'. split; [exact A|]. split; [exact C'|]. split; [exact Rw|]. split; [exact Cl|]. split; [rewrite Sh; reflexivity|].
  intros w c. destruct (value_cases s w c) as [Z|(i & j & Hi & Hj)].
  - rewrite (scaled_zero sc s w c Z). destruct (value_cases s' w c) as [Z'|(i & j & Hi & Hj)]; [exact Z'|]. rewrite (value_at s' i j w c C' Hi Hj), M. rewrite Rw in Hi. rewrite Cl in Hj. rewrite (V i j w c Hi Hj). apply scaled_zero, Z.
  - rewrite (value_at s' i j w c C'); [|rewrite Rw; exact Hi|rewrite Cl; exact Hj]. rewrite M. apply V; assumption.
Qed.
Lemma scale_fails s1 s2 sc e : same_counts s1 s2 -> scaling_apply sc (s_mat s1) None = Err e -> scaling_apply sc (s_mat s2) None = Err e.
Proof.
  intros H Hz. pose proof (sc_ok1 _ _ H) as (W1&_). pose proof (sc_ok2 _ _ H) as (W2&_).
  assert (K : In sc [Epmi; Ppmi; Plmi] -> scaling_apply sc (s_mat s2) None = Err e).
  { intros Hs. destruct (non_negative_dec (s_mat s1)) as [P|P].
    - exfalso. destruct Hs as [<-|[<-|[<-|[]]]]; [destruct (C15_epmi _ W1 P) as (z & Q & _)|destruct (C16_ppmi _ W1 P) as (z & Q & _)|destruct (C16_plmi _ W1 P) as (z & Q & _)]; rewrite Q in Hz; discriminate.
    - rewrite (C15_negative_rejected _ sc W1 Hs P) in Hz. rewrite (C15_negative_rejected _ sc W2 Hs (counts_negative _ _ H P)). exact Hz. }
  destruct sc as [| | | |k|k]; try (apply K; cbn; tauto); exfalso.
  - destruct (C17_plog _ W1) as (z & Q & _). rewrite Q in Hz. discriminate.
  - destruct (C18_row_normalization k _ W1) as (z & Q & _). rewrite Q in Hz. discriminate.
  - destruct (C19_normalization k _ W1) as (z & Q & _). rewrite Q in Hz. discriminate.
Qed.
Lemma counts_back s1 s2 : same_counts s1 s2 -> same_counts s2 s1.
Proof. intros H. constructor; try apply H; [symmetry; apply H|]. intros w c. symmetry. apply H. Qed.
Theorem C106_scale : forall s1 s2 sc, same_counts s1 s2 -> same_results (space_apply s1 (TScale sc)) (space_apply s2 (TScale sc)).
Proof.
  intros s1 s2 sc H. pose proof (sc_ok1 _ _ H) as C1. pose proof (sc_ok2 _ _ H) as C2.
  destruct (scaling_apply sc (s_mat s1) None) as [z1|e] eqn:E1.
  2: { rewrite (apply_scale_err _ _ _ E1), (apply_scale_err _ _ _ (scale_fails _ _ _ _ H E1)). reflexivity. }
  destruct (scaling_apply sc (s_mat s2) None) as [z2|e] eqn:E2.
  2: { rewrite (scale_fails _ _ _ _ (counts_back _ _ H) E2) in E1. discriminate. }
  destruct (scaled_space s1 sc z1 C1 (sc_lab1 _ _ H) E1) as (t1 & -> & D1 & Rw1 & Cl1 & Sh1 & V1). destruct (scaled_space s2 sc z2 C2 (sc_lab2 _ _ H) E2) as (t2 & -> & D2 & Rw2 & Cl2 & Sh2 & V2). cbn [same_results].
  constructor; try assumption; [rewrite Cl1; apply H|rewrite Cl2; apply H|congruence|]. intros w c. rewrite V1, V2. apply scaled_same, H.
Qed.
(** ** feature selection *)
Definition lscore (k : crit) (s : space) (c : string) : R := close_up k (ctsum s (measure k) c).
Lemma lscore_same s1 s2 k c : same_counts s1 s2 -> lscore k s2 c = lscore k s1 c.
Proof. intros H. unfold lscore. rewrite (ctsum_same _ _ H) by apply measure0. reflexivity. Qed.
Lemma lscore_no_label s k c : ~ In c (s_id2col s) -> lscore k s c = 0%R.
Proof.
  intros H. unfold lscore. replace (ctsum s (measure k) c) with 0%R; [destruct k; cbn [close_up]; [reflexivity|apply sqrt_0]|].
  symmetry. apply lsum_zero. intros w _. rewrite value_no_label by exact H. apply measure0.
Qed.
Lemma lsum_nonneg L g : (forall x, (0 <= g x)%R) -> (0 <= lsum L g)%R.
Proof. intros H. induction L as [|x L IH]; cbn [lsum]; [lra|]. specialize (H x). lra. Qed.
Lemma lsum_all_zero L g : (forall x, (0 <= g x)%R) -> lsum L g = 0%R -> forall x, In x L -> g x = 0%R.
Proof.
  intros H. induction L as [|y L IH]; cbn [lsum]; intros Z x Hx; [contradiction|]. pose proof (H y) as Y. pose proof (lsum_nonneg L g H) as N.
  destruct Hx as [->|Hx]; [lra|]. apply IH; [lra|exact Hx].
Qed.
Lemma value_nonneg s w c : consistent s -> non_negative (s_mat s) -> (0 <= value s w c)%R.
Proof.
  intros C N. destruct (value_cases s w c) as [->|(i & j & Hi & Hj)]; [lra|]. rewrite (value_at s i j w c C Hi Hj). apply N; [exact (row_bound s i w C Hi)|exact (col_bound s j c C Hj)].
Qed.
Lemma measure_nonneg s k w c : consistent s -> k = CLength \/ non_negative (s_mat s) -> (0 <= measure k (value s w c))%R.
Proof. intros C [->|N]; [cbn; unfold sq; nra|]. destruct k; cbn; unfold id1, sq; [apply value_nonneg; assumption|nra]. Qed.
Lemma lscore_nonneg s k c : consistent s -> k = CLength \/ non_negative (s_mat s) -> (0 <= lscore k s c)%R.
Proof. intros C N. unfold lscore. destruct k eqn:Ek; cbn [close_up]; [|apply sqrt_pos]. apply lsum_nonneg. intros w. apply (measure_nonneg s CSum); assumption. Qed.
Lemma lscore_zero s k c : consistent s -> k = CLength \/ non_negative (s_mat s) -> lscore k s c = 0%R -> forall w, value s w c = 0%R.
Proof.
  intros C N Z w. destruct (in_dec string_dec w (s_id2row s)) as [I0|I0]; [|apply value_no_word, I0].
  assert (P : forall x, (0 <= measure k (value s x c))%R) by (intros x; apply measure_nonneg; assumption).
  assert (S : ctsum s (measure k) c = 0%R). { unfold lscore in Z. destruct k; cbn [close_up] in Z; [exact Z|]. apply sqrt_eq_0; [|exact Z]. apply lsum_nonneg. exact P. }
  pose proof (lsum_all_zero (s_id2row s) _ P S w I0) as K. destruct k; cbn in K; unfold id1, sq in K; [exact K|nra].
Qed.
Lemma selected_space s k n : consistent s -> s_id2col s <> [] -> 0 < n -> (exists e, assert_1dim_element s = Err e /\ space_apply s (TFS k n) = Err e) \/
  (assert_1dim_element s = Ok tt /\ exists s' K sel, space_apply s (TFS k n) = Ok s' /\ consistent s' /\ s_id2col s' = K /\ s_id2col s' <> [] /\ length (s_eshape s') = 1 /\
    best_columns (m_nc (s_mat s)) n (col_score k (s_mat s)) sel /\ K = map (fun j => nth j (s_id2col s) EmptyString) sel /\
    NoDup K /\ incl K (s_id2col s) /\ length K = Nat.min n (length (s_id2col s)) /\ (forall w c, value s' w c = if in_dec string_dec c K then value s w c else 0%R) /\
    (forall a b, In a K -> In b (s_id2col s) -> ~ In b K -> (lscore k s b <= lscore k s a)%R)).
Proof.
  intros C Hl Hn. pose proof C as (W&_&_&(Nr&_)&_&(Nc&_)&_). pose proof (labelled_width s C Hl) as Wd.
  destruct (C20_selection k n (s_mat s) W Hn) as (z & sel & Ez & B & _ & _ & Rz & Cz & V). pose proof (apply_fs s k n z sel C Hn Ez) as A.
  rewrite fs_labels_ok in A; [|exact Hl|exact Nc|apply B|rewrite <- Wd; apply B].
  destruct (assert_1dim_element s) as [[]|e]; cbn [bind] in A; [|left; exists e; auto]. right. split; [reflexivity|].
  destruct A as (s' & A & C' & M & Rw & Cl & Sh). set (K := map (fun j => nth j (s_id2col s) EmptyString) sel) in *.
  assert (Rg : forall j, In j sel -> j < length (s_id2col s)) by (rewrite <- Wd; apply B).
  assert (InK : forall c, In c K <-> exists j, In j sel /\ nth_error (s_id2col s) j = Some c).
  { intros c. unfold K. rewrite in_map_iff. split.
    - intros (j & <- & Hj). exists j. split; [exact Hj|]. apply nth_error_nth', Rg, Hj.
    - intros (j & Hj & Hc). exists j. split; [apply nth_error_nth, Hc|exact Hj]. }
  assert (Pos : 0 < length sel). { rewrite (bc_length _ _ _ _ B), Wd. destruct (s_id2col s); [contradiction|]. cbn [length]. lia. }
  exists s', K, sel. split; [exact A|]. split; [exact C'|]. split; [exact Cl|]. split; [rewrite Cl; unfold K; destruct sel; [cbn in Pos; lia|discriminate]|]. split; [rewrite Sh; reflexivity|]. split; [exact B|]. split; [reflexivity|].
  split; [rewrite <- Cl; apply C'|]. split; [intros c Hc; apply InK in Hc; destruct Hc as (j & _ & Hc); exact (nth_error_In _ _ Hc)|]. split; [unfold K; rewrite map_length, (bc_length _ _ _ _ B), Wd; reflexivity|]. split.
  - intros w c. destruct (in_dec string_dec c K) as [I0|I0]; [|apply value_no_label; rewrite Cl; exact I0].
    destruct (in_dec string_dec w (s_id2row s)) as [I1|I1]; [|rewrite !value_no_word; [reflexivity|exact I1|rewrite Rw; exact I1]].
    apply In_nth_error in I1. destruct I1 as (i & Hi). apply In_nth_error in I0. destruct I0 as (a & Ha).
    rewrite (value_at s' i a w c C'); [|rewrite Rw; exact Hi|rewrite Cl; exact Ha]. unfold K in Ha. rewrite nth_error_map in Ha. destruct (nth_error sel a) as [x|] eqn:Ex; [|discriminate]. cbn in Ha.
    assert (Hx : nth_error (s_id2col s) x = Some c) by (rewrite (nth_error_nth' _ EmptyString) by (apply Rg; exact (nth_error_In _ _ Ex)); exact Ha).
    rewrite M, V; [|exact (row_bound s i w C Hi)|exact (nth_error_lt _ _ _ Ex)]. rewrite (nth_error_nth _ _ 0 Ex). symmetry. apply value_at; assumption.
  - intros a b Ha Hb Hnb. apply InK in Ha. destruct Ha as (x & Hx & Ex). apply In_nth_error in Hb. destruct Hb as (y & Ey).
    destruct (bc_dropped _ _ _ _ B y x) as (L & _); [exact (col_bound s y b C Ey)|intros J; apply Hnb, InK; exists y; auto|exact Hx|].
    rewrite (at_score s C y b Ey k), (at_score s C x a Ex k) in L. exact L.
Qed.
(** every label of a non-zero column that one of them keeps is kept by the other *)
Lemma kept_same s1 s2 k K1 K2 n : same_counts s1 s2 -> k = CLength \/ non_negative (s_mat s1) ->
  NoDup K1 -> NoDup K2 -> incl K2 (s_id2col s2) -> length K1 = Nat.min n (length (s_id2col s1)) -> length K2 = Nat.min n (length (s_id2col s2)) ->
  (forall a b, In a K1 -> In b (s_id2col s1) -> ~ In b K1 -> (lscore k s1 b <= lscore k s1 a)%R) ->
  (forall a b, In a K2 -> In b (s_id2col s2) -> ~ In b K2 -> (lscore k s2 b <= lscore k s2 a)%R) ->
  forall c, In c K1 -> ~ In c K2 -> lscore k s1 c <> 0%R -> exists d, In d K2 /\ In d (s_id2col s1) /\ ~ In d K1 /\ lscore k s1 d = lscore k s1 c.
Proof.
  intros H N N1 N2 I2 L1 L2 B1 B2 c Hc Hn Hz. pose proof (sc_ok1 _ _ H) as C1.
  assert (Ic : In c (s_id2col s2)). { destruct (in_dec string_dec c (s_id2col s2)) as [J|J]; [exact J|]. exfalso. apply Hz. rewrite <- (lscore_same _ _ k c H). apply lscore_no_label, J. }
  assert (Full : length K2 = n).
  { rewrite L2. apply Nat.min_l. destruct (le_lt_dec n (length (s_id2col s2))) as [Q|Q]; [exact Q|exfalso]. rewrite Nat.min_r in L2 by lia.
    apply (NoDup_length_incl N2) in I2; [exact (Hn (I2 c Ic))|lia]. }
  assert (Ex : exists d, In d K2 /\ ~ In d K1).
  { destruct (Exists_dec (fun y => ~ In y K1) K2) as [Q|Q]; [intros y; destruct (in_dec string_dec y K1); [right; tauto|left; assumption]|apply Exists_exists in Q; exact Q|]. exfalso.
    assert (Inc : incl K2 K1). { intros y Hy. destruct (in_dec string_dec y K1) as [J|J]; [exact J|]. exfalso. apply Q, Exists_exists. exists y. auto. }
    apply (NoDup_length_incl N2) in Inc; [exact (Hn (Inc c Hc))|lia]. }
  destruct Ex as (d & Hd & Hnd). exists d. split; [exact Hd|]. pose proof (B2 d c Hd Ic Hn) as Le. rewrite !(lscore_same _ _ k _ H) in Le. pose proof (lscore_nonneg s1 k c C1 N) as Pc.
  assert (Id : In d (s_id2col s1)). { destruct (in_dec string_dec d (s_id2col s1)) as [J|J]; [exact J|]. exfalso. rewrite (lscore_no_label s1 k d J) in Le. lra. }
  split; [exact Id|]. split; [exact Hnd|]. pose proof (B1 c d Hc Id Hnd). lra.
Qed.
Theorem C106_select : forall s1 s2 k n, same_counts s1 s2 -> 0 < n -> k = CLength \/ non_negative (s_mat s1) -> clear_cut0 k n (s_mat s1) ->
  same_results (space_apply s1 (TFS k n)) (space_apply s2 (TFS k n)).
Proof.
  intros s1 s2 k n H Hn N Hc. pose proof (sc_ok1 _ _ H) as C1. pose proof (sc_ok2 _ _ H) as C2. pose proof (counts_back _ _ H) as H'.
  assert (N' : k = CLength \/ non_negative (s_mat s2)) by (destruct N as [N|N]; [left; exact N|right; exact (counts_nonneg _ _ H N)]).
  assert (As : assert_1dim_element s2 = assert_1dim_element s1).
  { unfold assert_1dim_element. pose proof (sc_dims _ _ H) as D. destruct (s_eshape s1) as [|? [|? ?]], (s_eshape s2) as [|? [|? ?]]; cbn [length] in D; try lia; reflexivity. }
  destruct (selected_space s1 k n C1 (sc_lab1 _ _ H) Hn) as [(e & A1 & ->)|(A1 & t1 & K1 & l1 & -> & D1 & Cl1 & Ne1 & Sh1 & Bc1 & EK & N1 & I1 & L1 & V1 & B1)];
  destruct (selected_space s2 k n C2 (sc_lab2 _ _ H) Hn) as [(e' & A2 & ->)|(A2 & t2 & K2 & l2 & -> & D2 & Cl2 & Ne2 & Sh2 & _ & _ & N2 & I2 & L2 & V2 & B2)]; rewrite As, A1 in A2; try discriminate.
  - cbn [same_results]. congruence.
  - cbn [same_results].
    assert (Cut : forall c d, In c K1 -> In d (s_id2col s1) -> ~ In d K1 -> lscore k s1 c <> 0%R -> lscore k s1 d <> lscore k s1 c).
    { intros c d Kc Kd Knd Hz. rewrite EK in Kc. apply in_map_iff in Kc. destruct Kc as (a & Ea & Ha). apply In_nth_error in Kd. destruct Kd as (b & Hb).
      pose proof (bc_range _ _ _ _ Bc1 a Ha) as Ra. assert (Ha' : nth_error (s_id2col s1) a = Some c) by (rewrite <- Ea; apply nth_error_nth'; rewrite <- (labelled_width s1 C1 (sc_lab1 _ _ H)); exact Ra).
      pose proof (Hc l1 a b Bc1 Ha (col_bound s1 b d C1 Hb)) as Q. rewrite (at_score s1 C1 a c Ha' k), (at_score s1 C1 b d Hb k) in Q. apply Q; [|exact Hz].
      intros J. apply Knd. rewrite EK. apply in_map_iff. exists b. split; [apply nth_error_nth, Hb|exact J]. }
    constructor; try assumption; [congruence|]. intros w c. rewrite V1, V2.
    destruct (in_dec string_dec c K1) as [J1|J1], (in_dec string_dec c K2) as [J2|J2]; [apply H| | |reflexivity].
    + destruct (Req_EM_T (lscore k s1 c) 0) as [Z|Z]; [symmetry; exact (lscore_zero s1 k c C1 N Z w)|exfalso].
      destruct (kept_same s1 s2 k K1 K2 n H N N1 N2 I2 L1 L2 B1 B2 c J1 J2 Z) as (d & Hd & Id & Hnd & Eq). exact (Cut c d J1 Id Hnd Z Eq).
    + destruct (Req_EM_T (lscore k s2 c) 0) as [Z|Z]; [exact (lscore_zero s2 k c C2 N' Z w)|exfalso].
      destruct (kept_same s2 s1 k K2 K1 n H' N' N2 N1 I1 L2 L1 B2 B1 c J2 J1 Z) as (d & Hd & Id & Hnd & Eq).
      assert (Ic : In c (s_id2col s1)). { destruct (in_dec string_dec c (s_id2col s1)) as [J|J]; [exact J|]. exfalso. apply Z. rewrite (lscore_same _ _ k c H). apply lscore_no_label, J. }
      rewrite !(lscore_same _ _ k _ H) in Eq. rewrite (lscore_same _ _ k c H) in Z. apply (Cut d c Hd Ic J1); [rewrite Eq; exact Z|symmetry; exact Eq].
Qed.
(** ** chains *)
(** in every step the columns can be ranked by size: by length, or the entries are non-negative; and the cut is clear *)
Fixpoint clear_cuts0 (s : space) (ts : list transformation) : Prop :=
  match ts with
  | [] => True
  | t :: ts => (match t with TFS c k => (c = CLength \/ non_negative (s_mat s)) /\ clear_cut0 c k (s_mat s) | _ => True end) /\ forall s', space_apply s t = Ok s' -> clear_cuts0 s' ts
  end.
Theorem C106_chain : forall ts s1 s2, same_counts s1 s2 -> Forall tr_ok ts -> Forall column_free ts -> clear_cuts0 s1 ts -> same_results (apply_all s1 ts) (apply_all s2 ts).
Proof.
  induction ts as [|t ts IH]; intros s1 s2 H Ht Hf Hc; cbn [apply_all]; [exact H|]. inversion Ht; subst. inversion Hf; subst. destruct Hc as (Hc1 & Hc2).
  assert (K : same_results (space_apply s1 t) (space_apply s2 t)).
  { destruct t as [sc|d k|c k]; [apply C106_scale, H|contradiction|apply C106_select; try assumption; apply Hc1]. }
  destruct (space_apply s1 t) as [a|e] eqn:Ea, (space_apply s2 t) as [b|e'] eqn:Eb; cbn [same_results bind] in *; try contradiction; [|exact K]. apply IH; [exact K|assumption|assumption|apply Hc2; reflexivity].
Qed.
(** ** similarities *)
(** a similarity as a function of two words: sums over the labels of both spaces *)
Definition psum (L : list string) (g : R -> R -> R) (u v : string -> R) : R := lsum L (fun c => g (u c) (v c)).
Definition l_sim (sim : similarity) (L : list string) (u v : string -> R) : R :=
  match sim with
  | Cos => let a := sqrt (psum L (fun x _ => x * x)%R u v) in let b := sqrt (psum L (fun _ y => y * y)%R u v) in
           if Req_EM_T a 0 then 0%R else if Req_EM_T b 0 then 0%R else (psum L Rmult u v / (a * b))%R
  | Dot => psum L Rmult u v
  | Euclid => (1 / (1 + sqrt (psum L (fun x y => (x - y) * (x - y))%R u v)))%R
  | Lin => let t := (psum L (fun x _ => x) u v + psum L (fun _ y => y) u v)%R in
           if Req_EM_T t 0 then 0%R else (psum L (fun x y => if Rlt_dec 0 (x * y) then x + y else 0)%R u v / t)%R
  end.
Lemma psum_same L M g u v : NoDup L -> NoDup M -> g 0%R 0%R = 0%R -> (forall c, ~ In c L -> u c = 0%R /\ v c = 0%R) -> (forall c, ~ In c M -> u c = 0%R /\ v c = 0%R) -> psum L g u v = psum M g u v.
Proof. intros NL NM Hg HL HM. apply lsum_same; try assumption; intros c Hc; [destruct (HL c Hc) as (-> & ->)|destruct (HM c Hc) as (-> & ->)]; exact Hg. Qed.
Lemma sim_labels sim s t p q w v : consistent s -> consistent t -> s_id2col s <> [] -> s_id2col t = s_id2col s -> nth_error (s_id2row s) p = Some w -> nth_error (s_id2row t) q = Some v ->
  sim_spec sim (m_nc (s_mat s)) (ment (s_mat s) p) (ment (s_mat t) q) = l_sim sim (s_id2col s) (value s w) (value t v).
Proof.
  intros C D Hl Hc Hp Hq. set (n := m_nc (s_mat s)).
  assert (S : forall g, rsum n (fun j => g (ment (s_mat s) p j) (ment (s_mat t) q j)) = psum (s_id2col s) g (value s w) (value t v)).
  { intros g. unfold n. rewrite (labelled_width s C Hl). apply rsum_labels. intros j c Hj. rewrite (value_at s p j w c C Hp Hj), (value_at t q j v c D Hq); [reflexivity|rewrite Hc; exact Hj]. }
  destruct sim; cbn [sim_spec l_sim]; cbv zeta; rewrite <- ?S; reflexivity.
Qed.
Lemma l_sim_same sim L M u v : NoDup L -> NoDup M -> (forall c, ~ In c L -> u c = 0%R /\ v c = 0%R) -> (forall c, ~ In c M -> u c = 0%R /\ v c = 0%R) -> l_sim sim L u v = l_sim sim M u v.
Proof.
  intros NL NM HL HM.
  assert (S : forall g, g 0%R 0%R = 0%R -> psum L g u v = psum M g u v) by (intros g Hg; apply psum_same; assumption).
  destruct sim; cbn [l_sim]; cbv zeta; rewrite ?(S Rmult), ?(S (fun x _ => x * x)%R), ?(S (fun _ y => y * y)%R), ?(S (fun x y => (x - y) * (x - y))%R), ?(S (fun x _ => x)), ?(S (fun _ y => y)), ?(S (fun x y => if Rlt_dec 0 (x * y) then x + y else 0)%R);
    try reflexivity; try (cbv beta; lra).
  cbv beta. destruct (Rlt_dec 0 (0 * 0)); lra.
Qed.
Lemma l_sim_ext sim L u v u' v' : (forall c, u' c = u c) -> (forall c, v' c = v c) -> l_sim sim L u' v' = l_sim sim L u v.
Proof.
  intros Hu Hv. assert (S : forall g, psum L g u' v' = psum L g u v) by (intros g; apply lsum_ext; intros c _; rewrite Hu, Hv; reflexivity).
  destruct sim; cbn [l_sim]; cbv zeta; rewrite !S; reflexivity.
Qed.
Lemma l_sim_zero sim L u v : sim <> Euclid -> (forall c, u c = 0%R) \/ (forall c, v c = 0%R) -> l_sim sim L u v = 0%R.
Proof.
  intros Hs Hz. destruct sim; cbn [l_sim]; cbv zeta; [| |contradiction|].
  - replace (psum L Rmult u v) with 0%R; [destruct (Req_EM_T _ _); [reflexivity|]; destruct (Req_EM_T _ _); [reflexivity|]; unfold Rdiv; lra|].
    symmetry. apply lsum_zero. intros c _. destruct Hz as [Z|Z]; rewrite Z; lra.
  - apply lsum_zero. intros c _. destruct Hz as [Z|Z]; rewrite Z; lra.
  - destruct (Req_EM_T _ _); [reflexivity|]. unfold Rdiv. replace (psum L (fun x y => if Rlt_dec 0 (x * y) then x + y else 0)%R u v) with 0%R; [lra|].
    symmetry. apply lsum_zero. intros c _. destruct (Rlt_dec 0 (u c * v c)) as [P|P]; [|reflexivity]. destruct Hz as [Z|Z]; rewrite Z in P; lra.
Qed.
(** the space that is searched is absent on both sides, or its columns are ordered as those of the first space *)
Definition same_counts_opt (s1 s2 : space) (o1 o2 : option space) : Prop :=
  match o1, o2 with None, None => True | Some a, Some b => same_counts a b /\ s_id2col a = s_id2col s1 /\ s_id2col b = s_id2col s2 | _, _ => False end.
Lemma counts_searched s1 s2 o1 o2 : same_counts s1 s2 -> same_counts_opt s1 s2 o1 o2 -> same_counts (searched s1 o1) (searched s2 o2) /\ s_id2col (searched s1 o1) = s_id2col s1 /\ s_id2col (searched s2 o2) = s_id2col s2.
Proof. intros H Ho. destruct o1, o2; cbn in *; try contradiction; auto. Qed.
(** the similarity of two words as a function of the values: for a word that is not there, every measure but the Euclidean one gives what it gives for a vector of zeros *)
Lemma get_sim_labels s o w v sim : consistent s -> consistent (searched s o) -> s_id2col s <> [] -> s_id2col (searched s o) = s_id2col s ->
  sim <> Euclid \/ (In w (s_id2row s) /\ In v (s_id2row (searched s o))) -> get_sim s w v sim o = Ok (l_sim sim (s_id2col s) (value s w) (value (searched s o) v)).
Proof.
  intros C D Hl Hc Hs. assert (Wd : m_nc (s_mat (searched s o)) = m_nc (s_mat s)) by (rewrite (labelled_width _ C Hl), (labelled_width _ D) by (rewrite Hc; exact Hl); rewrite Hc; reflexivity).
  destruct (in_dec string_dec w (s_id2row s)) as [I1|I1].
  2:{ destruct Hs as [Hs|(Hs & _)]; [|contradiction]. rewrite C10_get_sim_missing by auto. f_equal. symmetry. apply l_sim_zero; [exact Hs|]. left. intros c. apply value_no_word, I1. }
  destruct (in_dec string_dec v (s_id2row (searched s o))) as [I2|I2].
  2:{ destruct Hs as [Hs|(_ & Hs)]; [|contradiction]. rewrite C10_get_sim_missing by auto. f_equal. symmetry. apply l_sim_zero; [exact Hs|]. right. intros c. apply value_no_word, I2. }
  apply In_nth_error in I1, I2. destruct I1 as (p & Hp), I2 as (q & Hq). rewrite (get_sim_rows s o w v p q _ sim C D Hp Hq eq_refl Wd). f_equal. apply sim_labels; assumption.
Qed.
Theorem C106_get_sim : forall s1 s2 o1 o2 w v sim, same_counts s1 s2 -> same_counts_opt s1 s2 o1 o2 ->
  sim <> Euclid \/ (In w (s_id2row s1) /\ In w (s_id2row s2) /\ In v (s_id2row (searched s1 o1)) /\ In v (s_id2row (searched s2 o2))) -> get_sim s2 w v sim o2 = get_sim s1 w v sim o1.
Proof.
  intros s1 s2 o1 o2 w v sim H Ho Hs. destruct (counts_searched _ _ _ _ H Ho) as (H2 & Q1 & Q2). destruct (counts_nodup _ _ H) as ((_ & N1) & (_ & N2)).
  rewrite (get_sim_labels s1 o1 w v sim); [|apply H|apply H2|apply H|exact Q1|tauto]. rewrite (get_sim_labels s2 o2 w v sim); [|apply H|apply H2|apply H|exact Q2|tauto]. f_equal.
  rewrite (l_sim_ext sim (s_id2col s2) (value s1 w) (value (searched s1 o1) v)); [|intros c; apply H|intros c; apply H2]. apply l_sim_same; try assumption; intros c Hc.
  - rewrite <- (sc_value _ _ H), <- (sc_value _ _ H2). split; apply value_no_label; [exact Hc|rewrite Q2; exact Hc].
  - split; apply value_no_label; [exact Hc|rewrite Q1; exact Hc].
Qed.
(** ** neighbours *)
Lemma one_more {A} (dec : forall x y : A, {x = y} + {x <> y}) (l m : list A) : NoDup l -> length m < length l -> exists x, In x l /\ ~ In x m.
Proof.
  intros Nd Hl. destruct (Exists_dec (fun y => ~ In y m) l) as [Q|Q]; [intros y; destruct (in_dec dec y m); [right; tauto|left; assumption]|apply Exists_exists in Q; exact Q|]. exfalso.
  assert (Inc : incl l m). { intros y Hy. destruct (in_dec dec y m) as [J|J]; [exact J|]. exfalso. apply Q, Exists_exists. exists y. auto. }
  pose proof (NoDup_incl_length Nd Inc). lia.
Qed.
Lemma firstn_before {A} (l : list A) n x : In x (firstn n l) -> exists i, i < n /\ nth_error l i = Some x.
Proof.
  revert n. induction l as [|y l IH]; intros [|n] H; cbn in H; try contradiction. destruct H as [->|H]; [exists 0; split; [lia|reflexivity]|]. destruct (IH n H) as (i & Hi & K). exists (S i). split; [lia|exact K].
Qed.
Lemma before_firstn {A} (l : list A) n i x : i < n -> nth_error l i = Some x -> In x (firstn n l).
Proof. revert n l. induction i as [|i IH]; intros [|n] [|y l] H K; try lia; cbn in *; try discriminate; [left; congruence|right]. apply IH; [lia|exact K]. Qed.
Lemma ranked rows1 rows2 f sc1 sc2 k l1 l2 : top_k rows1 sc1 k l1 -> top_k rows2 sc2 k l2 -> (forall q x, nth_error rows1 q = Some x -> sc1 q = f x) -> (forall q x, nth_error rows2 q = Some x -> sc2 q = f x) ->
  (forall x, (0 < f x)%R -> In x rows2) -> forall a v r, nth_error l1 a = Some (v, r) -> (0 < r)%R -> exists v' r', nth_error l2 a = Some (v', r') /\ (r <= r')%R.
Proof.
  intros T1 T2 S1 S2 Hin a v r Ha Hr.
  assert (Sc1 : forall i x c, nth_error l1 i = Some (x, c) -> c = f x). { intros i x c Hi. destruct (tk_score _ _ _ _ T1 x c (nth_error_In _ _ Hi)) as (q & Hq & ->). apply S1, Hq. }
  set (P := firstn (S a) (map fst l1)).
  assert (LP : length P = S a). { unfold P. rewrite firstn_length, map_length. apply Nat.min_l. exact (nth_error_lt _ _ _ Ha). }
  assert (NP : NoDup P). { unfold P. pose proof (tk_distinct _ _ _ _ T1) as D. rewrite <- (firstn_skipn (S a) (map fst l1)) in D. exact (NoDup_app_l _ _ D). }
  assert (FP : forall x, In x P -> (r <= f x)%R).
  { intros x Hx. apply firstn_before in Hx. destruct Hx as (i & Hi & Hx). apply map_nth_some in Hx. destruct Hx as ([x' c] & Hx & ->). cbn [fst]. rewrite <- (Sc1 _ _ _ Hx).
    destruct (Nat.eq_dec i a) as [->|Hne]; [assert (c = r) by congruence; lra|]. exact (proj1 (tk_order _ _ _ _ T1 i a x' c v r ltac:(lia) Hx Ha)). }
  assert (Inc : incl P rows2) by (intros x Hx; apply Hin; specialize (FP x Hx); lra).
  pose proof (NoDup_incl_length NP Inc) as L2. rewrite LP in L2.
  assert (L : a < length l2). { pose proof (tk_length _ _ _ _ T2) as Q2. pose proof (tk_length _ _ _ _ T1) as Q1. pose proof (nth_error_lt _ _ _ Ha) as Q. change (@F RNum) with R in *. lia. }
  destruct (nth_error l2 a) as [[v' r']|] eqn:Hb; [|apply nth_error_None in Hb; change (@F RNum) with R in *; lia]. exists v', r'. split; [reflexivity|].
  destruct (one_more string_dec P (firstn a (map fst l2)) NP) as (u & Hu & Hnu). { rewrite LP, firstn_length. lia. }
  specialize (FP u Hu). apply Rle_trans with (1 := FP).
  assert (Iu : In u rows2) by exact (Inc u Hu). apply In_nth_error in Iu. destruct Iu as (q & Hq). rewrite <- (S2 q u Hq).
  destruct (in_dec string_dec u (map fst l2)) as [J|J].
  - apply In_nth_error in J. destruct J as (b & Hb'). assert (Hab : a <= b). { destruct (le_lt_dec a b) as [K|K]; [exact K|]. exfalso. exact (Hnu (before_firstn _ _ _ _ K Hb')). }
    apply map_nth_some in Hb'. destruct Hb' as ([u' c] & Hu' & ->). cbn [fst] in *. destruct (tk_score _ _ _ _ T2 u' c (nth_error_In _ _ Hu')) as (q' & Hq' & Ec). rewrite (S2 q _ Hq), <- (S2 q' _ Hq'), <- Ec.
    destruct (Nat.eq_dec a b) as [<-|Hne]; [assert (c = r') by congruence; lra|]. exact (proj1 (tk_order _ _ _ _ T2 a b _ _ _ _ ltac:(lia) Hb Hu')).
  - exact (proj1 (tk_omitted _ _ _ _ T2 q u v' r' Hq J (nth_error_In _ _ Hb))).
Qed.
(** the neighbours with a positive similarity: rank by rank the same similarities, and the same words where no two words are equally similar *)
Theorem C106_neighbours : forall s1 s2 o1 o2 w k sim, same_counts s1 s2 -> same_counts_opt s1 s2 o1 o2 -> sim <> Euclid -> In w (s_id2row s1) -> In w (s_id2row s2) ->
  exists l1 l2, get_neighbours s1 w k sim o1 = Ok l1 /\ get_neighbours s2 w k sim o2 = Ok l2 /\
    forall a v r, (0 < r)%R -> nth_error l1 a = Some (v, r) -> exists v', nth_error l2 a = Some (v', r) /\
      ((forall x, In x (s_id2row (searched s1 o1)) -> x <> v -> get_sim s1 w x sim o1 <> Ok r) -> v' = v).
Proof.
  intros s1 s2 o1 o2 w k sim H Ho Hs I1 I2. destruct (counts_searched _ _ _ _ H Ho) as (H2 & Q1 & Q2).
  pose proof (sc_ok1 _ _ H) as C1. pose proof (sc_ok2 _ _ H) as C2. pose proof (sc_ok1 _ _ H2) as D1. pose proof (sc_ok2 _ _ H2) as D2.
  destruct (C09_neighbours s1 w k sim o1 C1 D1 I1) as (l1 & sc1 & E1 & T1 & S1); [rewrite (labelled_width _ C1 (sc_lab1 _ _ H)), (labelled_width _ D1 (sc_lab1 _ _ H2)), Q1; reflexivity|].
  destruct (C09_neighbours s2 w k sim o2 C2 D2 I2) as (l2 & sc2 & E2 & T2 & S2); [rewrite (labelled_width _ C2 (sc_lab2 _ _ H)), (labelled_width _ D2 (sc_lab2 _ _ H2)), Q2; reflexivity|].
  exists l1, l2. split; [exact E1|]. split; [exact E2|].
  set (f := fun x => match get_sim s1 w x sim o1 with Ok c => c | Err _ => 0%R end).
  assert (F1 : forall q x, nth_error (s_id2row (searched s1 o1)) q = Some x -> sc1 q = f x) by (intros q x Hq; unfold f; rewrite (S1 q x Hq); reflexivity).
  assert (F2 : forall q x, nth_error (s_id2row (searched s2 o2)) q = Some x -> sc2 q = f x).
  { intros q x Hq. unfold f. rewrite <- (C106_get_sim s1 s2 o1 o2 w x sim H Ho (or_introl Hs)), (S2 q x Hq). reflexivity. }
  assert (P1 : forall x, (0 < f x)%R -> In x (s_id2row (searched s1 o1))).
  { intros x Hx. destruct (in_dec string_dec x (s_id2row (searched s1 o1))) as [J|J]; [exact J|]. exfalso. unfold f in Hx. rewrite C10_get_sim_missing in Hx by auto. lra. }
  assert (P2 : forall x, (0 < f x)%R -> In x (s_id2row (searched s2 o2))).
  { intros x Hx. destruct (in_dec string_dec x (s_id2row (searched s2 o2))) as [J|J]; [exact J|]. exfalso. unfold f in Hx. rewrite <- (C106_get_sim s1 s2 o1 o2 w x sim H Ho (or_introl Hs)) in Hx. rewrite C10_get_sim_missing in Hx by auto. lra. }
  intros a v r Hr Ha. destruct (ranked _ _ f _ _ _ _ _ T1 T2 F1 F2 P2 a v r Ha Hr) as (v' & r' & Hb & L1). destruct (ranked _ _ f _ _ _ _ _ T2 T1 F2 F1 P1 a v' r' Hb ltac:(lra)) as (v0 & r0 & Ha' & L2).
  assert (r0 = r) by (pose proof (eq_trans (eq_sym Ha) Ha') as Q; injection Q; intros; subst; reflexivity). assert (r' = r) by lra. subst r0 r'. exists v'. split; [exact Hb|]. intros Ud. destruct (string_dec v' v) as [K|K]; [exact K|exfalso].
  destruct (tk_score _ _ _ _ T2 v' r (nth_error_In _ _ Hb)) as (q & Hq & Er). rewrite (F2 q v' Hq) in Er. pose proof (P1 v' ltac:(lra)) as Iv. apply (Ud v' Iv K).
  apply In_nth_error in Iv. destruct Iv as (q1 & Hq1). rewrite (S1 q1 v' Hq1). f_equal. rewrite (F1 q1 v' Hq1). symmetry. exact Er.
Qed.
End Spaces.
