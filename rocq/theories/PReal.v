(** PReal.v -- sums over R. *)
From Coq Require Import Reals Lra Psatz.
From Verif Require Import Base PyList Num SpecReal Dense Sparse Matrix PSparse PMatrix PMatOps PShape.
Open Scope R_scope.

Lemma rsum_ext n f g : (forall i, (i < n)%nat -> f i = g i) -> rsum n f = rsum n g.
Proof. induction n as [|n IH]; cbn; intros H; [reflexivity|]. rewrite IH, H by auto. reflexivity. Qed.
Lemma rsum_plus n f g : rsum n (fun i => f i + g i) = rsum n f + rsum n g.
Proof. induction n as [|n IH]; cbn; [lra|]. rewrite IH. lra. Qed.
Lemma rsum_minus n f g : rsum n (fun i => f i - g i) = rsum n f - rsum n g.
Proof. induction n as [|n IH]; cbn; [lra|]. rewrite IH. lra. Qed.
Lemma rsum_scal_l n a f : rsum n (fun i => a * f i) = a * rsum n f.
Proof. induction n as [|n IH]; cbn; [lra|]. rewrite IH. lra. Qed.
Lemma rsum_scal_r n a f : rsum n (fun i => f i * a) = rsum n f * a.
Proof. induction n as [|n IH]; cbn; [lra|]. rewrite IH. lra. Qed.
Lemma rsum_opp n f : rsum n (fun i => - f i) = - rsum n f.
Proof. induction n as [|n IH]; cbn; [lra|]. rewrite IH. lra. Qed.
Lemma rsum_0 n : rsum n (fun _ => 0) = 0.
Proof. induction n as [|n IH]; cbn; [lra|]. rewrite IH. lra. Qed.
Lemma rsum_zero n f : (forall i, (i < n)%nat -> f i = 0) -> rsum n f = 0.
Proof. intros H. rewrite rsum_ext with (g := fun _ => 0) by exact H. apply rsum_0. Qed.
Lemma rsum_nonneg n f : (forall i, (i < n)%nat -> 0 <= f i) -> 0 <= rsum n f.
Proof.
  induction n as [|n IH]; cbn; intros H; [lra|]. specialize (IH ltac:(intros; apply H; lia)). specialize (H n ltac:(lia)). lra.
Qed.
Lemma rsum_le n f g : (forall i, (i < n)%nat -> f i <= g i) -> rsum n f <= rsum n g.
Proof.
  induction n as [|n IH]; cbn; intros H; [lra|]. specialize (IH ltac:(intros; apply H; lia)). specialize (H n ltac:(lia)). lra.
Qed.
Lemma rsum_nonneg_zero n f : (forall i, (i < n)%nat -> 0 <= f i) -> rsum n f = 0 -> forall i, (i < n)%nat -> f i = 0.
Proof.
  induction n as [|n IH]; cbn; intros H H0 i Hi; [lia|].
  assert (0 <= rsum n f) by (apply rsum_nonneg; intros; apply H; lia). assert (0 <= f n) by (apply H; lia).
  destruct (Nat.eq_dec i n) as [->|]; [lra|]. apply IH; [intros; apply H; lia|lra|lia].
Qed.
Lemma rsum_term_le n f i : (forall i, (i < n)%nat -> 0 <= f i) -> (i < n)%nat -> f i <= rsum n f.
Proof.
  induction n as [|n IH]; cbn; intros H Hi; [lia|].
  assert (0 <= rsum n f) by (apply rsum_nonneg; intros; apply H; lia). assert (0 <= f n) by (apply H; lia).
  destruct (Nat.eq_dec i n) as [->|]; [lra|]. specialize (IH ltac:(intros; apply H; lia) ltac:(lia)). lra.
Qed.
Lemma rsum_swap n m f : rsum n (fun i => rsum m (fun j => f i j)) = rsum m (fun j => rsum n (fun i => f i j)).
Proof. induction n as [|n IH]; cbn; [rewrite rsum_0; reflexivity|]. rewrite IH, rsum_plus. reflexivity. Qed.
Lemma rsum_single n k f : (k < n)%nat -> (forall i, (i < n)%nat -> i <> k -> f i = 0) -> rsum n f = f k.
Proof.
  induction n as [|n IH]; cbn; intros Hk H; [lia|]. destruct (Nat.eq_dec k n) as [->|Hne].
  - rewrite rsum_zero; [lra|]. intros i Hi. apply H; lia.
  - rewrite IH; [|lia|intros; apply H; lia]. rewrite (H n); [lra|lia|lia].
Qed.
Lemma rsum_app n m f : rsum (n + m) f = rsum n f + rsum m (fun i => f (n + i)%nat).
Proof.
  induction m as [|m IH]; cbn; [rewrite Nat.add_0_r; lra|]. rewrite Nat.add_succ_r. cbn. rewrite IH. lra.
Qed.
Lemma rsum_mul n m f g : rsum n f * rsum m g = rsum n (fun i => rsum m (fun j => f i * g j)).
Proof.
  rewrite <- rsum_scal_r. apply rsum_ext. intros i _. rewrite <- rsum_scal_l. reflexivity.
Qed.

(** inner product *)
Lemma dot_ext n u u' v v' : (forall i, (i < n)%nat -> u i = u' i) -> (forall i, (i < n)%nat -> v i = v' i) ->
  dot n u v = dot n u' v'.
Proof. intros H K. apply rsum_ext. intros i Hi. rewrite H, K by assumption. reflexivity. Qed.
Lemma norm_ext n u u' : (forall i, (i < n)%nat -> u i = u' i) -> norm n u = norm n u'.
Proof. intros H. unfold norm. f_equal. apply dot_ext; exact H. Qed.
Lemma dot_sym n u v : dot n u v = dot n v u.
Proof. apply rsum_ext. intros; lra. Qed.
Lemma dot_self_nonneg n u : 0 <= dot n u u.
Proof. apply rsum_nonneg. intros. nra. Qed.
Lemma dot_self_zero n u : dot n u u = 0 -> forall i, (i < n)%nat -> u i = 0.
Proof.
  intros H i Hi. assert (K := rsum_nonneg_zero n (fun i => u i * u i) ltac:(intros; nra) H i Hi). cbn in K. nra.
Qed.
Lemma dot_plus_l n u v w : dot n (fun i => u i + v i) w = dot n u w + dot n v w.
Proof. unfold dot. rewrite <- rsum_plus. apply rsum_ext. intros; lra. Qed.
Lemma dot_minus_l n u v w : dot n (fun i => u i - v i) w = dot n u w - dot n v w.
Proof. unfold dot. rewrite <- rsum_minus. apply rsum_ext. intros; lra. Qed.
Lemma dot_scal_l n a u w : dot n (fun i => a * u i) w = a * dot n u w.
Proof. unfold dot. rewrite <- rsum_scal_l. apply rsum_ext. intros; lra. Qed.
Lemma dot_scal_r n a u w : dot n w (fun i => a * u i) = a * dot n w u.
Proof. rewrite dot_sym, dot_scal_l, dot_sym. reflexivity. Qed.
Lemma norm_nonneg n u : 0 <= norm n u.
Proof. apply sqrt_pos. Qed.
Lemma norm_sq n u : norm n u * norm n u = dot n u u.
Proof. apply sqrt_sqrt, dot_self_nonneg. Qed.
Lemma norm_zero n u : norm n u = 0 <-> forall i, (i < n)%nat -> u i = 0.
Proof.
  split.
  - intros H. apply dot_self_zero. rewrite <- norm_sq, H. lra.
  - intros H. unfold norm. replace (dot n u u) with 0; [apply sqrt_0|]. symmetry. apply rsum_zero. intros i Hi. rewrite H by assumption. lra.
Qed.
Lemma norm_scal n a u : norm n (fun i => a * u i) = Rabs a * norm n u.
Proof.
  unfold norm. rewrite dot_scal_l, dot_scal_r. replace (a * (a * dot n u u)) with (Rsqr a * dot n u u) by (unfold Rsqr; lra).
  rewrite sqrt_mult; [|apply Rle_0_sqr|apply dot_self_nonneg]. rewrite sqrt_Rsqr_abs. reflexivity.
Qed.

Lemma cauchy_schwarz_sq n u v : dot n u v * dot n u v <= dot n u u * dot n v v.
Proof.
  set (a := dot n u u). set (b := dot n u v). set (c := dot n v v).
  assert (Ha : 0 <= a) by apply dot_self_nonneg. assert (Hc : 0 <= c) by apply dot_self_nonneg.
  (* |c u - b v|^2 >= 0 *)
  assert (H : 0 <= dot n (fun i => c * u i - b * v i) (fun i => c * u i - b * v i)) by apply dot_self_nonneg.
  rewrite dot_minus_l, !dot_scal_l in H.
  rewrite (dot_sym n u), (dot_sym n v (fun i => _)) in H.
  rewrite !dot_minus_l, !dot_scal_l in H. rewrite (dot_sym n v u) in H. fold a b c in H.
  destruct (Req_dec c 0) as [Hc0|Hc0].
  - assert (Hv := dot_self_zero n v Hc0).
    assert (Hb : b = 0). { unfold b. apply rsum_zero. intros i Hi. rewrite Hv by assumption. lra. }
    rewrite Hb, Hc0. lra.
  - assert (0 < c) by lra. assert (0 <= c * (c * a - b * b)) by nra.
    assert (0 <= c * a - b * b). { apply Rmult_le_reg_l with c; [assumption|]. lra. } nra.
Qed.
Lemma cauchy_schwarz n u v : Rabs (dot n u v) <= norm n u * norm n v.
Proof.
  apply Rsqr_incr_0_var; [|apply Rmult_le_pos; apply norm_nonneg].
  rewrite <- Rsqr_abs. unfold Rsqr.
  replace (norm n u * norm n v * (norm n u * norm n v)) with ((norm n u * norm n u) * (norm n v * norm n v)) by ring.
  rewrite !norm_sq. apply cauchy_schwarz_sq.
Qed.

(** ** link with the model at the real carrier *)
#[export] Existing Instance RNum.

Lemma sumn_rsum n (f : nat -> R) : sumn n f = rsum n f.
Proof. induction n as [|n IH]; cbn; [reflexivity|]. rewrite <- IH. reflexivity. Qed.

Lemma suml_acc (l : list R) a : fold_left (@fadd RNum) l a = a + fold_right Rplus 0 l.
Proof. revert a; induction l as [|x t IH]; intros a; cbn; [lra|]. rewrite IH. cbn. lra. Qed.
Lemma suml_fold_right (l : list R) : suml l = fold_right Rplus 0 l.
Proof. unfold suml. rewrite suml_acc. cbn. lra. Qed.
Lemma fold_right_app_plus (l1 l2 : list R) : fold_right Rplus 0 (l1 ++ l2) = fold_right Rplus 0 l1 + fold_right Rplus 0 l2.
Proof. induction l1 as [|x t IH]; cbn; [lra|]. rewrite IH. lra. Qed.
Lemma fold_right_map_seq (f : nat -> R) n : fold_right Rplus 0 (map f (seq 0 n)) = rsum n f.
Proof.
  induction n as [|n IH]; [reflexivity|]. rewrite seq_S, map_app, fold_right_app_plus, IH. cbn. lra.
Qed.
Lemma suml_map_seq (f : nat -> R) n : suml (map f (seq 0 n)) = rsum n f.
Proof. rewrite suml_fold_right. apply fold_right_map_seq. Qed.

(** sum over the stored pairs of a row = sum over all columns *)
Lemma row_sum_entries (g : R -> R) (r : list (nat * R)) nc : g 0 = 0 -> NoDup (map fst r) ->
  Forall (fun p => (fst p < nc)%nat) r ->
  fold_right Rplus 0 (map g (map snd r)) = rsum nc (fun j => g (rval r j)).
Proof.
  intros Hg. induction r as [|[k x] t IH]; cbn [map fold_right fst snd]; intros Hn Hf.
  - rewrite rsum_zero; [reflexivity|]. intros; cbn. exact Hg.
  - inversion Hn as [|? ? Hni Hn']; subst. inversion Hf as [|? ? Hk Hf']; subst. cbn in Hk.
    rewrite IH by assumption.
    rewrite (rsum_ext nc (fun j => g (@rval RNum ((k, x) :: t) j)) (fun j => (if Nat.eqb j k then g x else 0) + g (@rval RNum t j))).
    + rewrite rsum_plus. f_equal. rewrite (rsum_single nc k); [rewrite Nat.eqb_refl; reflexivity|assumption|].
      intros i _ Hi. destruct (Nat.eqb_spec i k); [contradiction|reflexivity].
    + intros j _. unfold rval. cbn [rlookup]. destruct (Nat.eqb_spec j k) as [->|].
      * destruct (@rlookup RNum t k) eqn:El.
        -- apply rlookup_In in El; [|assumption]. exfalso. apply Hni. apply (in_map fst) in El. exact El.
        -- change (g x = g x + g 0). rewrite Hg. lra.
      * lra.
Qed.

Lemma data_sum (g : R -> R) c : swf c -> g 0 = 0 ->
  suml (map g (s_data c)) = rsum (s_nr c) (fun i => rsum (s_nc c) (fun j => g (sent c i j))).
Proof.
  intros Hc Hg. rewrite suml_fold_right, data_concat by assumption. unfold srows.
  rewrite <- fold_right_map_seq.
  assert (K : forall l, (forall i, In i l -> (i < s_nr c)%nat) ->
     fold_right Rplus 0 (map g (concat (map (map snd) (map (srow c) l)))) =
     fold_right Rplus 0 (map (fun i => rsum (s_nc c) (fun j => g (sent c i j))) l)).
  { induction l as [|i l IH]; intros Hl; [reflexivity|]. cbn [map concat fold_right].
    rewrite map_app, fold_right_app_plus. apply f_equal2; [|apply IH; intros; apply Hl; right; assumption].
    assert (Hi : (i < s_nr c)%nat) by (apply Hl; left; reflexivity).
    apply row_sum_entries; [exact Hg|apply Hc; exact Hi|exact (srow_cols c i Hc Hi)]. }
  apply K. intros i Hi. apply in_seq in Hi. lia.
Qed.

(** ** value of the scalar-valued Matrix methods *)
Lemma d_total_R d : d_total d = rsum (d_nr d) (fun i => rsum (d_nc d) (dent d i)).
Proof. unfold d_total. rewrite sumn_rsum. apply rsum_ext. intros. apply sumn_rsum. Qed.
Lemma m_sum_R m : m_sum m = rsum (m_nr m) (fun i => rsum (m_nc m) (fun j => ment m i j)).
Proof.
  unfold m_sum. rewrite d_total_R, to_dense_nr, to_dense_nc. apply rsum_ext. intros i Hi. apply rsum_ext. intros j Hj.
  exact (dent_to_dense m i j Hi Hj).
Qed.
Lemma m_norm_R m : mwf m ->
  m_norm m = sqrt (rsum (m_nr m) (fun i => rsum (m_nc m) (fun j => ment m i j * ment m i j))).
Proof.
  destruct m as [d|c]; cbn [m_norm m_nr m_nc ment]; intros H.
  - unfold d_sqtotal. rewrite sumn_rsum. change (@fsqrt RNum) with sqrt. apply (f_equal sqrt). apply rsum_ext. intros. apply sumn_rsum.
  - change (@fsqrt RNum) with sqrt. apply (f_equal sqrt). rewrite (data_sum (@fsq RNum)); [reflexivity|exact H|]. unfold fsq; cbn; lra.
Qed.
Lemma nth_m_sum1_R m i : (i < m_nr m)%nat -> nth i (m_sum1 m) 0 = rsum (m_nc m) (ment m i).
Proof.
  intros Hi. unfold m_sum1, d_sum1. rewrite to_dense_nr. rewrite nth_map_seq by assumption. rewrite sumn_rsum, to_dense_nc.
  apply rsum_ext. intros j Hj. exact (dent_to_dense m i j Hi Hj).
Qed.
Lemma nth_m_sum0_R m j : (j < m_nc m)%nat -> nth j (m_sum0 m) 0 = rsum (m_nr m) (fun i => ment m i j).
Proof.
  intros Hj. unfold m_sum0, d_sum0. rewrite to_dense_nc. rewrite nth_map_seq by assumption. rewrite sumn_rsum, to_dense_nr.
  apply rsum_ext. intros i Hi. exact (dent_to_dense m i j Hi Hj).
Qed.
Lemma map_nth_sqrt l i : nth i (map sqrt l) 0 = sqrt (nth i l 0).
Proof. rewrite <- sqrt_0 at 1. apply map_nth. Qed.
Lemma nth_m_norm1_R m i : mwf m -> (i < m_nr m)%nat -> nth i (m_norm1 m) 0 = norm (m_nc m) (ment m i).
Proof.
  intros Hm Hi. unfold m_norm1. change (@fsqrt RNum) with sqrt. rewrite map_nth_sqrt. unfold norm. f_equal.
  rewrite nth_m_sum1_R by (rewrite of_dense_nr; cbn; rewrite to_dense_nr; assumption).
  rewrite of_dense_nc. cbn [d_map2 tab d_nc]. rewrite to_dense_nc. apply rsum_ext. intros j Hj.
  rewrite ment_of_dense by (cbn; rewrite ?to_dense_nr, ?to_dense_nc; assumption).
  unfold d_map2. rewrite dent_tab by (rewrite ?to_dense_nr, ?to_dense_nc; assumption).
  rewrite dent_to_dense by assumption. reflexivity.
Qed.
Lemma nth_m_norm0_R m j : mwf m -> (j < m_nc m)%nat -> nth j (m_norm0 m) 0 = norm (m_nr m) (fun i => ment m i j).
Proof.
  intros Hm Hj. unfold m_norm0. change (@fsqrt RNum) with sqrt. rewrite map_nth_sqrt. unfold norm. f_equal.
  rewrite nth_m_sum0_R by (rewrite of_dense_nc; cbn; rewrite to_dense_nc; assumption).
  rewrite of_dense_nr. cbn [d_map2 tab d_nr]. rewrite to_dense_nr. apply rsum_ext. intros i Hi.
  rewrite ment_of_dense by (cbn; rewrite ?to_dense_nr, ?to_dense_nc; assumption).
  unfold d_map2. rewrite dent_tab by (rewrite ?to_dense_nr, ?to_dense_nc; assumption).
  rewrite dent_to_dense by assumption. reflexivity.
Qed.
Lemma Reqb_true a b : Reqb a b = true -> a = b.  Proof. apply Reqb_eq. Qed.
Lemma Reqb_false a b : Reqb a b = false -> a <> b.
Proof. unfold Reqb. destruct (Req_EM_T a b); congruence. Qed.
Lemma Rltb_true a b : Rltb a b = true <-> a < b.
Proof. unfold Rltb. destruct (Rlt_dec a b); split; congruence || auto; contradiction. Qed.
Lemma Rltb_false a b : Rltb a b = false <-> b <= a.
Proof. unfold Rltb. destruct (Rlt_dec a b); split; intros; try lra; congruence. Qed.
Lemma fleb_R (a b : R) : @fleb RNum a b = true <-> a <= b.
Proof. unfold fleb. cbn [fltb RNum]. rewrite negb_true_iff. apply Rltb_false. Qed.

(** view an equality in [F RNum] as an equality of reals, so that ring / field / lra apply *)
Ltac toR := repeat change (@fopp RNum) with Ropp in *; repeat change (@fmul RNum) with Rmult in *; repeat change (@fadd RNum) with Rplus in *;
  repeat change (@fsub RNum) with Rminus in *; repeat change (@fdiv RNum) with Rdiv in *; change (@f0 RNum) with 0 in *; change (@f1 RNum) with 1 in *;
  try match goal with |- @eq _ ?a ?b => change (@eq R a b) end.
Lemma R_eq_intro (a b : R) : a + 0 = b + 0 -> a = b.
Proof. lra. Qed.
Ltac rring := toR; apply R_eq_intro; ring.
