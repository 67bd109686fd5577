(** PShape.v -- shapes, classes and well-formedness of the results of every transformation. *)
From Verif Require Import Base PyList Dict Num Dense Sparse Matrix PSparse PMatrix PMatOps Scaling Linalg Operation.
Section PShape.
Context {N : Num}.
Local Open Scope nat_scope.

(** well-formed, of class t, r x c *)
Definition has (m : matrix) (t : mtype) (r c : nat) : Prop :=
  mwf m /\ type_of m = t /\ m_nr m = r /\ m_nc m = c.

Lemma has_self m : mwf m -> has m (type_of m) (m_nr m) (m_nc m).
Proof. repeat split; auto. Qed.
Lemma is_mat_has m t d : is_mat m t d -> has m t (d_nr d) (d_nc d).
Proof. intros H. pose proof (is_mat_nr _ _ _ H). pose proof (is_mat_nc _ _ _ H). destruct H as (?&?&_). repeat split; auto. Qed.
Lemma has_wf m t r c : has m t r c -> mwf m.  Proof. intros (H&_); exact H. Qed.
Lemma has_pos m t r c : has m t r c -> 0 < r /\ 0 < c.
Proof. intros (H&_&<-&<-). apply mwf_pos, H. Qed.

Lemma has_sub a b t r c : has a t r c -> has b t r c ->
  exists z, m_sub a b = Ok z /\ has z t r c /\ to_dense z = d_map2 fsub (to_dense a) (to_dense b).
Proof.
  intros (Ha&Ta&Ra&Ca) (Hb&Tb&Rb&Cb). destruct (m_zip_same fsub a b) as (z & E & Hz); try congruence.
  exists z. split; [exact E|]. pose proof (is_mat_has _ _ _ Hz) as H. rewrite Ta in H. cbn [d_map2 tab d_nr d_nc] in H.
  rewrite to_dense_nr, to_dense_nc, Ra, Ca in H. split; [exact H|]. apply Hz.
Qed.
Lemma has_add a b t r c : has a t r c -> has b t r c ->
  exists z, m_add a b = Ok z /\ has z t r c /\ to_dense z = d_map2 fadd (to_dense a) (to_dense b).
Proof.
  intros (Ha&Ta&Ra&Ca) (Hb&Tb&Rb&Cb). destruct (m_zip_same fadd a b) as (z & E & Hz); try congruence.
  exists z. split; [exact E|]. pose proof (is_mat_has _ _ _ Hz) as H. rewrite Ta in H. cbn [d_map2 tab d_nr d_nc] in H.
  rewrite to_dense_nr, to_dense_nc, Ra, Ca in H. split; [exact H|]. apply Hz.
Qed.
Lemma has_mul a b t r k c : has a t r k -> has b t k c ->
  exists z, m_mul a b = Ok z /\ has z t r c /\ to_dense z = d_mul (to_dense a) (to_dense b).
Proof.
  intros (Ha&Ta&Ra&Ca) (Hb&Tb&Rb&Cb). destruct (m_mul_total a b) as (z & E); try congruence.
  exists z. split; [exact E|]. apply m_mul_ok in E; [|assumption|assumption]. destruct E as (_&_&Hz).
  pose proof (is_mat_has _ _ _ Hz) as H. rewrite Ta in H. cbn [d_mul tab d_nr d_nc] in H.
  rewrite to_dense_nr, to_dense_nc, Ra, Cb in H. split; [exact H|]. apply Hz.
Qed.
Lemma has_multiply a b t r c : has a t r c -> has b t r c ->
  exists z, m_multiply a b = Ok z /\ has z t r c /\ to_dense z = d_map2 fmul (to_dense a) (to_dense b).
Proof.
  intros (Ha&Ta&Ra&Ca) (Hb&Tb&Rb&Cb). destruct (m_multiply_same a b) as (z & E & Hz); try congruence.
  exists z. split; [exact E|]. pose proof (is_mat_has _ _ _ Hz) as H. rewrite Ta in H. cbn [d_map2 tab d_nr d_nc] in H.
  rewrite to_dense_nr, to_dense_nc, Ra, Ca in H. split; [exact H|]. apply Hz.
Qed.
Lemma has_vstack a b t r1 r2 c : has a t r1 c -> has b t r2 c ->
  exists z, m_vstack a b = Ok z /\ has z t (r1 + r2) c /\ to_dense z = d_vstack (to_dense a) (to_dense b).
Proof.
  intros (Ha&Ta&Ra&Ca) (Hb&Tb&Rb&Cb). destruct (m_vstack_same a b) as (z & E & Hz); try congruence.
  exists z. split; [exact E|]. pose proof (is_mat_has _ _ _ Hz) as H. rewrite Ta in H. cbn [d_vstack tab d_nr d_nc] in H.
  rewrite !to_dense_nr, to_dense_nc, Ra, Ca, Rb in H. split; [exact H|]. apply Hz.
Qed.
Lemma has_hstack a b t r c1 c2 : has a t r c1 -> has b t r c2 ->
  exists z, m_hstack a b = Ok z /\ has z t r (c1 + c2) /\ to_dense z = d_hstack (to_dense a) (to_dense b).
Proof.
  intros (Ha&Ta&Ra&Ca) (Hb&Tb&Rb&Cb). destruct (m_hstack_same a b) as (z & E & Hz); try congruence.
  exists z. split; [exact E|]. pose proof (is_mat_has _ _ _ Hz) as H. rewrite Ta in H. cbn [d_hstack tab d_nr d_nc] in H.
  rewrite to_dense_nr, !to_dense_nc, Ra, Ca, Cb in H. split; [exact H|]. apply Hz.
Qed.
Lemma has_scal x a t r c : has a t r c -> has (m_scal x a) t r c /\ to_dense (m_scal x a) = d_scal x (to_dense a).
Proof.
  intros (Ha&Ta&Ra&Ca). pose proof (m_scal_is x a Ha) as Hz. pose proof (is_mat_has _ _ _ Hz) as H.
  rewrite Ta in H. cbn [d_scal d_map tab d_nr d_nc] in H. rewrite to_dense_nr, to_dense_nc, Ra, Ca in H.
  split; [exact H|]. apply Hz.
Qed.
Lemma has_neg a t r c : has a t r c -> has (m_neg a) t r c /\ to_dense (m_neg a) = d_map fopp (to_dense a).
Proof.
  intros (Ha&Ta&Ra&Ca). pose proof (m_neg_is a Ha) as Hz. pose proof (is_mat_has _ _ _ Hz) as H.
  rewrite Ta in H. cbn [d_map tab d_nr d_nc] in H. rewrite to_dense_nr, to_dense_nc, Ra, Ca in H.
  split; [exact H|]. apply Hz.
Qed.
Lemma has_transpose a t r c : has a t r c -> has (m_transpose a) t c r /\ to_dense (m_transpose a) = d_transpose (to_dense a).
Proof.
  intros (Ha&Ta&Ra&Ca). pose proof (m_transpose_is a Ha) as Hz. pose proof (is_mat_has _ _ _ Hz) as H.
  rewrite Ta in H. cbn [d_transpose tab d_nr d_nc] in H. rewrite to_dense_nr, to_dense_nc, Ra, Ca in H.
  split; [exact H|]. apply Hz.
Qed.
Lemma has_get_non_negative a t r c : has a t r c ->
  has (m_get_non_negative a) t r c /\ to_dense (m_get_non_negative a) = d_map pos_part (to_dense a).
Proof.
  intros (Ha&Ta&Ra&Ca). pose proof (m_get_non_negative_is a Ha) as Hz. pose proof (is_mat_has _ _ _ Hz) as H.
  rewrite Ta in H. cbn [d_map tab d_nr d_nc] in H. rewrite to_dense_nr, to_dense_nc, Ra, Ca in H.
  split; [exact H|]. apply Hz.
Qed.
Lemma has_of_dense t d : dwfm d -> has (of_dense t d) t (d_nr d) (d_nc d).
Proof. intros H. apply is_mat_has, of_dense_is, H. Qed.
Lemma has_tab t r c f : 0 < r -> 0 < c -> has (of_dense t (tab r c f)) t r c.
Proof. intros. apply (has_of_dense t (tab r c f)), tab_wf; assumption. Qed.
Lemma has_all_close a b t r c : has a t r c -> has b t r c -> exists z, m_all_close a b = Ok z.
Proof.
  intros (Ha&Ta&Ra&Ca) (Hb&Tb&Rb&Cb). destruct a as [x|x], b as [y|y]; cbn in Ta, Tb; try congruence.
  - cbn [m_all_close]. rewrite d_bcast_same by (cbn in *; congruence). cbn [bind]. eauto.
  - cbn [m_all_close]. rewrite (proj2 (same_shapeb_iff _ _)) by (cbn in *; split; congruence). cbn [check bind]. eauto.
Qed.
Lemma has_conv t m r c : mwf m -> m_nr m = r -> m_nc m = c -> has (conv t m) t r c.
Proof. intros H <- <-. split; [apply conv_wf, H|]. split; [apply conv_type|]. split; [apply conv_nr|apply conv_nc]. Qed.

Lemma scale_rows_has a v z t r c : has a t r c -> m_scale_rows a v = Ok z -> has z t r c.
Proof.
  intros (Ha&Ta&Ra&Ca) E. apply m_scale_rows_ok in E; [|assumption]. destruct E as (_&Hz).
  apply is_mat_has in Hz. rewrite Ta in Hz. cbn [d_scale_rows tab d_nr d_nc] in Hz.
  rewrite to_dense_nr, to_dense_nc, Ra, Ca in Hz. exact Hz.
Qed.
Lemma scale_cols_has a v z t r c : has a t r c -> m_scale_cols a v = Ok z -> has z t r c.
Proof.
  intros (Ha&Ta&Ra&Ca) E. apply m_scale_cols_ok in E; [|assumption]. destruct E as (_&Hz).
  apply is_mat_has in Hz. rewrite Ta in Hz. cbn [d_scale_cols tab d_nr d_nc] in Hz.
  rewrite to_dense_nr, to_dense_nc, Ra, Ca in Hz. exact Hz.
Qed.
Lemma plog_has a t r c : has a t r c -> has (m_plog a) t r c.
Proof. intros (Ha&Ta&Ra&Ca). repeat split; [apply m_plog_wf, Ha|rewrite m_plog_type; exact Ta|rewrite m_plog_nr; exact Ra|rewrite m_plog_nc; exact Ca]. Qed.

(** ** scalings keep class and shape *)
Lemma epmi_has a g z t r c : has a t r c -> epmi_apply a g = Ok z -> has z t r c.
Proof.
  intros Ha E. unfold epmi_apply in E. inv_ok. eapply scale_cols_has; [|eassumption].
  eapply scale_rows_has; eassumption.
Qed.
Lemma ppmi_has a g z t r c : has a t r c -> ppmi_apply a g = Ok z -> has z t r c.
Proof. intros Ha E. unfold ppmi_apply in E. inv_ok. apply plog_has. eapply epmi_has; eassumption. Qed.
Lemma plmi_has a g z t r c : has a t r c -> plmi_apply a g = Ok z -> has z t r c.
Proof.
  intros Ha E. unfold plmi_apply in E. inv_ok. pose proof (ppmi_has _ _ _ _ _ _ Ha Hm) as Hp.
  destruct (has_multiply _ _ _ _ _ Ha Hp) as (z' & E' & H & _). congruence.
Qed.
Lemma scaling_has s a st z t r c : has a t r c -> scaling_apply s a st = Ok z -> has z t r c.
Proof.
  intros Ha E. destruct s, st as [[l|x]|]; cbn [scaling_apply] in E; try discriminate;
    try (eapply epmi_has; eassumption); try (eapply ppmi_has; eassumption); try (eapply plmi_has; eassumption).
  - unfold plog_apply in E. inv_ok. apply plog_has, Ha.
  - unfold rownorm_apply in E. eapply scale_rows_has; eassumption.
  - unfold norm_apply in E. destruct (feqb _ _); inv_ok; [assumption|apply has_scal; assumption].
  - unfold norm_apply in E. destruct (feqb _ _); inv_ok; [assumption|apply has_scal; assumption].
Qed.

(** ** feature selection *)
Lemma sorted_permutation_lt l : Forall (fun j => j < length l) (sorted_permutation l).
Proof.
  apply Forall_forall. intros j Hj. unfold sorted_permutation in Hj.
  apply (Permutation.Permutation_in _ (Permutation.Permutation_sym (stable_sort_perm _ _))) in Hj.
  apply in_seq in Hj. lia.
Qed.
Lemma sorted_permutation_length l : length (sorted_permutation l) = length l.
Proof. unfold sorted_permutation. rewrite stable_sort_length, seq_length. reflexivity. Qed.
Lemma sorted_permutation_NoDup l : NoDup (sorted_permutation l).
Proof. unfold sorted_permutation. eapply Permutation.Permutation_NoDup; [apply stable_sort_perm|apply seq_NoDup]. Qed.

Lemma m_sum0_length m : length (m_sum0 m) = m_nc m.
Proof. unfold m_sum0, d_sum0. rewrite map_length, seq_length. apply to_dense_nc. Qed.
Lemma m_sum1_length m : length (m_sum1 m) = m_nr m.
Proof. unfold m_sum1, d_sum1. rewrite map_length, seq_length. apply to_dense_nr. Qed.
Lemma m_norm0_length m : length (m_norm0 m) = m_nc m.
Proof. unfold m_norm0. rewrite map_length, m_sum0_length, of_dense_nc. cbn [d_map2 tab d_nc]. apply to_dense_nc. Qed.
Lemma m_norm1_length m : length (m_norm1 m) = m_nr m.
Proof. unfold m_norm1. rewrite map_length, m_sum1_length, of_dense_nr. cbn [d_map2 tab d_nr]. apply to_dense_nr. Qed.

Lemma NoDup_app_l {A} (l1 l2 : list A) : NoDup (l1 ++ l2) -> NoDup l1.
Proof.
  induction l1 as [|x xs IH]; cbn; intros H; [constructor|]. inversion H; subst. constructor; [|auto].
  intros Hin. apply H2. apply in_or_app; left; exact Hin.
Qed.

Definition fs_norms (c : crit) (m : matrix) : list F := match c with CSum => m_sum0 m | CLength => m_norm0 m end.
Lemma fs_norms_length c m : length (fs_norms c m) = m_nc m.
Proof. destruct c; [apply m_sum0_length|apply m_norm0_length]. Qed.

Lemma topfs_ok c k m r sel : mwf m -> topfs_apply c k m = Ok (r, sel) ->
  sel = firstn (Nat.min k (m_nc m)) (sorted_permutation (fs_norms c m)) /\ 0 < k /\
  length sel = Nat.min k (m_nc m) /\ NoDup sel /\ Forall (fun j => j < m_nc m) sel /\
  is_mat r (type_of m) (d_cols (to_dense m) sel).
Proof.
  intros Hm E. unfold topfs_apply in E. fold (fs_norms c m) in E. inv_ok.
  apply m_get_cols_ok in Hm0; [|assumption]. destruct Hm0 as (Hf & Hl & Hi).
  split; [reflexivity|]. split; [destruct k; [cbn in Hl; lia|lia]|]. split; [|split; [|split; assumption]].
  - rewrite firstn_length, sorted_permutation_length, fs_norms_length. lia.
  - pose proof (sorted_permutation_NoDup (fs_norms c m)) as Hn.
    rewrite <- (firstn_skipn (Nat.min k (m_nc m))) in Hn. apply NoDup_app_l in Hn. exact Hn.
Qed.
Lemma topfs_total c k m : mwf m -> 0 < k -> exists r sel, topfs_apply c k m = Ok (r, sel).
Proof.
  intros Hm Hk. unfold topfs_apply. fold (fs_norms c m).
  destruct (m_get_cols_total m (firstn (Nat.min k (m_nc m)) (sorted_permutation (fs_norms c m)))) as (r & E).
  - apply Forall_forall. intros j Hj. 
    assert (Hin : In j (sorted_permutation (fs_norms c m))).
    { rewrite <- (firstn_skipn (Nat.min k (m_nc m))). apply in_or_app. left; exact Hj. }
    pose proof (sorted_permutation_lt (fs_norms c m)) as HF. rewrite Forall_forall in HF.
    rewrite <- (fs_norms_length c m). apply HF, Hin.
  - rewrite firstn_length, sorted_permutation_length, fs_norms_length. pose proof (mwf_pos m Hm). lia.
  - rewrite E. cbn [bind]. eauto.
Qed.

Context {E : Ext}.

(** ** svd *)
Lemma linalg_svd_has k m u s v : mwf m -> linalg_svd m k = Ok (u, s, v) ->
  exists n, 0 < n <= k /\ length s = n /\ has u (type_of m) (m_nr m) n /\ has v (type_of m) (m_nc m) n.
Proof.
  intros Hm H. pose proof (mwf_pos m Hm) as (Hr & Hc). unfold linalg_svd in H. inv_ok. destruct m as [d|c].
  - unfold dense_svd in H. apply bind_ok in H. destruct H as ([[u0 s0] vt0] & _ & H). inv_ok.
    match goal with K : negb (Nat.eqb (Nat.min _ _) 0) = true |- _ => apply negb_true_iff, Nat.eqb_neq in K end.
    set (n := Nat.min (Nat.min (d_nr d) (d_nc d)) _) in *. exists n.
    assert (Hu : has (MD (tab (d_nr d) n u0)) TDense (d_nr d) n) by (apply (has_tab TDense); [exact Hr|lia]).
    assert (Hv : has (MD (tab (d_nc d) n (fun i j => vt0 j i))) TDense (d_nc d) n) by (apply (has_tab TDense); [exact Hc|lia]).
    cbn [type_of m_nr m_nc].
    assert (Hs : length (firstn n (map s0 (seq 0 (Nat.min (d_nr d) (d_nc d))))) = n).
    { rewrite firstn_length, map_length, seq_length. unfold n. lia. }
    assert (Hn : 0 < n <= k) by lia.
    destruct (m_is_mostly_positive _); inv_ok; (split; [exact Hn|]); (split; [exact Hs|]).
    + split; assumption.
    + split; apply has_neg; assumption.
  - unfold sparse_svd in H. apply bind_ok in H. destruct H as ([[[dim u0] s0] vt0] & _ & H). inv_ok.
    match goal with K : negb (Nat.eqb (Nat.min _ _) 0) = true |- _ => apply negb_true_iff, Nat.eqb_neq in K end.
    set (n := Nat.min dim k) in *. exists n.
    assert (Hu : has (MS (csr_of_dense (tab (s_nr c) n (fun i j => u0 j i)))) TSparse (s_nr c) n) by (apply (has_tab TSparse); [exact Hr|lia]).
    assert (Hv : has (MS (csr_of_dense (tab (s_nc c) n (fun i j => vt0 j i)))) TSparse (s_nc c) n) by (apply (has_tab TSparse); [exact Hc|lia]).
    cbn [type_of m_nr m_nc].
    assert (Hs : length (map s0 (seq 0 n)) = n) by (rewrite map_length, seq_length; reflexivity).
    assert (Hn : 0 < n <= k) by lia.
    destruct (m_is_mostly_positive _); inv_ok; (split; [exact Hn|]); (split; [exact Hs|]).
    + split; assumption.
    + split; apply has_neg; assumption.
Qed.
Lemma svd_apply_has k m us v : mwf m -> svd_apply k m = Ok (us, v) ->
  exists n, 0 < n <= k /\ has us (type_of m) (m_nr m) n /\ has v (type_of m) (m_nc m) n.
Proof.
  intros Hm H. unfold svd_apply in H. apply bind_ok in H. destruct H as ([[u s] v0] & H1 & H). inv_ok.
  destruct (linalg_svd_has _ _ _ _ _ Hm H1) as (n & Hn & Hs & Hu & Hv). exists n. split; [exact Hn|].
  split; [|exact Hv]. eapply scale_cols_has; eassumption.
Qed.

(** ** nmf : every run succeeds and keeps the shapes *)
Lemma nmf_try_has wtw grad h alpha t k n : has wtw t k k -> has grad t k n -> has h t k n ->
  exists hn b, nmf_try wtw grad h alpha = Ok (hn, b) /\ has hn t k n /\
    to_dense hn = d_map pos_part (d_map2 fsub (to_dense h) (d_scal alpha (to_dense grad))).
Proof.
  intros Hw Hg Hh. unfold nmf_try.
  destruct (has_scal alpha _ _ _ _ Hg) as (Hs & Es).
  destruct (has_sub _ _ _ _ _ Hh Hs) as (h1 & -> & H1 & E1). cbn [bind].
  destruct (has_get_non_negative _ _ _ _ H1) as (Hn & En).
  destruct (has_sub _ _ _ _ _ Hn Hh) as (d & -> & Hd & _). cbn [bind].
  destruct (has_multiply _ _ _ _ _ Hg Hd) as (gd & -> & _ & _). cbn [bind].
  destruct (has_mul _ _ _ _ _ _ Hw Hd) as (wd & -> & Hwd & _). cbn [bind].
  destruct (has_multiply _ _ _ _ _ Hwd Hd) as (wdd & -> & _ & _). cbn [bind].
  eexists _, _. split; [reflexivity|]. split; [exact Hn|]. rewrite En, E1, Es. reflexivity.
Qed.

Lemma nmf_inner_has i : forall wtw grad h hp alpha decr t k n,
  has wtw t k k -> has grad t k n -> has h t k n -> has hp t k n ->
  exists h' a', nmf_inner i wtw grad h hp alpha decr = Ok (h', a') /\ has h' t k n.
Proof.
  induction i as [|i IH]; intros wtw grad h hp alpha decr t k n Hw Hg Hh Hp; cbn [nmf_inner]; [eauto|].
  destruct (nmf_try_has _ _ _ alpha _ _ _ Hw Hg Hh) as (hn & b & -> & Hn & _). cbn [bind].
  destruct decr, b; cbn [negb]; eauto.
  destruct (has_all_close _ _ _ _ _ Hp Hn) as (cl & ->). cbn [bind]. destruct cl; eauto.
Qed.

Lemma nmf_search_has wtw grad h alpha t k n : has wtw t k k -> has grad t k n -> has h t k n ->
  exists h' a', nmf_search wtw grad h alpha = Ok (h', a') /\ has h' t k n.
Proof.
  intros Hw Hg Hh. unfold nmf_search.
  destruct (nmf_try_has _ _ _ alpha _ _ _ Hw Hg Hh) as (hn & b & -> & Hn & _). cbn [bind].
  destruct b; cbn [negb].
  - destruct (has_all_close _ _ _ _ _ Hh Hn) as (cl & ->). cbn [bind].
    destruct cl; [eauto|]. eapply nmf_inner_has; eassumption.
  - eapply nmf_inner_has; eassumption.
Qed.

Lemma nmf_sub_loop_has i : forall wtv wtw h alpha t k n,
  has wtw t k k -> has wtv t k n -> has h t k n ->
  exists h', nmf_sub_loop i wtv wtw h alpha = Ok h' /\ has h' t k n.
Proof.
  induction i as [|i IH]; intros wtv wtw h alpha t k n Hw Hv Hh; cbn [nmf_sub_loop]; [eauto|].
  destruct (has_mul _ _ _ _ _ _ Hw Hh) as (wh & -> & Hwh & _). cbn [bind].
  destruct (has_sub _ _ _ _ _ Hwh Hv) as (g & -> & Hg & _). cbn [bind].
  destruct (nmf_search_has _ _ _ alpha _ _ _ Hw Hg Hh) as (h' & a' & -> & Hh'). cbn [bind]. eauto.
Qed.

Lemma nmf_nlssubprob_has v w wt h t m k n :
  has v t m n -> has w t m k -> has wt t k m -> has h t k n ->
  exists h', nmf_nlssubprob v w wt h = Ok h' /\ has h' t k n.
Proof.
  intros Hv Hw Hwt Hh. unfold nmf_nlssubprob.
  destruct (has_mul _ _ _ _ _ _ Hwt Hv) as (wtv & -> & Hwtv & _). cbn [bind].
  destruct (has_mul _ _ _ _ _ _ Hwt Hw) as (wtw & -> & Hwtw & _). cbn [bind].
  eapply nmf_sub_loop_has; eassumption.
Qed.

Lemma nmf_loop_has i : forall r v vt w h t m k n,
  has v t m n -> has vt t n m -> has w t m k -> has h t k n ->
  exists w' h', nmf_loop i r v vt w h = Ok (w', h') /\ has w' t m k /\ has h' t k n.
Proof.
  induction i as [|i IH]; intros r v vt w h t m k n Hv Hvt Hw Hh; cbn [nmf_loop]; [eauto 6|].
  destruct (e_timeout r); [eauto 6|].
  destruct (nmf_nlssubprob_has vt (m_transpose h) h (m_transpose w) t n k m Hvt) as (ow & -> & How).
  { apply has_transpose, Hh. } { exact Hh. } { apply has_transpose, Hw. }
  cbn [bind]. pose proof (proj1 (has_transpose _ _ _ _ How)) as Hw'.
  destruct (nmf_nlssubprob_has v (m_transpose ow) ow h t m k n Hv Hw' How Hh) as (h' & -> & Hh'). cbn [bind]. eauto.
Qed.

Lemma linalg_nmf_has v w h t m k n : has v t m n -> has w t m k -> has h t k n ->
  exists w' h', linalg_nmf v w h = Ok (w', h') /\ nmf_loop 19 1 v (m_transpose v) w h = Ok (w', h') /\
                has w' t m k /\ has h' t k n.
Proof.
  intros Hv Hw Hh. unfold linalg_nmf.
  pose proof (proj1 (has_transpose _ _ _ _ Hv)) as Hvt. pose proof (proj1 (has_transpose _ _ _ _ Hw)) as Hwt.
  pose proof (proj1 (has_transpose _ _ _ _ Hh)) as Hht.
  destruct (has_mul _ _ _ _ _ _ Hh Hht) as (hht & -> & Hhht & _). cbn [bind].
  destruct (has_mul _ _ _ _ _ _ Hw Hhht) as (whht & -> & Hwhht & _). cbn [bind].
  destruct (has_mul _ _ _ _ _ _ Hv Hht) as (vht & -> & Hvht & _). cbn [bind].
  destruct (has_sub _ _ _ _ _ Hwhht Hvht) as (gw & -> & _ & _). cbn [bind].
  destruct (has_mul _ _ _ _ _ _ Hwt Hw) as (wtw & -> & Hwtw & _). cbn [bind].
  destruct (has_mul _ _ _ _ _ _ Hwtw Hh) as (wtwh & -> & Hwtwh & _). cbn [bind].
  destruct (has_mul _ _ _ _ _ _ Hwt Hv) as (wtv & -> & Hwtv & _). cbn [bind].
  destruct (has_sub _ _ _ _ _ Hwtwh Hwtv) as (gh & -> & _ & _). cbn [bind].
  destruct (nmf_loop_has 19 1 v (m_transpose v) w h t m k n Hv Hvt Hw Hh) as (w' & h' & El & Hw' & Hh'). eauto 6.
Qed.

Lemma v_col_init_has k m : mwf m -> 0 < k ->
  has (fst (v_col_init k m)) (type_of m) (m_nr m) k /\ has (snd (v_col_init k m)) (type_of m) k (m_nc m).
Proof. intros Hm Hk. pose proof (mwf_pos m Hm) as (Hr & Hc). split; apply has_tab; assumption. Qed.

Lemma linalg_pinv_has m p t r c : has m t r c -> linalg_pinv m = Ok p -> has p t c r.
Proof.
  intros (Hm&Ht&Hr&Hc) H. unfold linalg_pinv in H. inv_ok. pose proof (mwf_pos m Hm) as (H1 & H2).
  apply has_tab; assumption.
Qed.

Lemma nmf_apply_has k m w p : mwf m -> 0 < k -> nmf_apply k m = Ok (w, p) ->
  has w (type_of m) (m_nr m) k /\ has p (type_of m) (m_nc m) k.
Proof.
  intros Hm Hk H. unfold nmf_apply in H. inv_ok.
  destruct (v_col_init_has k m Hm Hk) as (Hw & Hh). destruct (v_col_init k m) as (w0 & h0). cbn [fst snd] in *.
  destruct (linalg_nmf_has m w0 h0 _ _ _ _ (has_self m Hm) Hw Hh) as (w' & h' & E' & _ & Hw' & Hh').
  rewrite E' in H. cbn [bind] in H. inv_ok. split; [exact Hw'|]. eapply linalg_pinv_has; eassumption.
Qed.

(** ** operations *)

Lemma dimred_apply_has d k m r tm : mwf m -> 0 < k -> dimred_apply d k m = Ok (r, tm) ->
  exists n, 0 < n <= k /\ has r (type_of m) (m_nr m) n /\ has tm (type_of m) (m_nc m) n.
Proof.
  intros Hm Hk H. destruct d; cbn [dimred_apply] in H.
  - apply svd_apply_has; assumption.
  - exists k. split; [lia|]. apply nmf_apply_has; assumption.
Qed.

Lemma op_apply_create t m r o : mwf m -> tr_ok t -> op_apply (create_operation t) m = Ok (r, o) ->
  mwf r /\ m_nr r = m_nr m /\
  match t, o with
  | TScale s, OpScale s' st => s' = s /\ st = (if uses_column_stats s then Some (get_column_stats s m) else None) /\
                               scaling_apply s m None = Ok r /\ m_nc r = m_nc m /\ type_of r = type_of m
  | TDim d k, OpDim d' k' (Some tm) => d' = d /\ k' = k /\ exists r0, dimred_apply d k m = Ok (r0, tm) /\ r = conv TDense r0
                                       /\ has tm (type_of m) (m_nc m) (m_nc r)
  | TFS c k, OpFS c' k' (Some sel) None => c' = c /\ k' = k /\ topfs_apply c k m = Ok (r, sel) /\ m_nc r = length sel
  | _, _ => False
  end.
Proof.
  intros Hm Ht H. destruct t as [s|d k|c k]; cbn [create_operation op_apply] in H.
  - inv_ok. pose proof (scaling_has _ _ _ _ _ _ _ (has_self m Hm) Hm0) as (Hw&Htt&Hr&Hc). auto 8.
  - apply bind_ok in H. destruct H as ([r0 tm] & H0 & H). cbn in Ht.
    assert (Er : r = conv TDense r0) by congruence. assert (Eo : o = OpDim d k (Some tm)) by congruence.
    clear H. subst r o.
    destruct (dimred_apply_has _ _ _ _ _ Hm Ht H0) as (n & Hn & (Hw&Htt&Hr&Hc) & Htm).
    split; [apply conv_wf, Hw|]. split; [rewrite conv_nr; exact Hr|]. split; [reflexivity|]. split; [reflexivity|].
    exists r0. split; [exact H0|]. split; [reflexivity|]. rewrite conv_nc, Hc. exact Htm.
  - apply bind_ok in H. destruct H as ([r0 sel] & H0 & H). inv_ok.
    destruct (topfs_ok _ _ _ _ _ Hm H0) as (Hs & Hk & Hl & Hnd & Hlt & Hi).
    pose proof (is_mat_has _ _ _ Hi) as (Hw&Htt&Hr&Hc). cbn [d_cols tab d_nr d_nc] in Hr, Hc. rewrite to_dense_nr in Hr. auto 8.
Qed.

Lemma dim_project_has d tm m r : mwf m -> mwf tm -> dim_project d tm m = Ok r ->
  m_nc m = m_nr tm /\ has r TDense (m_nr m) (m_nc tm).
Proof.
  intros Hm Htm H. unfold dim_project in H. apply bind_ok in H. destruct H as (u0 & _ & H).
  apply bind_ok in H. destruct H as ([m' tm'] & H1 & H).
  apply bind_ok in H. destruct H as (r1 & Hm1 & H). assert (Er : r = conv TDense (match d with DSvd => r1 | DNmf => m_to_non_negative r1 end)) by congruence.
  clear H. subst r. destruct (resolve2_ok _ _ _ _ _ Hm Htm H1) as (Hm' & Htm' & Ht & E1 & E2).
  assert (N1 : m_nr m' = m_nr m) by (rewrite <- to_dense_nr, E1; apply to_dense_nr).
  assert (N2 : m_nc m' = m_nc m) by (rewrite <- to_dense_nc, E1; apply to_dense_nc).
  assert (N3 : m_nr tm' = m_nr tm) by (rewrite <- to_dense_nr, E2; apply to_dense_nr).
  assert (N4 : m_nc tm' = m_nc tm) by (rewrite <- to_dense_nc, E2; apply to_dense_nc).
  apply m_mul_ok in Hm1; [|assumption|assumption]. destruct Hm1 as (_ & Hk & Hi).
  split; [congruence|].
  pose proof (is_mat_has _ _ _ Hi) as (Hw&Htt&Hr&Hc). cbn [d_mul tab d_nr d_nc] in Hr, Hc.
  rewrite to_dense_nr in Hr. rewrite to_dense_nc in Hc.
  destruct d.
  - apply has_conv; [assumption|congruence|congruence].
  - apply has_conv; [apply m_to_non_negative_wf, Hw|rewrite m_to_non_negative_nr; congruence|rewrite m_to_non_negative_nc; congruence].
Qed.

Lemma op_project_wf o m r : mwf m -> (match o with OpDim _ _ (Some tm) => mwf tm | _ => True end) ->
  op_project o m = Ok r -> mwf r /\ m_nr r = m_nr m.
Proof.
  intros Hm Ho H. destruct o as [s st|d k [tm|]|c k [sel|] orig]; cbn [op_project] in H; try discriminate.
  - destruct (uses_column_stats s).
    + destruct st as [st|]; [|discriminate]. pose proof (scaling_has _ _ _ _ _ _ _ (has_self m Hm) H) as (?&?&?&?). auto.
    + pose proof (scaling_has _ _ _ _ _ _ _ (has_self m Hm) H) as (?&?&?&?). auto.
  - destruct (dim_project_has _ _ _ _ Hm Ho H) as (_ & (?&?&?&?)). auto.
  - apply m_get_cols_ok in H; [|assumption]. destruct H as (_&_&Hi). split; [apply Hi|].
    pose proof (is_mat_nr _ _ _ Hi) as Hr. cbn [d_cols tab d_nr] in Hr. rewrite to_dense_nr in Hr. exact Hr.
Qed.
End PShape.
