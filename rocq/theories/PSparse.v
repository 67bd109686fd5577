(** PSparse.v -- lemmas about the CSR representation. *)
From Verif Require Import Base PyList Num Dense Sparse.
Section PSparse.
Context {N : Num}.
Local Open Scope num_scope.
Local Open Scope nat_scope.

Lemma psums_length a l : length (psums a l) = S (length l).
Proof. revert a; induction l as [|x t IH]; intros a; cbn; [reflexivity|]. rewrite IH; reflexivity. Qed.

Lemma nth_psums a l i : i <= length l -> nth i (psums a l) 0 = a + list_sum (firstn i l).
Proof.
  revert a i; induction l as [|x t IH]; intros a i Hi; cbn in *.
  - assert (i = 0) by lia. subst. unfold list_sum; cbn. lia.
  - destruct i as [|i]; cbn [nth firstn psums]; [unfold list_sum; cbn; lia|]. rewrite IH by lia. unfold list_sum; cbn. lia.
Qed.

Lemma list_sum_firstn_S l i : i < length l -> list_sum (firstn (S i) l) = list_sum (firstn i l) + nth i l 0.
Proof.
  revert i; induction l as [|x t IH]; intros i Hi; cbn in Hi; [lia|].
  destruct i as [|i]; [unfold list_sum; cbn; lia|].
  specialize (IH i ltac:(lia)). unfold list_sum in *. cbn [firstn fold_right nth] in *. lia.
Qed.

Lemma list_sum_firstn_le l i : list_sum (firstn i l) <= list_sum l.
Proof.
  revert i; induction l as [|x t IH]; intros [|i]; unfold list_sum in *; cbn; try lia. specialize (IH i). lia.
Qed.

Lemma skipn_concat {A} (rows : list (list A)) i :
  skipn (list_sum (firstn i (map (@length _) rows))) (concat rows) = concat (skipn i rows).
Proof.
  unfold list_sum. revert i; induction rows as [|r rs IH]; intros [|i]; cbn; try reflexivity.
  rewrite skipn_app, skipn_all2 by lia. cbn [app].
  rewrite <- IH. f_equal. lia.
Qed.

Lemma skipn_nth_cons {A} (l : list A) i d : i < length l -> skipn i l = nth i l d :: skipn (S i) l.
Proof.
  revert i; induction l as [|x t IH]; intros i Hi; cbn in Hi; [lia|].
  destruct i; [reflexivity|]. cbn. apply IH. lia.
Qed.

Lemma slice_concat {A} (rows : list (list A)) i :
  i < length rows ->
  slice (list_sum (firstn i (map (@length _) rows))) (list_sum (firstn (S i) (map (@length _) rows))) (concat rows)
  = nth i rows [].
Proof.
  intros Hi. unfold slice. rewrite list_sum_firstn_S by (rewrite map_length; assumption).
  rewrite skipn_concat. rewrite skipn_nth_cons with (d := []) by assumption. cbn [concat].
  replace (nth i (map (@length _) rows) 0) with (length (nth i rows [])).
  2:{ rewrite <- (map_nth (@length A)). reflexivity. }
  match goal with |- firstn ?k _ = _ => replace k with (length (nth i rows []) + 0) by lia end.
  rewrite firstn_app_2. cbn. apply app_nil_r.
Qed.

Lemma slice_map {A B} (f : A -> B) a b l : slice a b (map f l) = map f (slice a b l).
Proof. unfold slice. rewrite skipn_map, firstn_map. reflexivity. Qed.

Lemma combine_fst_snd {A B} (l : list (A * B)) : combine (map fst l) (map snd l) = l.
Proof. induction l as [|[a b] t IH]; cbn; [reflexivity|]. rewrite IH. reflexivity. Qed.

Lemma srow_of_rows nc rows i : i < length rows -> srow (csr_of_rows nc rows) i = nth i rows [].
Proof.
  intros Hi. unfold srow, ptr. cbn [csr_of_rows s_ptr s_ind s_data].
  rewrite !nth_psums by (rewrite map_length; lia). cbn [plus].
  rewrite !slice_map, combine_fst_snd. apply slice_concat, Hi.
Qed.

Lemma srows_of_rows nc rows : srows (csr_of_rows nc rows) = rows.
Proof.
  unfold srows. cbn [csr_of_rows s_nr].
  apply list_eq_nth with (d := []); [rewrite map_length, seq_length; reflexivity|].
  intros i Hi. rewrite map_length, seq_length in Hi. rewrite nth_map_seq by assumption.
  apply srow_of_rows, Hi.
Qed.

Definition rows_wf (nc : nat) (rows : list (list (nat * F))) : Prop :=
  Forall (fun r => NoDup (map fst r) /\ Forall (fun p => fst p < nc) r) rows.

Lemma swf_of_rows nc rows : 0 < length rows -> 0 < nc -> rows_wf nc rows -> swf (csr_of_rows nc rows).
Proof.
  intros Hr Hc Hw. unfold swf. cbn [csr_of_rows s_nr s_nc s_data s_ind s_ptr].
  split; [assumption|]. split; [assumption|].
  split; [rewrite psums_length, map_length; reflexivity|].
  unfold ptr; cbn [csr_of_rows s_ptr].
  split; [rewrite nth_psums by lia; reflexivity|].
  split.
  { intros i Hi. rewrite !nth_psums by (rewrite map_length; lia).
    rewrite list_sum_firstn_S by (rewrite map_length; lia). lia. }
  split.
  { rewrite nth_psums by (rewrite map_length; lia).
    rewrite firstn_all2 by (rewrite map_length; lia). rewrite map_length. cbn.
    clear. unfold list_sum. induction rows as [|r rs IH]; cbn; [reflexivity|]. rewrite app_length. lia. }
  split; [rewrite !map_length; reflexivity|].
  split.
  { apply Forall_map. apply Forall_concat. unfold rows_wf in Hw.
    eapply Forall_impl; [|exact Hw]. cbn. intros r [_ H]. exact H. }
  { intros i Hi. rewrite srow_of_rows by assumption.
    unfold rows_wf in Hw. rewrite Forall_forall in Hw. apply Hw. apply nth_In, Hi. }
Qed.

(** pointers are monotone *)
Lemma ptr_le c i j : swf c -> i <= j -> j <= s_nr c -> ptr c i <= ptr c j.
Proof.
  intros (_&_&_&_&Hm&_) Hij Hj. induction Hij as [|j Hij IH]; [lia|].
  specialize (IH ltac:(lia)). specialize (Hm j ltac:(lia)). lia.
Qed.

Lemma srow_length c i : swf c -> i < s_nr c -> length (srow c i) = ptr c (S i) - ptr c i.
Proof.
  intros H Hi. unfold srow. rewrite combine_length.
  pose proof H as (_&_&_&_&Hm&He&Hl&_).
  assert (ptr c (S i) <= ptr c (s_nr c)) by (apply ptr_le; [assumption|lia|lia]).
  rewrite !slice_length; try lia; try apply Hm; try assumption.
Qed.

Lemma skipn_skipn' {A} (l : list A) x y : skipn x (skipn y l) = skipn (x + y) l.
Proof.
  revert l; induction y as [|y IH]; intros l; [rewrite Nat.add_0_r; reflexivity|].
  destruct l; [rewrite !skipn_nil; reflexivity|]. rewrite Nat.add_succ_r. cbn. apply IH.
Qed.

Lemma slice_split {A} (l : list A) a b c : a <= b -> b <= c -> slice a b l ++ slice b c l = slice a c l.
Proof.
  intros. unfold slice. replace (c - a) with ((b - a) + (c - b)) by lia.
  rewrite <- (firstn_skipn (b-a) (firstn (b - a + (c - b)) (skipn a l))).
  f_equal.
  - rewrite firstn_firstn. f_equal. lia.
  - rewrite skipn_firstn_comm. replace (b - a + (c - b) - (b - a)) with (c - b) by lia.
    f_equal. rewrite skipn_skipn'. f_equal. lia.
Qed.

Lemma slice_all {A} (l : list A) : slice 0 (length l) l = l.
Proof. unfold slice. rewrite Nat.sub_0_r. cbn. apply firstn_all. Qed.

Lemma slices_concat {A} (l : list A) (p : nat -> nat) n :
  p 0 = 0 -> (forall i, i < n -> p i <= p (S i)) ->
  concat (map (fun i => slice (p i) (p (S i)) l) (seq 0 n)) = slice 0 (p n) l.
Proof.
  intros H0 Hm. induction n as [|n IH].
  - rewrite H0. reflexivity.
  - rewrite seq_S, map_app, concat_app, IH by (intros; apply Hm; lia). cbn [map concat plus]. rewrite app_nil_r.
    apply slice_split; [lia|apply Hm; lia].
Qed.

Lemma map_snd_srow c i : swf c -> i < s_nr c -> map snd (srow c i) = slice (ptr c i) (ptr c (S i)) (s_data c).
Proof.
  intros H Hi. unfold srow. pose proof H as (_&_&_&_&Hm&He&Hl&_).
  assert (ptr c (S i) <= ptr c (s_nr c)) by (apply ptr_le; [assumption|lia|lia]).
  specialize (Hm i Hi).
  set (a := slice _ _ (s_ind c)). set (b := slice _ _ (s_data c)).
  assert (L : length a = length b) by (subst a b; rewrite !slice_length; lia).
  clearbody a b. revert b L; induction a as [|x t IH]; intros [|y u] L; cbn in *; try lia; [reflexivity|].
  f_equal. apply IH. lia.
Qed.

Lemma map_fst_srow c i : swf c -> i < s_nr c -> map fst (srow c i) = slice (ptr c i) (ptr c (S i)) (s_ind c).
Proof.
  intros H Hi. unfold srow. pose proof H as (_&_&_&_&Hm&He&Hl&_).
  assert (ptr c (S i) <= ptr c (s_nr c)) by (apply ptr_le; [assumption|lia|lia]).
  specialize (Hm i Hi).
  set (a := slice _ _ (s_ind c)). set (b := slice _ _ (s_data c)).
  assert (L : length a = length b) by (subst a b; rewrite !slice_length; lia).
  clearbody a b. revert b L; induction a as [|x t IH]; intros [|y u] L; cbn in *; try lia; [reflexivity|].
  f_equal. apply IH. lia.
Qed.

Lemma data_concat c : swf c -> s_data c = concat (map (map snd) (srows c)).
Proof.
  intros H. unfold srows. rewrite map_map.
  rewrite map_ext_in with (g := fun i => slice (ptr c i) (ptr c (S i)) (s_data c)).
  2:{ intros i Hi. apply in_seq in Hi. apply map_snd_srow; [assumption|lia]. }
  pose proof H as (_&_&_&H0&Hm&He&_).
  rewrite slices_concat by assumption. rewrite He, slice_all. reflexivity.
Qed.

Lemma ind_concat c : swf c -> s_ind c = concat (map (map fst) (srows c)).
Proof.
  intros H. unfold srows. rewrite map_map.
  rewrite map_ext_in with (g := fun i => slice (ptr c i) (ptr c (S i)) (s_ind c)).
  2:{ intros i Hi. apply in_seq in Hi. apply map_fst_srow; [assumption|lia]. }
  pose proof H as (_&_&_&H0&Hm&He&Hl&_).
  rewrite slices_concat by assumption. rewrite He, <- Hl, slice_all. reflexivity.
Qed.

Lemma srow_cols c i : swf c -> i < s_nr c -> Forall (fun p => fst p < s_nc c) (srow c i).
Proof.
  intros H Hi. pose proof H as (_&_&_&_&_&_&_&Hf&_).
  rewrite Forall_forall. intros p Hp. apply (in_map fst) in Hp. rewrite map_fst_srow in Hp by assumption.
  rewrite Forall_forall in Hf. apply Hf. unfold slice in Hp.
  rewrite <- (firstn_skipn (ptr c i) (s_ind c)). apply in_or_app. right.
  rewrite <- (firstn_skipn (ptr c (S i) - ptr c i) (skipn (ptr c i) (s_ind c))). apply in_or_app. left. exact Hp.
Qed.

Lemma rows_wf_srows c : swf c -> rows_wf (s_nc c) (srows c).
Proof.
  intros H. apply Forall_forall. intros r Hr. unfold srows in Hr. apply in_map_iff in Hr.
  destruct Hr as (i & <- & Hi). apply in_seq in Hi. split.
  - apply H. lia.
  - apply srow_cols; [assumption|lia].
Qed.

Lemma srows_length c : length (srows c) = s_nr c.
Proof. unfold srows. rewrite map_length, seq_length. reflexivity. Qed.

Lemma nth_srows c i : i < s_nr c -> nth i (srows c) [] = srow c i.
Proof. intros. unfold srows. apply nth_map_seq. assumption. Qed.

(** two wf matrices with the same rows are the same raw triple *)
Lemma psums_ext_nth a l p : length p = S (length l) -> nth 0 p 0 = a ->
  (forall i, i < length l -> nth (S i) p 0 = nth i p 0 + nth i l 0) -> p = psums a l.
Proof.
  revert a p; induction l as [|x t IH]; intros a p Hl H0 H.
  - destruct p as [|y [|z q]]; cbn in *; try lia. congruence.
  - destruct p as [|y q]; cbn in Hl; [lia|]. cbn in H0. subst y. cbn. f_equal.
    apply IH; [lia| |].
    + apply (H 0). cbn; lia.
    + intros i Hi. apply (H (S i)). cbn; lia.
Qed.

Lemma csr_rows_eq c : swf c -> csr_of_rows (s_nc c) (srows c) = c.
Proof.
  intros H. destruct c as [nr nc da ind pt] eqn:E.
  rewrite <- E in *. unfold csr_of_rows. rewrite E at 6. f_equal.
  - rewrite srows_length, E. reflexivity.
  - rewrite E; reflexivity.
  - rewrite concat_map, <- data_concat by assumption. rewrite E; reflexivity.
  - rewrite concat_map, <- ind_concat by assumption. rewrite E; reflexivity.
  - symmetry. replace pt with (s_ptr c) by (rewrite E; reflexivity).
    pose proof H as (_&_&Hl&H0&Hm&_).
    apply psums_ext_nth.
    + rewrite map_length, srows_length. exact Hl.
    + exact H0.
    + rewrite map_length, srows_length. intros i Hi.
      assert (E2 : nth i (map (@length _) (srows c)) 0 = length (nth i (srows c) [])) by apply (map_nth (@length (nat * F)) (srows c) []).
      rewrite E2, nth_srows by assumption. rewrite srow_length by assumption.
      specialize (Hm i Hi). unfold ptr in *. lia.
Qed.

Lemma csr_ext c c' : swf c -> swf c' -> s_nr c = s_nr c' -> s_nc c = s_nc c' ->
  (forall i, i < s_nr c -> srow c i = srow c' i) -> c = c'.
Proof.
  intros H H' Hr Hc Hs. rewrite <- (csr_rows_eq c), <- (csr_rows_eq c') by assumption.
  f_equal; [assumption|]. unfold srows. rewrite <- Hr. apply map_ext_in. intros i Hi. apply in_seq in Hi. apply Hs. lia.
Qed.

(** ** lookup in rows *)
Lemma rlookup_In r j v : NoDup (map fst r) -> (rlookup r j = Some v <-> In (j, v) r).
Proof.
  induction r as [|[k w] t IH]; cbn; intros Hn; [split; [discriminate|contradiction]|].
  inversion Hn as [|? ? Hni Hn']; subst. destruct (Nat.eqb_spec j k) as [->|Hne].
  - split; [intros H; inversion H; auto|]. intros [H|H]; [inversion H; auto|].
    exfalso. apply Hni. apply (in_map fst) in H. exact H.
  - rewrite IH by assumption. split; [auto|]. intros [H|H]; [inversion H; congruence|assumption].
Qed.

Lemma rlookup_None r j : rlookup r j = None <-> ~ In j (map fst r).
Proof.
  induction r as [|[k w] t IH]; cbn; [tauto|]. destruct (Nat.eqb_spec j k) as [->|Hne].
  - split; [discriminate|]. intros H; exfalso; apply H; auto.
  - rewrite IH. split; intros H; [intros [?|?]; [congruence|auto]|auto].
Qed.

Lemma rlookup_map r g j : rlookup (map (fun p => (fst p, g (snd p))) r) j = option_map g (rlookup r j).
Proof. induction r as [|[k w] t IH]; cbn; [reflexivity|]. destruct (Nat.eqb j k); [reflexivity|apply IH]. Qed.

Lemma rval_filter_nz r j : NoDup (map fst r) -> rval (filter nz r) j = rval r j.
Proof.
  unfold rval. induction r as [|[k w] t IH]; cbn; intros Hn; [reflexivity|].
  inversion Hn as [|? ? Hni Hn']; subst. unfold nz at 1; cbn [snd].
  destruct (feqb w f0) eqn:E; cbn.
  - destruct (Nat.eqb_spec j k) as [->|Hne]; [|apply IH; assumption].
    apply feqb_eq in E; subst. rewrite IH by assumption.
    rewrite (proj2 (rlookup_None t k)) by assumption. reflexivity.
  - destruct (Nat.eqb j k); [reflexivity|apply IH; assumption].
Qed.

Lemma NoDup_filter_fst {A B} (f : A * B -> bool) (l : list (A * B)) : NoDup (map fst l) -> NoDup (map fst (filter f l)).
Proof.
  induction l as [|x t IH]; cbn; intros H; [constructor|]. inversion H as [|? ? Hni Hn]; subst.
  destruct (f x); cbn; [|apply IH, Hn]. constructor; [|apply IH, Hn].
  intros K. apply Hni. apply in_map_iff in K. destruct K as (y & Hy & Hin). apply filter_In in Hin.
  apply in_map_iff. exists y. tauto.
Qed.

Lemma rlookup_tab f n j : j < n -> rlookup (map (fun j => (j, f j)) (seq 0 n)) j = Some (f j).
Proof.
  intros H. apply rlookup_In.
  - rewrite map_map. cbn. rewrite map_id. apply seq_NoDup.
  - apply in_map_iff. exists j. split; [reflexivity|]. apply in_seq. lia.
Qed.

(** ** csr_of_dense *)
Lemma csr_of_dense_wf m : dwfm m -> swf (csr_of_dense m).
Proof.
  intros (Hr&Hc&_&_). apply swf_of_rows; [rewrite map_length, seq_length; assumption|assumption|].
  apply Forall_forall. intros r Hin. apply in_map_iff in Hin. destruct Hin as (i & <- & _).
  split.
  - apply NoDup_filter_fst. rewrite map_map. cbn. rewrite map_id. apply seq_NoDup.
  - apply Forall_forall. intros p Hp. apply filter_In in Hp. destruct Hp as [Hp _].
    apply in_map_iff in Hp. destruct Hp as (j & <- & Hj). apply in_seq in Hj. cbn. lia.
Qed.

Lemma csr_of_dense_nr m : s_nr (csr_of_dense m) = d_nr m.
Proof. unfold csr_of_dense, csr_of_rows; cbn. rewrite map_length, seq_length. reflexivity. Qed.
Lemma csr_of_dense_nc m : s_nc (csr_of_dense m) = d_nc m.
Proof. reflexivity. Qed.

Lemma srow_csr_of_dense m i : i < d_nr m ->
  srow (csr_of_dense m) i = filter nz (map (fun j => (j, dent m i j)) (seq 0 (d_nc m))).
Proof.
  intros Hi. unfold csr_of_dense. rewrite srow_of_rows by (rewrite map_length, seq_length; assumption).
  apply (nth_map_seq (fun i => filter nz (map (fun j => (j, dent m i j)) (seq 0 (d_nc m))))). assumption.
Qed.

Lemma sent_csr_of_dense m i j : i < d_nr m -> j < d_nc m -> sent (csr_of_dense m) i j = dent m i j.
Proof.
  intros Hi Hj. unfold sent. rewrite srow_csr_of_dense by assumption.
  rewrite rval_filter_nz by (rewrite map_map; cbn; rewrite map_id; apply seq_NoDup).
  unfold rval. rewrite rlookup_tab by assumption. reflexivity.
Qed.

Lemma dense_of_csr_of_dense m : dwfm m -> dense_of (csr_of_dense m) = m.
Proof.
  intros H. pose proof H as (Hr&Hc&_&_). unfold dense_of. rewrite csr_of_dense_nr. cbn [csr_of_dense csr_of_rows s_nc].
  apply dwfm_ext; try assumption; try reflexivity; [apply tab_wf; assumption|].
  cbn [tab d_nr d_nc]. intros i j Hi Hj. rewrite dent_tab by assumption. apply sent_csr_of_dense; assumption.
Qed.

Lemma dense_of_wf c : swf c -> dwfm (dense_of c).
Proof. intros (Hr&Hc&_). apply tab_wf; assumption. Qed.

Lemma dent_dense_of c i j : i < s_nr c -> j < s_nc c -> dent (dense_of c) i j = sent c i j.
Proof. intros. apply dent_tab; assumption. Qed.

(** ** row extraction *)
Lemma srow_get_row c i : swf c -> i < s_nr c -> srow (s_get_row c i) 0 = srow c i.
Proof.
  intros H Hi. unfold srow, s_get_row, ptr; cbn [s_ptr s_ind s_data nth]. unfold slice at 1 3.
  rewrite Nat.sub_0_r. cbn [skipn].
  fold (ptr c i). fold (ptr c (S i)).
  pose proof H as (_&_&_&_&Hm&He&Hl&_).
  assert (ptr c (S i) <= ptr c (s_nr c)) by (apply ptr_le; [assumption|lia|lia]). specialize (Hm i Hi).
  rewrite !firstn_all2 by (rewrite slice_length; lia). reflexivity.
Qed.

Lemma s_get_row_wf c i : swf c -> i < s_nr c -> swf (s_get_row c i).
Proof.
  intros H Hi. pose proof H as (Hr&Hc&Hlp&H0&Hm&He&Hl&Hf&Hn).
  assert (ptr c (S i) <= ptr c (s_nr c)) by (apply ptr_le; [assumption|lia|lia]). specialize (Hm i Hi).
  unfold swf. cbn [s_get_row s_nr s_nc s_ptr s_data s_ind]. unfold ptr; cbn [s_get_row s_ptr nth].
  fold (ptr c i) (ptr c (S i)).
  repeat split; try lia.
  - intros k Hk. assert (k = 0) by lia; subst. cbn. lia.
  - rewrite slice_length; lia.
  - rewrite !slice_length; lia.
  - rewrite <- map_fst_srow by assumption. apply Forall_map. apply srow_cols; assumption.
  - intros k Hk. assert (k = 0) by lia; subst. rewrite srow_get_row by assumption. apply Hn, Hi.
Qed.

(** ** mapping the data array *)
Lemma combine_map_r {A B C} (g : B -> C) (a : list A) b :
  combine a (map g b) = map (fun p => (fst p, g (snd p))) (combine a b).
Proof. revert b; induction a as [|x t IH]; intros [|y u]; cbn; [reflexivity..|]. rewrite IH. reflexivity. Qed.

Lemma srow_mapdata g c i : srow (s_mapdata g c) i = map (fun p => (fst p, g (snd p))) (srow c i).
Proof.
  unfold srow, ptr. cbn [s_mapdata s_ptr s_ind s_data]. rewrite slice_map. apply combine_map_r.
Qed.

Lemma s_mapdata_wf g c : swf c -> swf (s_mapdata g c).
Proof.
  intros (Hr&Hc&Hlp&H0&Hm&He&Hl&Hf&Hn). unfold swf. unfold ptr in *. cbn [s_mapdata s_nr s_nc s_ptr s_data s_ind].
  repeat split; try assumption.
  - rewrite map_length. assumption.
  - rewrite map_length. assumption.
  - intros i Hi. rewrite srow_mapdata, map_map. cbn. apply Hn, Hi.
Qed.

Lemma sent_mapdata g c i j : g f0 = f0 -> sent (s_mapdata g c) i j = g (sent c i j).
Proof.
  intros Hg. unfold sent, rval. rewrite srow_mapdata, rlookup_map. destruct (rlookup (srow c i) j); cbn; congruence.
Qed.

(** ** eliminate_zeros *)
Lemma srow_elim c i : i < s_nr c -> srow (s_elim c) i = filter nz (srow c i).
Proof.
  intros Hi. unfold s_elim. rewrite srow_of_rows by (rewrite map_length, srows_length; assumption).
  rewrite nth_indep with (d' := filter nz []) by (rewrite map_length, srows_length; assumption).
  rewrite map_nth, nth_srows by assumption. reflexivity.
Qed.

Lemma s_elim_wf c : swf c -> swf (s_elim c).
Proof.
  intros H. pose proof H as (Hr&Hc&_). apply swf_of_rows; [rewrite map_length, srows_length; assumption|assumption|].
  pose proof (rows_wf_srows c H) as Hw. apply Forall_map. eapply Forall_impl; [|exact Hw]. cbn.
  intros r [Ha Hb]. split; [apply NoDup_filter_fst, Ha|].
  apply Forall_forall. intros p Hp. apply filter_In in Hp. rewrite Forall_forall in Hb. apply Hb. tauto.
Qed.

Lemma s_elim_nr c : s_nr (s_elim c) = s_nr c.
Proof. cbn. rewrite map_length, srows_length. reflexivity. Qed.
Lemma s_elim_nc c : s_nc (s_elim c) = s_nc c.
Proof. reflexivity. Qed.

Lemma sent_elim c i j : swf c -> i < s_nr c -> sent (s_elim c) i j = sent c i j.
Proof. intros H Hi. unfold sent. rewrite srow_elim by assumption. apply rval_filter_nz, H, Hi. Qed.

Lemma csr_of_dense_tab_dense_of c : swf c -> forall i j, i < s_nr c -> j < s_nc c ->
  sent (csr_of_dense (dense_of c)) i j = sent c i j.
Proof. intros H i j Hi Hj. rewrite sent_csr_of_dense by assumption. apply dent_dense_of; assumption. Qed.

(** ** coo conversion *)
Lemma coo_mem_spec es i j : coo_mem es i j = true <-> exists v, In (i, j, v) es.
Proof.
  unfold coo_mem. rewrite existsb_exists. split.
  - intros ([[i' j'] v] & Hin & Hb). cbn in Hb. apply andb_true_iff in Hb. destruct Hb as [H1 H2].
    apply Nat.eqb_eq in H1. apply Nat.eqb_eq in H2. subst. eauto.
  - intros (v & Hin). exists (i, j, v). split; [assumption|]. cbn. rewrite !Nat.eqb_refl. reflexivity.
Qed.

Lemma coo_val_nomem es i j : coo_mem es i j = false -> coo_val es i j = f0.
Proof.
  intros H. unfold coo_val.
  assert (E : filter (fun e => Nat.eqb (fst (fst e)) i && Nat.eqb (snd (fst e)) j) es = []).
  { unfold coo_mem in H. clear -H. induction es as [|e t IH]; cbn in *; [reflexivity|].
    apply orb_false_iff in H. destruct H as [H1 H2]. rewrite H1. apply IH, H2. }
  rewrite E. reflexivity.
Qed.

Lemma csr_of_coo_wf nr nc es : 0 < nr -> 0 < nc -> swf (csr_of_coo nr nc es).
Proof.
  intros Hr Hc. apply swf_of_rows; [rewrite map_length, seq_length; assumption|assumption|].
  apply Forall_map, Forall_forall. intros i _. split.
  - rewrite map_map. cbn. rewrite map_id. apply NoDup_filter, seq_NoDup.
  - apply Forall_map, Forall_forall. intros j Hj. apply filter_In in Hj. destruct Hj as [Hj _].
    apply in_seq in Hj. cbn. lia.
Qed.

Lemma csr_of_coo_nr nr nc es : s_nr (csr_of_coo nr nc es) = nr.
Proof. cbn. rewrite map_length, seq_length. reflexivity. Qed.

Lemma srow_csr_of_coo nr nc es i : i < nr ->
  srow (csr_of_coo nr nc es) i = map (fun j => (j, coo_val es i j)) (filter (coo_mem es i) (seq 0 nc)).
Proof.
  intros Hi. unfold csr_of_coo. rewrite srow_of_rows by (rewrite map_length, seq_length; assumption).
  apply (nth_map_seq (fun i => map (fun j => (j, coo_val es i j)) (filter (coo_mem es i) (seq 0 nc)))). assumption.
Qed.

Lemma sent_csr_of_coo nr nc es i j : i < nr -> j < nc -> sent (csr_of_coo nr nc es) i j = coo_val es i j.
Proof.
  intros Hi Hj. unfold sent. rewrite srow_csr_of_coo by assumption. unfold rval.
  destruct (coo_mem es i j) eqn:E.
  - assert (K : rlookup (map (fun j => (j, coo_val es i j)) (filter (coo_mem es i) (seq 0 nc))) j = Some (coo_val es i j)).
    { apply rlookup_In.
      - rewrite map_map; cbn; rewrite map_id. apply NoDup_filter, seq_NoDup.
      - apply in_map_iff. exists j. split; [reflexivity|]. apply filter_In. split; [apply in_seq; lia|assumption]. }
    rewrite K. reflexivity.
  - assert (K : rlookup (map (fun j => (j, coo_val es i j)) (filter (coo_mem es i) (seq 0 nc))) j = None).
    { apply rlookup_None. rewrite map_map; cbn; rewrite map_id. rewrite filter_In. intros [_ H]. congruence. }
    rewrite K. symmetry. apply coo_val_nomem, E.
Qed.

Lemma In_coo_of_csr c i j v : swf c ->
  (In (i, j, v) (coo_of_csr c) <-> i < s_nr c /\ In (j, v) (srow c i)).
Proof.
  intros H. unfold coo_of_csr. rewrite in_concat. split.
  - intros (l & Hl & Hin). apply in_map_iff in Hl. destruct Hl as (i' & <- & Hi'). apply in_seq in Hi'.
    apply in_map_iff in Hin. destruct Hin as ([j' v'] & He & Hin). cbn in He. inversion He; subst. split; [lia|assumption].
  - intros [Hi Hin]. eexists. split; [apply in_map_iff; exists i; split; [reflexivity|apply in_seq; lia]|].
    apply in_map_iff. exists (j, v). split; [reflexivity|assumption].
Qed.

End PSparse.
