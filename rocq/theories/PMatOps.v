(** PMatOps.v -- interface lemmas: what a successful Matrix method returns (class, shape, value), and when it succeeds. *)
From Verif Require Import Base PyList Num Dense Sparse Matrix PSparse PMatrix.
Section PMatOps.
Context {N : Num}.
Local Open Scope nat_scope.

(** [r] is a well-formed matrix of class [t] whose value is the dense matrix [d]. *)
Definition is_mat (r : matrix) (t : mtype) (d : dmat) : Prop :=
  mwf r /\ type_of r = t /\ to_dense r = d.

Lemma is_mat_nr r t d : is_mat r t d -> m_nr r = d_nr d.
Proof. intros (_&_&<-). symmetry. apply to_dense_nr. Qed.
Lemma is_mat_nc r t d : is_mat r t d -> m_nc r = d_nc d.
Proof. intros (_&_&<-). symmetry. apply to_dense_nc. Qed.
Lemma is_mat_ent r t d i j : is_mat r t d -> i < d_nr d -> j < d_nc d -> ment r i j = dent d i j.
Proof.
  intros H Hi Hj. pose proof (is_mat_nr _ _ _ H). pose proof (is_mat_nc _ _ _ H).
  destruct H as (_&_&<-). symmetry. apply dent_to_dense; congruence.
Qed.
Lemma is_mat_self m : mwf m -> is_mat m (type_of m) (to_dense m).
Proof. repeat split; auto. Qed.

Lemma of_dense_is t d : dwfm d -> is_mat (of_dense t d) t d.
Proof. intros H. split; [apply of_dense_wf, H|]. split; [apply of_dense_type|apply to_dense_of_dense, H]. Qed.

Lemma conv_is t m : mwf m -> is_mat (conv t m) t (to_dense m).
Proof. intros H. split; [apply conv_wf, H|]. split; [apply conv_type|apply to_dense_conv, H]. Qed.

Lemma mtype_eqb_eq a b : mtype_eqb a b = true <-> a = b.
Proof. destruct a, b; cbn; split; congruence. Qed.
Lemma mtype_eqb_refl a : mtype_eqb a a = true.
Proof. destruct a; reflexivity. Qed.

Lemma same_type_ok a b u : same_type a b = Ok u -> type_of a = type_of b.
Proof. unfold same_type. intros H. inv_ok. apply mtype_eqb_eq, H. Qed.
Lemma same_type_same a b : type_of a = type_of b -> same_type a b = Ok tt.
Proof. intros H. unfold same_type. rewrite H, mtype_eqb_refl. reflexivity. Qed.

Lemma same_shapeb_iff a b : same_shapeb a b = true <-> m_nr a = m_nr b /\ m_nc a = m_nc b.
Proof. unfold same_shapeb. rewrite andb_true_iff, !Nat.eqb_eq. tauto. Qed.

(** + and - *)
Lemma m_zip_ok f a b r : mwf a -> mwf b -> m_zip f a b = Ok r ->
  type_of b = type_of a /\ mwf r /\ type_of r = type_of a /\ d_bcast f (to_dense a) (to_dense b) = Ok (to_dense r).
Proof. intros Ha Hb H. destruct (to_dense_zip f a b r Ha Hb H) as (?&?&?&?). auto. Qed.

Lemma m_zip_same f a b : mwf a -> mwf b -> type_of a = type_of b -> m_nr a = m_nr b -> m_nc a = m_nc b ->
  exists r, m_zip f a b = Ok r /\ is_mat r (type_of a) (d_map2 f (to_dense a) (to_dense b)).
Proof.
  intros Ha Hb Ht Hr Hc. unfold m_zip. rewrite same_type_same by assumption. cbn [bind].
  destruct a as [d|c].
  - cbn [to_dense]. rewrite d_bcast_same by (rewrite ?to_dense_nr, ?to_dense_nc; assumption).
    eexists. split; [reflexivity|]. apply (of_dense_is TDense). apply wf_d_map2, Ha.
  - rewrite (proj2 (same_shapeb_iff _ _)) by auto. cbn [check bind].
    eexists. split; [reflexivity|].
    apply (of_dense_is TSparse). apply wf_d_map2. apply dense_of_wf, Ha.
Qed.

Lemma m_zip_same_inv f a b r : mwf a -> mwf b -> m_zip f a b = Ok r -> m_nr a = m_nr b -> m_nc a = m_nc b ->
  is_mat r (type_of a) (d_map2 f (to_dense a) (to_dense b)).
Proof.
  intros Ha Hb H Hr Hc. destruct (m_zip_ok f a b r Ha Hb H) as (Ht&Hw&Htr&Hd).
  rewrite d_bcast_same in Hd by (rewrite ?to_dense_nr, ?to_dense_nc; assumption).
  inversion Hd as [Hd']. repeat split; auto.
Qed.

Lemma m_neg_is a : mwf a -> is_mat (m_neg a) (type_of a) (d_map fopp (to_dense a)).
Proof. intros H. apply of_dense_is, wf_d_map, to_dense_wf, H. Qed.
Lemma m_scal_is x a : mwf a -> is_mat (m_scal x a) (type_of a) (d_scal x (to_dense a)).
Proof. intros H. apply of_dense_is, wf_d_map, to_dense_wf, H. Qed.
Lemma m_transpose_is a : mwf a -> is_mat (m_transpose a) (type_of a) (d_transpose (to_dense a)).
Proof. intros H. apply of_dense_is, wf_d_transpose, to_dense_wf, H. Qed.

Lemma m_mul_ok a b r : mwf a -> mwf b -> m_mul a b = Ok r ->
  type_of b = type_of a /\ m_nc a = m_nr b /\ is_mat r (type_of a) (d_mul (to_dense a) (to_dense b)).
Proof.
  intros Ha Hb. unfold m_mul. intros H. inv_ok. apply same_type_ok in Hm. apply Nat.eqb_eq in Hm0.
  split; [auto|]. split; [assumption|]. apply of_dense_is, wf_d_mul; apply to_dense_wf; assumption.
Qed.
Lemma m_mul_total a b : mwf a -> mwf b -> type_of a = type_of b -> m_nc a = m_nr b -> exists r, m_mul a b = Ok r.
Proof.
  intros _ _ Ht Hn. unfold m_mul. rewrite same_type_same by assumption. rewrite Hn, Nat.eqb_refl. cbn. eauto.
Qed.

Lemma m_div_ok a x r : mwf a -> m_div a x = Ok r ->
  x <> f0 /\ is_mat r (type_of a) (d_map (fun y => fdiv y x) (to_dense a)).
Proof.
  intros Ha. unfold m_div. intros H. inv_ok. apply negb_true_iff, feqb_neq in Hm. split; [assumption|].
  apply of_dense_is, wf_d_map, to_dense_wf, Ha.
Qed.

Lemma m_multiply_ok a b r : mwf a -> mwf b -> m_multiply a b = Ok r ->
  type_of b = type_of a /\ m_nr a = m_nr b /\ m_nc a = m_nc b /\
  is_mat r (type_of a) (d_map2 fmul (to_dense a) (to_dense b)).
Proof.
  intros Ha Hb. unfold m_multiply. intros H. inv_ok. apply same_type_ok in Hm. apply same_shapeb_iff in Hm0.
  split; [auto|]. split; [tauto|]. split; [tauto|]. apply of_dense_is, wf_d_map2, to_dense_wf, Ha.
Qed.
Lemma m_multiply_same a b : mwf a -> mwf b -> type_of a = type_of b -> m_nr a = m_nr b -> m_nc a = m_nc b ->
  exists r, m_multiply a b = Ok r /\ is_mat r (type_of a) (d_map2 fmul (to_dense a) (to_dense b)).
Proof.
  intros Ha Hb Ht Hr Hc. unfold m_multiply. rewrite same_type_same by assumption.
  rewrite (proj2 (same_shapeb_iff _ _)) by auto. cbn.
  eexists; split; [reflexivity|]. apply of_dense_is, wf_d_map2, to_dense_wf, Ha.
Qed.

Lemma m_vstack_ok a b r : mwf a -> mwf b -> m_vstack a b = Ok r ->
  type_of b = type_of a /\ m_nc a = m_nc b /\ is_mat r (type_of a) (d_vstack (to_dense a) (to_dense b)).
Proof.
  intros Ha Hb. unfold m_vstack. intros H. inv_ok. apply same_type_ok in Hm. apply Nat.eqb_eq in Hm0.
  split; [auto|]. split; [assumption|]. apply of_dense_is, wf_d_vstack, to_dense_wf, Ha.
Qed.
Lemma m_vstack_same a b : mwf a -> mwf b -> type_of a = type_of b -> m_nc a = m_nc b ->
  exists r, m_vstack a b = Ok r /\ is_mat r (type_of a) (d_vstack (to_dense a) (to_dense b)).
Proof.
  intros Ha Hb Ht Hc. unfold m_vstack. rewrite same_type_same by assumption. rewrite Hc, Nat.eqb_refl. cbn.
  eexists; split; [reflexivity|]. apply of_dense_is, wf_d_vstack, to_dense_wf, Ha.
Qed.
Lemma m_hstack_ok a b r : mwf a -> mwf b -> m_hstack a b = Ok r ->
  type_of b = type_of a /\ m_nr a = m_nr b /\ is_mat r (type_of a) (d_hstack (to_dense a) (to_dense b)).
Proof.
  intros Ha Hb. unfold m_hstack. intros H. inv_ok. apply same_type_ok in Hm. apply Nat.eqb_eq in Hm0.
  split; [auto|]. split; [assumption|]. apply of_dense_is, wf_d_hstack, to_dense_wf, Ha.
Qed.
Lemma m_hstack_same a b : mwf a -> mwf b -> type_of a = type_of b -> m_nr a = m_nr b ->
  exists r, m_hstack a b = Ok r /\ is_mat r (type_of a) (d_hstack (to_dense a) (to_dense b)).
Proof.
  intros Ha Hb Ht Hc. unfold m_hstack. rewrite same_type_same by assumption. rewrite Hc, Nat.eqb_refl. cbn.
  eexists; split; [reflexivity|]. apply of_dense_is, wf_d_hstack, to_dense_wf, Ha.
Qed.

Lemma m_scale_rows_ok a v r : mwf a -> m_scale_rows a v = Ok r ->
  length v = m_nr a /\ is_mat r (type_of a) (d_scale_rows (to_dense a) v).
Proof.
  intros Ha. unfold m_scale_rows. intros H. inv_ok. apply Nat.eqb_eq in Hm. split; [assumption|].
  apply of_dense_is, wf_d_scale_rows, to_dense_wf, Ha.
Qed.
Lemma m_scale_rows_total a v : length v = m_nr a -> exists r, m_scale_rows a v = Ok r.
Proof. intros H. unfold m_scale_rows. rewrite H, Nat.eqb_refl. cbn. eauto. Qed.
Lemma m_scale_cols_ok a v r : mwf a -> m_scale_cols a v = Ok r ->
  length v = m_nc a /\ is_mat r (type_of a) (d_scale_cols (to_dense a) v).
Proof.
  intros Ha. unfold m_scale_cols. intros H. inv_ok. apply Nat.eqb_eq in Hm. split; [assumption|].
  apply of_dense_is, wf_d_scale_cols, to_dense_wf, Ha.
Qed.
Lemma m_scale_cols_total a v : length v = m_nc a -> exists r, m_scale_cols a v = Ok r.
Proof. intros H. unfold m_scale_cols. rewrite H, Nat.eqb_refl. cbn. eauto. Qed.

(** methods working on the raw data array need g 0 = 0 *)
Lemma smap_is g c : swf c -> g f0 = f0 -> is_mat (MS (s_elim (s_mapdata g c))) TSparse (d_map g (dense_of c)).
Proof. intros H Hg. repeat split; try apply smap_wf, H. cbn. apply to_dense_smap; assumption. Qed.

Lemma pos_part_0 : pos_part f0 = f0.
Proof. unfold pos_part. destruct (fltb f0 f0); reflexivity. Qed.
Lemma clip0_0 : clip0 f0 = f0.
Proof. unfold clip0. destruct (fltb f0 f0); reflexivity. Qed.

Lemma m_get_non_negative_is a : mwf a -> is_mat (m_get_non_negative a) (type_of a) (d_map pos_part (to_dense a)).
Proof.
  destruct a as [d|c]; cbn [m_get_non_negative type_of to_dense]; intros H.
  - repeat split; apply wf_d_map, H.
  - apply smap_is; [assumption|apply pos_part_0].
Qed.

Lemma m_to_non_negative_wf a : mwf a -> mwf (m_to_non_negative a).
Proof. destruct a; cbn; intros H; [apply wf_d_map, H|apply smap_wf, H]. Qed.
Lemma m_plog_wf a : mwf a -> mwf (m_plog a).
Proof. destruct a; cbn; intros H; [apply wf_d_map, H|apply smap_wf, H]. Qed.
Lemma m_plog_nr a : m_nr (m_plog a) = m_nr a.
Proof. destruct a; [reflexivity|]. cbn [m_plog m_nr]. rewrite s_elim_nr. reflexivity. Qed.
Lemma m_plog_nc a : m_nc (m_plog a) = m_nc a.
Proof. destruct a; reflexivity. Qed.
Lemma m_plog_type a : type_of (m_plog a) = type_of a.
Proof. destruct a; reflexivity. Qed.
Lemma m_to_non_negative_nr a : m_nr (m_to_non_negative a) = m_nr a.
Proof. destruct a; [reflexivity|]. cbn [m_to_non_negative m_nr]. rewrite s_elim_nr. reflexivity. Qed.
Lemma m_to_non_negative_nc a : m_nc (m_to_non_negative a) = m_nc a.
Proof. destruct a; reflexivity. Qed.

(** row access *)
Lemma m_get_row_is a i : mwf a -> i < m_nr a ->
  exists r, m_get_row a (Z.of_nat i) = Ok r /\ is_mat r (type_of a) (d_rows (to_dense a) [i]).
Proof.
  intros H Hi. destruct a as [d|c]; cbn [m_get_row type_of to_dense].
  - rewrite py_index_nat by exact Hi. eexists; split; [reflexivity|].
    apply (of_dense_is TDense). apply wf_d_rows; [exact H|cbn; lia].
  - replace (0 <=? Z.of_nat i)%Z with true by (symmetry; apply Z.leb_le; lia). rewrite Nat2Z.id.
    cbn in H, Hi. pose proof H as (_&_&Hl&_).
    replace (S i <? length (s_ptr c)) with true by (symmetry; apply Nat.ltb_lt; lia).
    eexists; split; [reflexivity|]. repeat split; try apply s_get_row_wf; try assumption.
    cbn [to_dense]. unfold dense_of at 1. cbn [s_get_row s_nr s_nc]. unfold d_rows. cbn [length dense_of tab d_nc].
    apply tab_ext. intros i' j Hi' Hj. assert (i' = 0) by lia. subst. cbn [nth].
    unfold sent. fold (s_get_row c i). rewrite srow_get_row by assumption.
    rewrite dent_dense_of by assumption. reflexivity.
Qed.

Lemma m_get_row_any a i k : mwf a -> py_index (m_nr a) i = Some k ->
  exists r, m_get_row a i = Ok r /\ is_mat r (type_of a) (d_rows (to_dense a) [k]).
Proof.
  intros H Hp. pose proof (py_index_lt _ _ _ Hp) as Hk.
  destruct (Z.ltb_spec i 0) as [Hneg|Hpos].
  - destruct a as [d|c]; cbn [m_get_row type_of to_dense m_nr] in *.
    + rewrite Hp. eexists; split; [reflexivity|]. apply (of_dense_is TDense). apply wf_d_rows; [exact H|cbn; lia].
    + replace (0 <=? i)%Z with false by (symmetry; apply Z.leb_gt; lia). rewrite Hp.
      eexists; split; [reflexivity|]. apply (of_dense_is TSparse). apply wf_d_rows; [apply dense_of_wf, H|cbn; lia].
  - assert (E : i = Z.of_nat k).
    { unfold py_index in Hp. replace (i <? 0)%Z with false in Hp by (symmetry; apply Z.ltb_ge; lia).
      cbn [orb] in Hp. destruct (_ || _); inversion Hp. lia. }
    subst i. apply m_get_row_is; assumption.
Qed.

Lemma m_get_row_none a i : mwf a -> py_index (m_nr a) i = None -> m_get_row a i = Err IndexError.
Proof.
  intros H Hp. destruct a as [d|c]; cbn [m_get_row m_nr] in *; rewrite Hp; [reflexivity|].
  destruct (Z.leb_spec 0 i); [|reflexivity].
  destruct H as (_&_&Hl&_). destruct (Nat.ltb_spec (S (Z.to_nat i)) (length (s_ptr c))); [|reflexivity].
  exfalso. rewrite <- (Z2Nat.id i) in Hp by assumption. rewrite py_index_nat in Hp by lia. discriminate.
Qed.

Lemma py_indices_ok n ids ks : py_indices n ids = Ok ks ->
  length ks = length ids /\ Forall (fun k => k < n) ks /\
  (forall i, i < length ids -> py_index n (nth i ids 0%Z) = Some (nth i ks 0)).
Proof.
  unfold py_indices. intros H. split; [eapply mapM_ok_length; eauto|].
  assert (K : forall i, i < length ids -> py_index n (nth i ids 0%Z) = Some (nth i ks 0)).
  { intros i Hi. pose proof (mapM_ok_nth _ _ _ 0%Z 0 H i Hi) as Hn. cbn in Hn.
    destruct (py_index n (nth i ids 0%Z)); inversion Hn; subst; reflexivity. }
  split; [|exact K]. apply Forall_forall. intros k Hk. apply In_nth with (d := 0) in Hk. destruct Hk as (i & Hi & <-).
  rewrite (mapM_ok_length _ _ _ H) in Hi. eapply py_index_lt. apply K, Hi.
Qed.

Lemma m_get_rows_ok a ids r : mwf a -> m_get_rows a ids = Ok r ->
  exists ks, py_indices (m_nr a) ids = Ok ks /\ 0 < length ks /\
             is_mat r (type_of a) (d_rows (to_dense a) ks).
Proof.
  intros Ha. unfold m_get_rows. intros H. inv_ok. apply negb_true_iff, Nat.eqb_neq in Hm0.
  eexists. split; [eassumption|]. split; [lia|]. apply of_dense_is, wf_d_rows; [apply to_dense_wf, Ha|lia].
Qed.

Lemma m_get_cols_ok a ids r : mwf a -> m_get_cols a ids = Ok r ->
  Forall (fun j => j < m_nc a) ids /\ 0 < length ids /\ is_mat r (type_of a) (d_cols (to_dense a) ids).
Proof.
  intros Ha. unfold m_get_cols. intros H. inv_ok. apply negb_true_iff, Nat.eqb_neq in Hm0.
  split.
  - rewrite forallb_forall in Hm. apply Forall_forall. intros j Hj. apply Nat.ltb_lt, Hm, Hj.
  - split; [lia|]. apply of_dense_is, wf_d_cols; [apply to_dense_wf, Ha|lia].
Qed.
Lemma m_get_cols_total a ids : Forall (fun j => j < m_nc a) ids -> 0 < length ids -> exists r, m_get_cols a ids = Ok r.
Proof.
  intros Hf Hl. unfold m_get_cols.
  rewrite (proj2 (forallb_forall _ _)) by (rewrite Forall_forall in Hf; intros; apply Nat.ltb_lt; auto).
  destruct (Nat.eqb_spec (length ids) 0); [lia|]. cbn. eauto.
Qed.

(** type resolution *)
Lemma resolve2_ok a b t a' b' : mwf a -> mwf b -> resolve2 a b t = Ok (a', b') ->
  mwf a' /\ mwf b' /\ type_of a' = type_of b' /\ to_dense a' = to_dense a /\ to_dense b' = to_dense b.
Proof.
  intros Ha Hb. unfold resolve2, resolve_type_conflict, type_conflict. cbn [existsb].
  rewrite mtype_eqb_refl. cbn [negb orb]. rewrite orb_false_r.
  destruct (mtype_eqb (type_of b) (type_of a)) eqn:Et; cbn [negb].
  - cbn [bind]. intros H. inversion H; subst. apply mtype_eqb_eq in Et. auto.
  - destruct t as [t|]; cbn [bind map]; [|discriminate].
    intros H. inversion H; subst. repeat split; try apply conv_wf; auto; try apply to_dense_conv; auto.
    rewrite !conv_type. reflexivity.
Qed.
Lemma resolve2_total a b t : exists a' b', resolve2 a b (Some t) = Ok (a', b').
Proof.
  unfold resolve2, resolve_type_conflict, type_conflict. cbn [existsb]. rewrite mtype_eqb_refl. cbn [negb orb].
  rewrite orb_false_r. destruct (mtype_eqb _ _); cbn; eauto.
Qed.
Lemma resolve2_same a b t : type_of a = type_of b -> resolve2 a b t = Ok (a, b).
Proof.
  intros H. unfold resolve2, resolve_type_conflict, type_conflict. cbn [existsb]. rewrite H, mtype_eqb_refl. reflexivity.
Qed.

Lemma m_identity_is t n : 0 < n -> is_mat (m_identity t n) t (d_eye n).
Proof. intros H. apply of_dense_is, tab_wf; assumption. Qed.
End PMatOps.
