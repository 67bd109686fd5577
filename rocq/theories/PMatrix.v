(** PMatrix.v -- every Matrix method computes the same dense value whatever the storage class. *)
From Verif Require Import Base PyList Num Dense Sparse Matrix PSparse.
Section PMatrix.
Context {N : Num}.
Local Open Scope nat_scope.

Lemma to_dense_nr m : d_nr (to_dense m) = m_nr m.  Proof. destruct m; reflexivity. Qed.
Lemma to_dense_nc m : d_nc (to_dense m) = m_nc m.  Proof. destruct m; reflexivity. Qed.
Lemma to_dense_wf m : mwf m -> dwfm (to_dense m).
Proof. destruct m; cbn; [auto|apply dense_of_wf]. Qed.
Lemma dent_to_dense m i j : i < m_nr m -> j < m_nc m -> dent (to_dense m) i j = ment m i j.
Proof. destruct m; cbn; [reflexivity|apply dent_dense_of]. Qed.

Lemma of_dense_nr t d : m_nr (of_dense t d) = d_nr d.
Proof. destruct t; [reflexivity|]. apply csr_of_dense_nr. Qed.
Lemma of_dense_nc t d : m_nc (of_dense t d) = d_nc d.
Proof. destruct t; reflexivity. Qed.
Lemma of_dense_type t d : type_of (of_dense t d) = t.
Proof. destruct t; reflexivity. Qed.
Lemma of_dense_wf t d : dwfm d -> mwf (of_dense t d).
Proof. destruct t; cbn; [auto|apply csr_of_dense_wf]. Qed.
Lemma ment_of_dense t d i j : i < d_nr d -> j < d_nc d -> ment (of_dense t d) i j = dent d i j.
Proof. destruct t; cbn; [reflexivity|apply sent_csr_of_dense]. Qed.
Lemma to_dense_of_dense t d : dwfm d -> to_dense (of_dense t d) = d.
Proof. destruct t; cbn; [reflexivity|apply dense_of_csr_of_dense]. Qed.

Lemma conv_type t m : type_of (conv t m) = t.  Proof. destruct t; reflexivity. Qed.
Lemma conv_nr t m : m_nr (conv t m) = m_nr m.
Proof. destruct t, m; try reflexivity. apply csr_of_dense_nr. Qed.
Lemma conv_nc t m : m_nc (conv t m) = m_nc m.
Proof. destruct t, m; reflexivity. Qed.
Lemma conv_wf t m : mwf m -> mwf (conv t m).
Proof. destruct t, m; cbn; auto using dense_of_wf, csr_of_dense_wf. Qed.
Lemma to_dense_conv t m : mwf m -> to_dense (conv t m) = to_dense m.
Proof. destruct t, m; cbn; auto using dense_of_csr_of_dense. Qed.
Lemma ment_conv t m i j : mwf m -> i < m_nr m -> j < m_nc m -> ment (conv t m) i j = ment m i j.
Proof.
  intros H Hi Hj. rewrite <- dent_to_dense by (rewrite ?conv_nr, ?conv_nc; assumption).
  rewrite to_dense_conv by assumption. apply dent_to_dense; assumption.
Qed.
Lemma conv_self m : conv (type_of m) m = m.  Proof. destruct m; reflexivity. Qed.

Lemma mwf_pos m : mwf m -> 0 < m_nr m /\ 0 < m_nc m.
Proof. destruct m; cbn; intros (H1&H2&_); auto. Qed.

(** equality of values *)
Lemma dense_eq_ment a b : mwf a -> mwf b -> m_nr a = m_nr b -> m_nc a = m_nc b ->
  (forall i j, i < m_nr a -> j < m_nc a -> ment a i j = ment b i j) -> to_dense a = to_dense b.
Proof.
  intros Ha Hb Hr Hc H. apply dwfm_ext.
  - apply to_dense_wf; assumption.
  - apply to_dense_wf; assumption.
  - rewrite !to_dense_nr; assumption.
  - rewrite !to_dense_nc; assumption.
  - rewrite to_dense_nr, to_dense_nc. intros i j Hi Hj. rewrite !dent_to_dense; try lia. apply H; assumption.
Qed.

Lemma ment_eq_dense a b i j : to_dense a = to_dense b -> i < m_nr a -> j < m_nc a -> ment a i j = ment b i j.
Proof.
  intros H Hi Hj. rewrite <- !dent_to_dense; try assumption; [congruence| |].
  - rewrite <- to_dense_nr, <- H, to_dense_nr. assumption.
  - rewrite <- to_dense_nc, <- H, to_dense_nc. assumption.
Qed.

(** dense well-formedness of the numpy operations *)
Lemma wf_d_map f m : dwfm m -> dwfm (d_map f m).
Proof. intros (H1&H2&_). apply tab_wf; assumption. Qed.
Lemma wf_d_map2 f a b : dwfm a -> dwfm (d_map2 f a b).
Proof. intros (H1&H2&_). apply tab_wf; assumption. Qed.
Lemma wf_d_transpose m : dwfm m -> dwfm (d_transpose m).
Proof. intros (H1&H2&_). apply tab_wf; assumption. Qed.
Lemma wf_d_mul a b : dwfm a -> dwfm b -> dwfm (d_mul a b).
Proof. intros (H1&H2&_) (H3&H4&_). apply tab_wf; assumption. Qed.
Lemma wf_d_vstack a b : dwfm a -> dwfm (d_vstack a b).
Proof. intros (H1&H2&_). apply tab_wf; lia. Qed.
Lemma wf_d_hstack a b : dwfm a -> dwfm (d_hstack a b).
Proof. intros (H1&H2&_). apply tab_wf; lia. Qed.
Lemma wf_d_scale_rows a v : dwfm a -> dwfm (d_scale_rows a v).
Proof. intros (H1&H2&_). apply tab_wf; lia. Qed.
Lemma wf_d_scale_cols a v : dwfm a -> dwfm (d_scale_cols a v).
Proof. intros (H1&H2&_). apply tab_wf; lia. Qed.
Lemma wf_d_rows a ids : dwfm a -> 0 < length ids -> dwfm (d_rows a ids).
Proof. intros (H1&H2&_) H. apply tab_wf; lia. Qed.
Lemma wf_d_cols a ids : dwfm a -> 0 < length ids -> dwfm (d_cols a ids).
Proof. intros (H1&H2&_) H. apply tab_wf; lia. Qed.
Lemma wf_d_const r c x : 0 < r -> 0 < c -> dwfm (d_const r c x).
Proof. apply tab_wf. Qed.

Lemma wf_d_bcast f a b z : dwfm a -> dwfm b -> d_bcast f a b = Ok z -> dwfm z.
Proof.
  intros (H1&H2&_) (H3&H4&_). unfold d_bcast, bcast_dim.
  destruct (Nat.eqb (d_nr a) (d_nr b)), (Nat.eqb (d_nr a) 1), (Nat.eqb (d_nr b) 1),
    (Nat.eqb (d_nc a) (d_nc b)), (Nat.eqb (d_nc a) 1), (Nat.eqb (d_nc b) 1);
    intros H; inversion H; apply tab_wf; assumption.
Qed.

(** broadcasting equal shapes is the pointwise operation *)
Lemma d_bcast_same f a b : d_nr a = d_nr b -> d_nc a = d_nc b -> d_bcast f a b = Ok (d_map2 f a b).
Proof.
  intros Hr Hc. unfold d_bcast, bcast_dim. rewrite Hr, Hc, !Nat.eqb_refl.
  f_equal. unfold d_map2. rewrite Hr, Hc. apply tab_ext. intros i j Hi Hj.
  destruct (Nat.eqb_spec (d_nr b) 1), (Nat.eqb_spec (d_nc b) 1); repeat f_equal; lia.
Qed.

Lemma to_dense_zip f a b r : mwf a -> mwf b -> m_zip f a b = Ok r ->
  mwf r /\ type_of r = type_of a /\ type_of a = type_of b /\ d_bcast f (to_dense a) (to_dense b) = Ok (to_dense r).
Proof.
  intros Ha Hb. unfold m_zip, same_type. intros H. inv_ok.
  assert (T : type_of a = type_of b) by (destruct a, b; cbn in *; congruence).
  destruct a as [d|c].
  - unfold rmap in H. inv_ok. split; [|split; [reflexivity|split; [assumption|]]]; cbn.
    + eapply wf_d_bcast; [exact Ha|apply to_dense_wf; exact Hb|exact Hm0].
    + exact Hm0.
  - inv_ok. split; [|split; [reflexivity|split; [assumption|]]].
    + cbn. apply csr_of_dense_wf, wf_d_map2, dense_of_wf, Ha.
    + cbn [to_dense]. rewrite dense_of_csr_of_dense by (apply wf_d_map2, dense_of_wf, Ha).
      unfold same_shapeb in Hm0. apply andb_true_iff in Hm0. destruct Hm0 as [E1 E2].
      apply Nat.eqb_eq in E1. apply Nat.eqb_eq in E2.
      apply d_bcast_same; rewrite ?to_dense_nr, ?to_dense_nc; assumption.
Qed.

(** entrywise maps on the raw data array *)
Lemma to_dense_smap g c : swf c -> g f0 = f0 -> dense_of (s_elim (s_mapdata g c)) = d_map g (dense_of c).
Proof.
  intros H Hg. unfold dense_of at 1. rewrite s_elim_nr, s_elim_nc. unfold d_map. cbn [s_mapdata s_nr s_nc].
  cbn [dense_of tab d_nr d_nc]. apply tab_ext. intros i j Hi Hj.
  rewrite sent_elim; [|apply s_mapdata_wf, H|exact Hi].
  rewrite sent_mapdata by exact Hg. rewrite dent_dense_of by assumption. reflexivity.
Qed.

Lemma smap_wf g c : swf c -> swf (s_elim (s_mapdata g c)).
Proof. intros. apply s_elim_wf, s_mapdata_wf; assumption. Qed.
End PMatrix.
