(** PMorph3.v -- PMorph2.v continued: linear algebra, transformations, training and composition.  The external routines of the two
    sides return the same numbers. *)
From Verif Require Import Base PyList Dict Num Dense Sparse Matrix Scaling Linalg NmfInit Learner Operation Similarity Space Peripheral
  Composition Utils LexFun PMorph PMorph2.
Local Open Scope nat_scope.

Section Morph.
Context {N N' : Num} (h : @F N -> @F N') (H : respects h) (O : ordered N).
Notation hm := (hm h).
Notation hd := (hd h).
Notation hs := (hs h).
Notation hst := (hst h).
Notation ho := (ho h).
Notation hsp := (hsp h).

(** the external routines give the same answers on both sides *)
Record ext_agree (E : @Ext N) (E' : @Ext N') : Prop := {
  x_svd : forall d, @e_svd _ E' (hd d)
    = rmap (fun r => (fun i j => h (fst (fst r) i j), fun i => h (snd (fst r) i), fun i j => h (snd r i j))) (@e_svd _ E d);
  x_ssvd : forall c k, @e_sparsesvd _ E' (hs c) k
    = rmap (fun r => (fst (fst (fst r)), fun i j => h (snd (fst (fst r)) i j), fun i => h (snd (fst r) i), fun i j => h (snd r i j)))
           (@e_sparsesvd _ E c k);
  x_pinv : forall d, @e_pinv _ E' (hd d) = rmap (fun f i j => h (f i j)) (@e_pinv _ E d);
  x_lstsq : forall a b, @e_lstsq _ E' (hd a) (hd b) = rmap (fun f i j => h (f i j)) (@e_lstsq _ E a b);
  x_rndcol : forall i q, @e_rndcol _ E' i q = @e_rndcol _ E i q;
  x_rndrow : forall i q, @e_rndrow _ E' i q = @e_rndrow _ E i q;
  x_timeout : forall i, @e_timeout _ E' i = @e_timeout _ E i }.
Context (E : @Ext N) (E' : @Ext N') (X : ext_agree E E').
#[local] Existing Instance E.
#[local] Existing Instance E'.
Notation l2 := (fun p => (hm (fst p), hm (snd p))).
Notation l3 := (fun r => (hm (fst (fst r)), map h (snd (fst r)), hm (snd r))).

Lemma h_svd_tol : @svd_tol N' = h svd_tol.
Proof. unfold svd_tol. rewrite (h_div h H), (h_1 h H), (h_ofZ h H); [reflexivity|]. apply (o_ofZ N O). lia. Qed.
Lemma hm_svd_out u s v :
  (if m_is_mostly_positive (hm u) then Ok (hm u, map h s, hm v) else Ok (m_neg (hm u), map h s, m_neg (hm v)))
  = rmap l3 (if m_is_mostly_positive u then Ok (u, s, v) else Ok (m_neg u, s, m_neg v)).
Proof. rewrite (hm_is_mostly_positive h H). destruct (m_is_mostly_positive u); [reflexivity|]. rewrite !(hm_neg h H). reflexivity. Qed.
Lemma hm_dense_svd d k : dense_svd (hd d) k = rmap l3 (dense_svd d k).
Proof.
  unfold dense_svd. rewrite (x_svd _ _ X), bind_rmap, rmap_bind. apply bind_ext. intros [[u s] vt] _. cbv beta iota zeta. cbn [fst snd].
  cbn [PMorph.hd d_nr d_nc].
  replace (count (fltb svd_tol) (map (fun i => h (s i)) (seq 0 (Nat.min (d_nr d) (d_nc d)))))
    with (count (fltb svd_tol) (map s (seq 0 (Nat.min (d_nr d) (d_nc d))))).
  2:{ rewrite <- (map_map s h). symmetry. apply count_map. intros x. rewrite h_svd_tol. apply (h_ltb h H). }
  rewrite rmap_bind. apply bind_ext. intros _ _. set (n := Nat.min _ _).
  rewrite (tab_hd h _ _ (fun i j => vt j i)), (tab_hd h _ _ u). rewrite <- (map_map s h), firstn_map.
  exact (hm_svd_out (MD (tab (d_nr d) n u)) _ (MD (tab (d_nc d) n (fun i j => vt j i)))).
Qed.
Lemma hm_sparse_svd c k : sparse_svd (hs c) k = rmap l3 (sparse_svd c k).
Proof.
  unfold sparse_svd. rewrite (x_ssvd _ _ X), bind_rmap, rmap_bind. apply bind_ext. intros [[[n ut] s] vt] _. cbv beta iota zeta.
  cbn [fst snd]. cbn [PMorph.hs s_nr s_nc]. rewrite rmap_bind. apply bind_ext. intros _ _.
  rewrite (tab_hd h _ _ (fun i j => ut j i)), (tab_hd h _ _ (fun i j => vt j i)), !(hs_of_dense h H), <- (map_map s h).
  exact (hm_svd_out (MS (csr_of_dense (tab (s_nr c) _ (fun i j => ut j i)))) _ (MS (csr_of_dense (tab (s_nc c) _ (fun i j => vt j i))))).
Qed.
Lemma hm_svd m k : linalg_svd (hm m) k = rmap l3 (linalg_svd m k).
Proof. unfold linalg_svd. rewrite rmap_bind. apply bind_ext. intros _ _. destruct m; [apply hm_dense_svd|apply hm_sparse_svd]. Qed.
Lemma hm_svd_apply k m : svd_apply k (hm m) = rmap l2 (svd_apply k m).
Proof.
  unfold svd_apply. rewrite hm_svd, bind_rmap, rmap_bind. apply bind_ext. intros [[u s] v] _. cbn [fst snd].
  rewrite (hm_scale_cols h H), bind_rmap, rmap_bind. apply bind_ext. reflexivity.
Qed.
Lemma hm_pinv m : linalg_pinv (hm m) = rmap hm (linalg_pinv m).
Proof.
  unfold linalg_pinv. rewrite (hm_to_dense h H), (x_pinv _ _ X), bind_rmap, rmap_bind. apply bind_ext. intros f _.
  rewrite hm_type, hm_nr, hm_nc, (tab_hd h), (hm_of_dense h H). reflexivity.
Qed.
Lemma hm_padd0 a ax : padd_matrix (hm a) ax f0 = rmap hm (padd_matrix a ax f0).
Proof. rewrite <- (h_0 h H) at 1. apply (hm_padd h H). Qed.
Lemma hm_padd1 a ax : padd_matrix (hm a) ax f1 = rmap hm (padd_matrix a ax f1).
Proof. rewrite <- (h_1 h H) at 1. apply (hm_padd h H). Qed.
Ltac step := rewrite ?bind_rmap, ?rmap_bind; apply bind_ext.
Lemma hm_ridge a b p i : ridge_regression (hm a) (hm b) (h p) i
  = rmap (fun r => (hm (fst (fst r)), h (snd (fst r)), h (snd r))) (ridge_regression a b p i).
Proof.
  unfold ridge_regression. cbv zeta. rewrite hm_same_type, hm_assert_same_nr, hm_type, hm_nr, hm_nc. step. intros _ _. step. intros _ _.
  replace (if i then m_hstack (hm a) (of_dense (type_of a) (d_const (m_nr a) 1 f1)) else Ok (hm a))
    with (rmap hm (if i then m_hstack a (of_dense (type_of a) (d_const (m_nr a) 1 f1)) else Ok a))
    by (destruct i; [rewrite (hm_const1 h H), (hm_hstack h H); reflexivity|reflexivity]).
  step. intros a1 _. rewrite (hm_identity h H (type_of a)), (hm_scal h H).
  match goal with |- bind (if i then bind (padd_matrix (hm ?x) 0 f0) _ else _) _ = _ =>
    replace (if i then let* p0 := padd_matrix (hm x) 0 f0 in padd_matrix p0 1 f0 else Ok (hm x))
      with (rmap hm (if i then let* p0 := padd_matrix x 0 f0 in padd_matrix p0 1 f0 else Ok x)) end.
  2:{ destruct i; [|reflexivity]. rewrite hm_padd0. step. intros y _. symmetry. apply hm_padd0. }
  step. intros ld _. rewrite (hm_transpose h H), (hm_mul h H). step. intros ata _. rewrite (hm_add h H). step. intros reg _.
  rewrite hm_pinv, hm_nr, (hm_identity h H _ (m_nr ld)).
  rewrite ?bind_rmap, ?rmap_bind. match goal with |- bind ?x _ = bind ?y _ => replace x with (rmap hm y) end.
  2:{ destruct (linalg_pinv reg) as [?|[]]; reflexivity. }
  step. intros tmp _. rewrite (hm_mul h H). step. intros tr _. rewrite (hm_mul h H). step. intros r _. rewrite (hm_mul h H). step.
  intros ar _. rewrite (hm_sub h H). step. intros diff _. rewrite (hm_multiply h H). step. intros st _.
  rewrite (hm_sum h H), (hm_norm h H O). reflexivity.
Qed.
Lemma hm_lstsq a b i : lstsq_regression (hm a) (hm b) i = rmap hm (lstsq_regression a b i).
Proof.
  unfold lstsq_regression. rewrite hm_same_type, hm_assert_same_nr, hm_type, hm_nr. step. intros _ _. step. intros _ _.
  replace (if i then m_hstack (hm a) (of_dense (type_of a) (d_const (m_nr a) 1 f1)) else Ok (hm a))
    with (rmap hm (if i then m_hstack a (of_dense (type_of a) (d_const (m_nr a) 1 f1)) else Ok a))
    by (destruct i; [rewrite (hm_const1 h H), (hm_hstack h H); reflexivity|reflexivity]).
  step. intros a1 _. destruct a1 as [d|c].
  - cbn [PMorph.hm]. rewrite (hm_to_dense h H), (x_lstsq _ _ X). step. intros f _. rewrite hm_nc. cbn [PMorph.hd d_nc].
    rewrite (tab_hd h). reflexivity.
  - cbn [PMorph.hm]. change (MS (hs c)) with (hm (MS c)). rewrite <- (h_0 h H), hm_ridge. step. reflexivity.
Qed.

(** ** NMF *)
Lemma h_beta : @nmf_beta N' = h nmf_beta.
Proof. unfold nmf_beta. rewrite (h_div h H), (h_1 h H), (h_ofZ h H); [reflexivity|]. apply (o_ofZ N O). lia. Qed.
Lemma beta_nz : @nmf_beta N <> f0.
Proof. unfold nmf_beta. apply (o_div1 N O), (o_ofZ N O). lia. Qed.
Lemma h_c99 : @c99 N' = h c99.
Proof. unfold c99. rewrite (h_div h H), !(h_ofZ h H); [reflexivity|]. apply (o_ofZ N O). lia. Qed.
Lemma h_c05 : @c05 N' = h c05.
Proof. unfold c05. rewrite (h_div h H), (h_1 h H), (h_ofZ h H); [reflexivity|]. apply (o_ofZ N O). lia. Qed.
Lemma hm_nmf_try w g x a : nmf_try (hm w) (hm g) (hm x) (h a) = rmap (fun p => (hm (fst p), snd p)) (nmf_try w g x a).
Proof.
  unfold nmf_try. rewrite (hm_scal h H), (hm_sub h H). step. intros h1 _. rewrite (hm_get_non_negative h H), (hm_sub h H). step.
  intros d _. rewrite (hm_multiply h H). step. intros gd _. rewrite (hm_mul h H). step. intros wd _. rewrite (hm_multiply h H). step.
  intros wdd _. rewrite !(hm_sum h H), h_c99, h_c05, <- !(h_mul h H), <- (h_add h H), (h_lt0 h H). reflexivity.
Qed.
Notation l1f := (fun p => (hm (fst p), h (snd p))).
Lemma hm_nmf_inner n w g x hp a dec : nmf_inner n (hm w) (hm g) (hm x) (hm hp) (h a) dec = rmap l1f (nmf_inner n w g x hp a dec).
Proof.
  revert hp a. induction n as [|n IH]; intros hp a; [reflexivity|]. cbn [nmf_inner]. rewrite hm_nmf_try. step. intros [hn sf] _.
  cbn [fst snd]. destruct dec.
  - destruct sf; [reflexivity|]. rewrite h_beta, <- (h_mul h H). apply IH.
  - destruct (negb sf); [reflexivity|]. rewrite (hm_all_close h H O). step. intros [] _; [reflexivity|].
    rewrite h_beta, <- (h_div h H) by (exact beta_nz). apply IH.
Qed.
Lemma hm_nmf_search w g x a : nmf_search (hm w) (hm g) (hm x) (h a) = rmap l1f (nmf_search w g x a).
Proof.
  unfold nmf_search. rewrite hm_nmf_try. step. intros [hn sf] _. cbn [fst snd]. cbv zeta. destruct (negb sf).
  - rewrite h_beta, <- (h_mul h H). apply hm_nmf_inner.
  - rewrite (hm_all_close h H O). step. intros [] _; [reflexivity|]. rewrite h_beta, <- (h_div h H) by (exact beta_nz).
    apply hm_nmf_inner.
Qed.
Lemma hm_nmf_sub_loop n wv ww x a : nmf_sub_loop n (hm wv) (hm ww) (hm x) (h a) = rmap hm (nmf_sub_loop n wv ww x a).
Proof.
  revert x a. induction n as [|n IH]; intros x a; [reflexivity|]. cbn [nmf_sub_loop]. rewrite (hm_mul h H). step. intros wh _.
  rewrite (hm_sub h H). step. intros g _. rewrite hm_nmf_search. step. intros [x' a'] _. apply IH.
Qed.
Lemma hm_nmf_nls v w wt x : nmf_nlssubprob (hm v) (hm w) (hm wt) (hm x) = rmap hm (nmf_nlssubprob v w wt x).
Proof.
  unfold nmf_nlssubprob. rewrite (hm_mul h H). step. intros a _. rewrite (hm_mul h H). step. intros b _.
  unfold nmf_alpha. rewrite <- (h_1 h H). apply hm_nmf_sub_loop.
Qed.
Lemma hm_nmf_loop n i v vt w x : nmf_loop n i (hm v) (hm vt) (hm w) (hm x) = rmap l2 (nmf_loop n i v vt w x).
Proof.
  revert i w x. induction n as [|n IH]; intros i w x; [reflexivity|]. cbn [nmf_loop]. rewrite (x_timeout _ _ X).
  destruct (e_timeout i); [reflexivity|]. rewrite !(hm_transpose h H), hm_nmf_nls. step. intros ow _.
  rewrite !(hm_transpose h H), hm_nmf_nls. step. intros x' _. apply IH.
Qed.
Lemma hm_nmf v w x : linalg_nmf (hm v) (hm w) (hm x) = rmap l2 (linalg_nmf v w x).
Proof.
  unfold linalg_nmf. cbv zeta. rewrite !(hm_transpose h H), (hm_mul h H). step. intros a _. rewrite (hm_mul h H). step. intros b _.
  rewrite (hm_mul h H). step. intros c _. rewrite (hm_sub h H). step. intros d _. rewrite (hm_mul h H). step. intros e _.
  rewrite (hm_mul h H). step. intros f _. rewrite (hm_mul h H). step. intros g _. rewrite (hm_sub h H). step. intros g2 _.
  apply hm_nmf_loop.
Qed.
Lemma hm_v_col_init k m : v_col_init k (hm m) = l2 (v_col_init k m).
Proof.
  unfold v_col_init. cbv zeta. cbn [fst snd]. rewrite hm_type, hm_nr, hm_nc, <- !(hm_of_dense h H), !(hd_tab h). f_equal; f_equal; apply tab_ext; intros.
  - rewrite (h_div h H), (h_ofZ h H) by (apply (o_ofZ N O); lia). rewrite <- (h_sumn h H). f_equal. apply sumn_ext. intros.
    rewrite (x_rndcol _ _ X). apply (hm_ent h H).
  - rewrite (h_div h H), (h_ofZ h H) by (apply (o_ofZ N O); lia). rewrite <- (h_sumn h H). f_equal. apply sumn_ext. intros.
    rewrite (x_rndrow _ _ X). apply (hm_ent h H).
Qed.
Lemma hm_nmf_apply k m : nmf_apply k (hm m) = rmap l2 (nmf_apply k m).
Proof.
  unfold nmf_apply. rewrite (hm_assert_positive h H), hm_v_col_init. step. intros _ _. destruct (v_col_init k m) as [w x]. cbn [fst snd].
  rewrite hm_nmf. step. intros [w' x'] _. cbn [fst snd]. rewrite hm_pinv. step. reflexivity.
Qed.
(** the other initialisations *)
Lemma hm_random_init k m : random_init k (hm m) = rmap l2 (random_init k m).
Proof.
  unfold random_init. rewrite hm_nc, hm_nr, (hm_get_cols h H).
  rewrite (map_ext (fun q => @e_rndcol _ E' 0 q mod m_nc m) (fun q => @e_rndcol _ E 0 q mod m_nc m))
    by (intros; rewrite (x_rndcol _ _ X); reflexivity).
  rewrite (map_ext (fun q => @e_rndrow _ E' 0 q mod m_nr m) (fun q => @e_rndrow _ E 0 q mod m_nr m))
    by (intros; rewrite (x_rndrow _ _ X); reflexivity).
  step. intros w _. rewrite (hm_get_rows h H). step. reflexivity.
Qed.
Lemma hm_nary_hstack l : nary_hstack (map hm l) = rmap hm (nary_hstack l).
Proof.
  induction l as [|m l IH]; [reflexivity|]. destruct l as [|m2 l]; [reflexivity|].
  change (nary_hstack (map hm (m :: m2 :: l))) with (let* r := nary_hstack (map hm (m2 :: l)) in m_hstack (hm m) r).
  change (nary_hstack (m :: m2 :: l)) with (let* r := nary_hstack (m2 :: l) in m_hstack m r). rewrite IH. step. intros x _.
  apply (hm_hstack h H).
Qed.
Lemma h_math_sqrt x : math_sqrt (h x) = rmap h (math_sqrt x).
Proof.
  unfold math_sqrt. rewrite (h_leb0 h H). unfold check. destruct (fleb f0 x) eqn:L; [|reflexivity]. cbn. f_equal. symmetry.
  apply (h_sqrt h H). unfold fleb in L. destruct (fltb x f0); [discriminate|reflexivity].
Qed.
Lemma hm_abs a : matrix_abs (hm a) = rmap hm (matrix_abs a).
Proof. unfold matrix_abs. rewrite (hm_get_non_negative h H), (hm_sub h H). step. intros n _. apply (hm_add h H). Qed.
Lemma hm_padd_zeros a ax n : padd_zeros (hm a) ax n = rmap hm (padd_zeros a ax n).
Proof. destruct ax; cbn [padd_zeros]; rewrite hm_type, ?hm_nr, ?hm_nc, (hm_const0 h H); [apply (hm_vstack h H)|apply (hm_hstack h H)]. Qed.
Lemma hm_nndsvd_first s u v : nndsvd_first (h s) (hm u) (hm v) = rmap l2 (nndsvd_first s u v).
Proof.
  unfold nndsvd_first. rewrite h_math_sqrt. step. intros q _. rewrite hm_abs. step. intros a _. rewrite hm_abs. step. intros b _.
  rewrite !(hm_scal h H). reflexivity.
Qed.
Lemma hm_nndsvd_step s u v : nndsvd_step (h s) (hm u) (hm v) = rmap l2 (nndsvd_step s u v).
Proof.
  unfold nndsvd_step. cbv zeta. rewrite !(hm_get_non_negative h H), (hm_sub h H). step. intros un _. rewrite (hm_sub h H). step. intros vn _.
  rewrite !(hm_norm h H O), <- !(h_mul h H), (h_leb h H). destruct (fleb _ _); rewrite h_math_sqrt; step; intros q _;
    rewrite !(hm_scal h H), (hm_div h H); step; intros a _; rewrite (hm_div h H); step; reflexivity.
Qed.
Lemma hm_nndsvd k m : nndsvd_init k (hm m) = rmap l2 (nndsvd_init k m).
Proof.
  unfold nndsvd_init. rewrite hm_svd. step. intros [[u s] v] _. cbn [fst snd]. cbv zeta. rewrite hm_nc, (hm_transpose h H).
  rewrite ?bind_rmap, ?rmap_bind. match goal with |- bind (mapM ?f _) _ = bind (mapM ?g _) _ => rewrite (mapM_eq f (fun i => rmap l2 (g i))) end.
  - rewrite mapM_rmap. step. intros ps _. rewrite !map_map. cbn [fst snd]. rewrite <- !(map_map fst hm), <- !(map_map snd hm).
    rewrite hm_nary_hstack. step. intros w _. rewrite hm_type, (hm_nary_vstack h H). step. intros x _.
    destruct (Nat.ltb _ _); [|reflexivity]. rewrite hm_padd_zeros. step. intros w' _. rewrite hm_padd_zeros. step. reflexivity.
  - intros i. rewrite (hm_get_cols h H). step. intros uu _. rewrite (hm_get_row h H). step. intros vv _. rewrite (h_nth h H).
    destruct (Nat.eqb i 0); [apply hm_nndsvd_first|apply hm_nndsvd_step].
Qed.

(** ** transformations of spaces *)
Lemma hm_op_apply o m : op_apply (ho o) (hm m) = rmap (fun p => (hm (fst p), ho (snd p))) (op_apply o m).
Proof.
  destruct o as [s [st|]|d k [tm|]|c k [sel|] orig]; try reflexivity; cbn [PMorph2.ho option_map op_apply].
  - pose proof (hm_scaling h H O s m None) as Hs. cbn [option_map] in Hs. rewrite Hs. step. intros r _. cbn. rewrite (h_column_stats h H O).
    destruct (uses_column_stats s); reflexivity.
  - replace (dimred_apply d k (hm m)) with (rmap l2 (dimred_apply d k m)) by (symmetry; destruct d; [apply hm_svd_apply|apply hm_nmf_apply]).
    step. intros [r tm] _. cbn [fst snd]. rewrite (hm_conv h H). reflexivity.
  - rewrite (hm_topfs h H O). step. intros [r sel] _. reflexivity.
Qed.
Theorem h_space_apply s t : space_apply (hsp s) t = rmap hsp (space_apply s t).
Proof.
  unfold space_apply. replace (@create_operation N' t) with (ho (create_operation t)) by (destruct t; reflexivity).
  cbn [PMorph2.hsp s_mat]. rewrite hm_op_apply. step. intros [m op] _. cbn [fst snd]. cbn [s_id2col s_col2id s_id2row s_row2id s_ops].
  rewrite ?bind_rmap, ?rmap_bind. match goal with |- bind ?x _ = bind ?y _ => replace x with (rmap (fun p => (ho (fst (fst p)), snd (fst p), snd p)) y) end.
  - step. intros [[op' ic] ci] _. cbn [fst snd]. rewrite <- (hsp_mk h), map_app. reflexivity.
  - destruct op as [sc st|d k tm|c k sel orig]; cbn [PMorph2.ho]; [reflexivity| |].
    + unfold assert_1dim_element. cbn [s_eshape]. step. reflexivity.
    + unfold assert_1dim_element. cbn [s_eshape]. step. intros _ _. cbn [PMorph2.hsp s_id2col]. destruct (s_id2col s) as [|w ws]; [reflexivity|].
      step. intros ic _. step. reflexivity.
Qed.
Lemma hm_op_project o m : op_project (ho o) (hm m) = rmap hm (op_project o m).
Proof.
  destruct o as [s st|d k [tm|]|c k [sel|] orig]; try reflexivity; cbn [PMorph2.ho option_map op_project].
  - destruct (uses_column_stats s); [destruct st as [st|]; [|reflexivity]; apply (hm_scaling h H O s m (Some st))|].
    apply (hm_scaling h H O s m None).
  - unfold dim_project. rewrite (hm_assert_positive h H). step. intros _ _. rewrite hm_type, (hm_resolve2 h H). step. intros [a b] _.
    cbn [fst snd]. rewrite (hm_mul h H). step. intros r _. cbn [rmap bind]. rewrite <- (hm_conv h H).
    destruct d; [reflexivity|]. rewrite (hm_to_non_negative h H). reflexivity.
  - apply (hm_get_cols h H).
Qed.
Lemma h_project_ops ops c m : project_ops (map ho ops) c (hm m) = (let p := project_ops ops c m in (fst p, rmap hm (snd p))).
Proof.
  revert c m. induction ops as [|o ops IH]; intros c m; [reflexivity|]. cbn [map project_ops].
  replace (op_columns (ho o) c) with (op_columns o c) by (destruct o; reflexivity).
  destruct (op_columns o c) as [c' [[]|e]]; [|reflexivity]. rewrite hm_op_project. destruct (op_project o m) as [m'|e]; [|reflexivity].
  cbn [rmap bind]. apply IH.
Qed.
Theorem h_peripheral core m ids rd : mk_peripheral (hsp core) (hm m) ids rd = rmap hsp (mk_peripheral core m ids rd).
Proof.
  unfold mk_peripheral. step. intros r2 _. cbn [PMorph2.hsp s_ops s_id2col s_col2id]. rewrite h_project_ops.
  destruct (project_ops _ _ _) as [c rm]. cbv zeta. cbn [fst snd]. step. intros pm _. rewrite hm_nr, !hm_nc. step. reflexivity.
Qed.
Theorem h_add_rows s m ids : add_rows (hsp s) (hm m) ids = (let p := add_rows s m ids in (hsp (fst p), snd p)).
Proof.
  unfold add_rows. cbn [PMorph2.hsp s_row2id]. destruct (add_items_to_dict _ _) as [d [[]|e]]; [|reflexivity]. rewrite hm_nr.
  destruct (negb _); [reflexivity|].
  unfold set_id2row, set_row2id, set_cols, set_mat. cbn [PMorph2.hsp s_ops s_id2col s_col2id s_id2row s_mat s_row2id s_eshape]. rewrite h_project_ops.
  destruct (project_ops _ _ _) as [c [pm|e]]; cbv zeta; cbn [fst snd rmap bind]; [|reflexivity].
  cbn [PMorph2.hsp s_mat s_id2row s_id2col s_row2id s_col2id]. rewrite (hm_vstack h H).
  destruct (m_vstack (s_mat s) pm) as [vm|e]; cbn [rmap bind]; [|reflexivity]. rewrite hm_nr, hm_nc. reflexivity.
Qed.

(** ** learners *)
Definition hl (L : @learner N) : @learner N' :=
  match L with LLstsq i => LLstsq i | LRidge i cv r p => LRidge i cv (map h r) (option_map h p) end.
Lemma hl_icpt L : has_intercept (hl L) = has_intercept L.  Proof. destruct L; reflexivity. Qed.
Lemma hl_lstsq i : mk_lstsq i = hl (mk_lstsq i).  Proof. reflexivity. Qed.
Notation hg := (fun st : option (@F N) * @F N * option (@F N) => (option_map h (fst (fst st)), h (snd (fst st)), option_map h (snd st))).
Lemma h_lt_inf a b : lt_inf (option_map h a) (option_map h b) = lt_inf a b.
Proof. destruct a, b; cbn; try reflexivity. apply (h_ltb h H). Qed.
Lemma hm_gcv_step a b i st p : 0 < m_nr a -> gcv_step (hm a) (hm b) i (hg st) (h p) = rmap hg (gcv_step a b i st p).
Proof.
  intros Ha. destruct st as [[me mp] g]. unfold gcv_step. cbn [fst snd]. rewrite hm_ridge. step. intros [[x tr] err] _. cbn [fst snd].
  cbv zeta. rewrite hm_nr.
  assert (Hn : fofZ (Z.of_nat (m_nr a)) <> @f0 N) by (apply (o_ofZ N O); lia).
  rewrite <- (h_ofZ h H), <- (h_div h H) by exact Hn. rewrite <- (h_1 h H), <- (h_sub h H), <- !(h_mul h H), (h_eq0 h H).
  set (nom := fmul (fmul _ _) _).
  replace (if feqb nom f0 then option_map h g else Some (fdiv (h (fmul err err)) (h nom)))
    with (option_map h (if feqb nom f0 then g else Some (fdiv (fmul err err) nom))).
  - rewrite h_lt_inf. destruct (lt_inf _ _); reflexivity.
  - destruct (feqb nom f0) eqn:Q; [reflexivity|]. cbn. rewrite (h_div h H); [reflexivity|]. apply feqb_neq. exact Q.
Qed.
Lemma hm_gcv_fold a b i r st : 0 < m_nr a -> foldM (gcv_step (hm a) (hm b) i) (map h r) (hg st) = rmap hg (foldM (gcv_step a b i) r st).
Proof.
  intros Ha. revert st. induction r as [|p r IH]; intros st; [reflexivity|]. cbn [map foldM]. rewrite hm_gcv_step by exact Ha. step.
  intros st' _. apply IH.
Qed.
Lemma hm_gcv_param a b i r : 0 < m_nr a -> gcv_param (hm a) (hm b) i (map h r) = rmap h (gcv_param a b i r).
Proof.
  intros Ha. unfold gcv_param. rewrite <- (h_0 h H). 
  pose proof (hm_gcv_fold a b i r (None, f0, None) Ha) as G. cbn [fst snd option_map] in G. rewrite G. step. reflexivity.
Qed.
Lemma hm_learner L a b : 0 < m_nr a -> learner_train (hl L) (hm a) (hm b) = rmap hm (learner_train L a b).
Proof.
  intros Ha. destruct L as [i|i [] r [p|]]; cbn [hl learner_train option_map].
  - apply hm_lstsq.
  - rewrite hm_gcv_param by exact Ha. step. intros q _. rewrite hm_ridge. step. reflexivity.
  - rewrite hm_gcv_param by exact Ha. step. intros q _. rewrite hm_ridge. step. reflexivity.
  - rewrite hm_ridge. step. reflexivity.
  - rewrite hm_same_type, hm_assert_same_nr. step. intros _ _. step. reflexivity.
Qed.

(** ** composition *)
Definition ha (a : @arg_spaces N) : @arg_spaces N' := match a with One s => One (hsp s) | Tup l => Tup (map hsp l) end.
Definition hk (k : @ckind N) : @ckind N' :=
  match k with
  | WAdd a b => WAdd (h a) (h b)
  | Mult => Mult
  | Dil l => Dil (h l)
  | FAdd ab i L => FAdd (option_map l2 ab) i (option_map hl L)
  end.
Definition hc (m : @cmodel N) : @cmodel N' := CM (hk (cm_kind m)) (cm_cols m).
Notation hsp2 := (fun p : @space N * @space N => (hsp (fst p), hsp (snd p))).
Lemma h_extract a : extract_arg_spaces (ha a) = rmap hsp2 (extract_arg_spaces a).
Proof. unfold extract_arg_spaces. destruct a as [s|[|x [|y [|z l]]]]; cbn; try reflexivity; destruct (strings_eqb _ _); reflexivity. Qed.
Lemma h_wadd a b u v : wadd_compose (h a) (h b) (hm u) (hm v) = rmap hm (wadd_compose a b u v).
Proof. unfold wadd_compose. rewrite !(hm_scal h H). apply (hm_add h H). Qed.
Lemma map_sq l : map fsq (map h l) = map h (map fsq l).
Proof. rewrite !map_map. apply map_ext. intros. apply (h_sq h H). Qed.
Lemma h_dil l u v : dil_compose (h l) (hm u) (hm v) = rmap hm (dil_compose l u v).
Proof.
  unfold dil_compose. rewrite (hm_multiply h H). step. intros uv _. rewrite (hm_sum1 h H), (hm_norm1 h H O), map_sq, (hm_scale_rows h H). step.
  intros us _. rewrite (hm_scale_rows h H). step. intros vs _. rewrite <- (h_1 h H), <- (h_sub h H), (hm_scal h H). apply (hm_add h H).
Qed.
Lemma h_fadd ab i u v : fadd_compose (option_map l2 ab) i (hm u) (hm v) = rmap hm (fadd_compose ab i u v).
Proof.
  destruct ab as [[a b]|]; [|reflexivity]. cbn [option_map fadd_compose fst snd]. rewrite hm_type, (hm_resolve3 h H). step.
  intros [[a' b'] u'] _. cbn [fst snd]. rewrite (hm_mul h H). step. intros x _.
  replace (if i then padd_matrix (hm v) 1 f1 else Ok (hm v)) with (rmap hm (if i then padd_matrix v 1 f1 else Ok v))
    by (destruct i; [rewrite hm_padd1|]; reflexivity).
  step. intros v' _. rewrite (hm_mul h H). step. intros y _. apply (hm_add h H).
Qed.
Lemma h_kind_compose k u v : kind_compose (hk k) (hm u) (hm v) = rmap hm (kind_compose k u v).
Proof. destruct k; cbn [hk kind_compose]; [apply h_wadd|apply (hm_multiply h H)|apply h_dil|apply h_fadd]. Qed.
Lemma h_compose_matrix k data a : compose_matrix (hk k) data (ha a)
  = rmap (fun r => (hm (fst (fst (fst r))), snd (fst (fst r)), hsp (snd (fst r)), hsp (snd r))) (compose_matrix k data a).
Proof.
  unfold compose_matrix. rewrite h_extract. step. intros [s1 s2] _. cbn [fst snd]. cbn [PMorph2.hsp s_row2id]. step. intros [[w1 w2] w3] _.
  fold (hsp s1) (hsp s2). rewrite !(hsp_get_rows h H). step. intros m1 _. step. intros m2 _. rewrite (hm_resolve2 h H). step.
  intros [x y] _. cbn [fst snd]. rewrite h_kind_compose. step. reflexivity.
Qed.
Theorem h_compose m data a : compose (hc m) data (ha a) = (let p := compose m data a in (hc (fst p), rmap hsp (snd p))).
Proof.
  unfold compose. cbn [hc cm_kind cm_cols]. rewrite h_compose_matrix. destruct (compose_matrix _ _ _) as [[[[c w3] s1] s2]|e]; cbv zeta; cbn [rmap bind fst snd]; [|reflexivity].
  replace (build_id2column (hk (cm_kind m)) (hsp s1) (hsp s2)) with (build_id2column (cm_kind m) s1 s2) by (destruct (cm_kind m); reflexivity).
  f_equal. apply (hsp_mk h c _ _ _ _ []).
Qed.

(** ** training *)
Notation h5 := (fun x : @F N * @F N * @F N * @F N * @F N =>
  (h (fst (fst (fst (fst x)))), h (snd (fst (fst (fst x)))), h (snd (fst (fst x))), h (snd (fst x)), h (snd x))).
Lemma h_wadd_train1 u v p : wadd_train1 (hm u) (hm v) (hm p) = rmap h5 (wadd_train1 u v p).
Proof.
  unfold wadd_train1. rewrite (hm_multiply h H). step. intros a _. rewrite (hm_multiply h H). step. intros b _.
  rewrite (hm_multiply h H). step. intros c _. cbn [rmap bind fst snd]. rewrite !(hm_sum h H), !(hm_norm h H O), !(h_sq h H). reflexivity.
Qed.
Lemma h_wadd_train2 a b c d e : wadd_train2 (h a) (h b) (h c) (h d) (h e) = rmap (fun p => (h (fst p), h (snd p))) (wadd_train2 a b c d e).
Proof.
  unfold wadd_train2. change (DM 2 2 [[h d; h a]; [h a; h e]]) with (hd (DM 2 2 [[d; a]; [a; e]])). rewrite (x_pinv _ _ X). step. intros f _.
  cbn [rmap bind fst snd]. rewrite <- !(h_mul h H), <- !(h_add h H). reflexivity.
Qed.
Lemma h_wadd_chunk s1 s2 sp w1 w2 w3 cs acc i :
  wadd_chunk (hsp s1) (hsp s2) (hsp sp) w1 w2 w3 cs (h5 acc) i = rmap h5 (wadd_chunk s1 s2 sp w1 w2 w3 cs acc i).
Proof.
  unfold wadd_chunk. cbv zeta. rewrite (hsp_get_rows h H). step. intros u _. rewrite (hsp_get_rows h H). step. intros v _.
  rewrite (hsp_get_rows h H). step. intros p _. rewrite (hm_resolve3 h H). step. intros [[u' v'] p'] _. cbn [fst snd].
  rewrite h_wadd_train1. step. intros [[[[x1 x2] x3] x4] x5] _. destruct acc as [[[[y1 y2] y3] y4] y5].
  unfold add5. cbn [fst snd rmap bind]. rewrite !(h_add h H). reflexivity.
Qed.
Lemma h_foldM {A S S'} (f : S -> A -> res S) (f' : S' -> A -> res S') (g : S -> S') l s :
  (forall s x, f' (g s) x = rmap g (f s x)) -> foldM f' l (g s) = rmap g (foldM f l s).
Proof. intros Hf. revert s. induction l as [|x l IH]; intros s; [reflexivity|]. cbn [foldM]. rewrite Hf. step. intros s' _. apply IH. Qed.
Lemma h_wadd_xxx s1 s2 sp w1 w2 w3 :
  wadd_xxx (hsp s1) (hsp s2) (hsp sp) w1 w2 w3 = rmap (fun p => (h (fst p), h (snd p))) (wadd_xxx s1 s2 sp w1 w2 w3).
Proof.
  unfold wadd_xxx. cbv zeta. replace (m_nr (s_mat (hsp sp))) with (m_nr (s_mat sp)) by (symmetry; apply hm_nr).
  change (@f0 N', @f0 N', @f0 N', @f0 N', @f0 N') with ((fun z => (z, z, z, z, z)) (@f0 N')). rewrite <- (h_0 h H).
  change ((fun z => (z, z, z, z, z)) (h (@f0 N))) with (h5 (@f0 N, @f0 N, @f0 N, @f0 N, @f0 N)).
  pose proof (h_foldM (wadd_chunk s1 s2 sp w1 w2 w3 (chunk_size (m_nr (s_mat sp)))) (wadd_chunk (hsp s1) (hsp s2) (hsp sp) w1 w2 w3 (chunk_size (m_nr (s_mat sp)))) h5
    (seq 0 (length w1 / chunk_size (m_nr (s_mat sp)))) (@f0 N, @f0 N, @f0 N, @f0 N, @f0 N) (fun s x => h_wadd_chunk s1 s2 sp w1 w2 w3 _ s x)) as G.
  cbn [fst snd] in G. cbn [fst snd]. rewrite G.
  step. intros [[[[x1 x2] x3] x4] x5] _. cbn [fst snd]. apply h_wadd_train2.
Qed.
Lemma h_dil_train u v p : dil_train (hm u) (hm v) (hm p) = rmap h (dil_train u v p).
Proof.
  unfold dil_train. cbv zeta. rewrite (hm_norm1 h H O), map_sq, (hm_scale_rows h H). step. intros vs _. rewrite (hm_sub h H). step. intros v2 _.
  rewrite (hm_multiply h H). step. intros u2 _. rewrite (hm_multiply h H). step. intros uv _. rewrite !(hm_sum1 h H), map_length.
  set (idx := seq 0 (length (m_sum1 uv))). set (sq := map fsq (m_norm1 u)).
  assert (E1 : suml (map (fun i => fmul (fsq (nth i (map h (m_sum1 uv)) f0)) (nth i (map h sq) f0)) idx)
               = h (suml (map (fun i => fmul (fsq (nth i (m_sum1 uv) f0)) (nth i sq f0)) idx))).
  { rewrite <- (h_suml h H), map_map. f_equal. apply map_ext. intros i. rewrite !(h_nth h H), (h_sq h H), (h_mul h H). reflexivity. }
  assert (E2 : suml (map (fun i => fmul (nth i (map h (m_sum1 uv)) f0) (nth i (map h (m_sum1 u2)) f0)) idx)
               = h (suml (map (fun i => fmul (nth i (m_sum1 uv) f0) (nth i (m_sum1 u2) f0)) idx))).
  { rewrite <- (h_suml h H), map_map. f_equal. apply map_ext. intros i. rewrite !(h_nth h H), (h_mul h H). reflexivity. }
  rewrite E1, E2, (h_eq0 h H). destruct (feqb _ f0) eqn:Q; cbn [rmap bind].
  - rewrite (h_ofZ h H). reflexivity.
  - rewrite (h_sub h H), (h_1 h H), (h_div h H); [reflexivity|]. apply feqb_neq. exact Q.
Qed.
Lemma hm_slice_rows m a b : m_slice_rows (hm m) a b = rmap hm (m_slice_rows m a b).
Proof. unfold m_slice_rows. rewrite hm_nr. apply (hm_get_rows h H). Qed.
Lemma hstack_nr a b m : @m_hstack N a b = Ok m -> m_nr m = m_nr a.
Proof.
  unfold m_hstack, same_type, check. destruct (mtype_eqb _ _); [|discriminate]. destruct (Nat.eqb _ _); [|discriminate]. cbn.
  intros [= <-]. destruct a as [d|c]; cbn; [reflexivity|]. rewrite map_length, seq_length. reflexivity.
Qed.
Lemma h_fadd_train L u v p : 0 < m_nr u ->
  fadd_train (hl L) (hm u) (hm v) (hm p) = rmap l2 (fadd_train L u v p).
Proof.
  intros Hu. unfold fadd_train. rewrite (hm_hstack h H). step. intros uv Huv. rewrite hm_learner by (rewrite (hstack_nr _ _ _ Huv); exact Hu). step.
  intros r _. rewrite hm_nc, hm_nr, hm_slice_rows. step. intros a _. rewrite hm_slice_rows. step. reflexivity.
Qed.
Lemma conv_nr t m : m_nr (@conv N t m) = m_nr m.
Proof. destruct t, m; cbn; try reflexivity. rewrite map_length, seq_length. reflexivity. Qed.
Lemma get_rows_pos (s : @space N) ws m : get_rows s ws = Ok m -> 0 < m_nr m.
Proof.
  unfold get_rows, m_get_rows. destruct (mapM _ ws) as [ids|]; [|discriminate]. cbn [bind]. destruct (py_indices _ ids) as [ks|]; [|discriminate].
  cbn [bind]. unfold check. destruct ks as [|k ks]; cbn [length Nat.eqb negb]; [discriminate|]. cbn [bind]. intros [= <-].
  destruct (type_of (s_mat s)); cbn; lia.
Qed.
Lemma resolve_nr l t l' : @resolve_type_conflict N l t = Ok l' -> map m_nr l' = map m_nr l.
Proof.
  unfold resolve_type_conflict. destruct (type_conflict l); [|intros [= <-]; reflexivity]. destruct t; [|discriminate]. intros [= <-].
  rewrite map_map. apply map_ext. intros. apply conv_nr.
Qed.
Lemma resolve3_nr a b c t x y z : @resolve3 N a b c t = Ok (x, y, z) -> m_nr x = m_nr a.
Proof.
  unfold resolve3. destruct (resolve_type_conflict _ _) as [l|] eqn:R; [|discriminate]. apply resolve_nr in R. cbn [bind].
  destruct l as [|x' [|y' [|z' [|]]]]; try discriminate. intros [= <- <- <-]. cbn in R. congruence.
Qed.
Lemma resolve2_nr a b t x y : @resolve2 N a b t = Ok (x, y) -> m_nr x = m_nr a.
Proof.
  unfold resolve2. destruct (resolve_type_conflict _ _) as [l|] eqn:R; [|discriminate]. apply resolve_nr in R. cbn [bind].
  destruct l as [|x' [|y' [|]]]; try discriminate. intros [= <- <-]. cbn in R. congruence.
Qed.
Notation l3m := (fun p => (hm (fst (fst p)), hm (snd (fst p)), hm (snd p))).
Lemma h_gen_xxx s1 s2 sp w1 w2 w3 : gen_xxx (hsp s1) (hsp s2) (hsp sp) w1 w2 w3 = rmap l3m (gen_xxx s1 s2 sp w1 w2 w3).
Proof.
  unfold gen_xxx. rewrite (hsp_get_rows h H). step. intros u _. rewrite (hsp_get_rows h H). step. intros v _.
  rewrite (hsp_get_rows h H). step. intros p _. apply (hm_resolve3 h H).
Qed.
Lemma gen_xxx_pos (s1 s2 sp : @space N) w1 w2 w3 u v p : gen_xxx s1 s2 sp w1 w2 w3 = Ok (u, v, p) -> 0 < m_nr u.
Proof.
  unfold gen_xxx. destruct (get_rows s1 w1) as [a|] eqn:G; [|discriminate]. cbn [bind]. destruct (get_rows s2 w2) as [b|]; [|discriminate].
  cbn [bind]. destruct (get_rows sp w3) as [c|]; [|discriminate]. cbn [bind]. intros R. rewrite (resolve3_nr _ _ _ _ _ _ _ R).
  exact (get_rows_pos _ _ _ G).
Qed.
Lemma h_train_lists data a sp : train_lists data (ha a) (hsp sp)
  = rmap (fun p => (hsp (fst (fst p)), hsp (snd (fst p)), snd p)) (train_lists data a sp).
Proof. unfold train_lists. rewrite h_extract. step. intros [s1 s2] _. cbn [fst snd PMorph2.hsp s_row2id]. step. reflexivity. Qed.
Theorem h_train m data a sp : train (hc m) data (ha a) (hsp sp) = (let p := train m data a sp in (hc (fst p), snd p)).
Proof.
  unfold train. cbn [hc cm_kind cm_cols]. destruct (cm_kind m) as [x y| |l|ab i Lo] eqn:K; cbn [hk].
  - rewrite h_train_lists, bind_rmap.
    match goal with |- context [match bind (train_lists data a sp) ?f with Ok _ => _ | Err _ => _ end = _] => idtac | _ => idtac end.
    destruct (train_lists data a sp) as [[[s1 s2] [[w1 w2] w3]]|e]; cbn [bind fst snd]; [|unfold hc; rewrite K; reflexivity].
    rewrite h_wadd_xxx. destruct (wadd_xxx _ _ _ _ _ _) as [[p q]|e]; cbn; [reflexivity|]. unfold hc; rewrite K; reflexivity.
  - cbn. unfold hc; rewrite K; reflexivity.
  - rewrite h_train_lists, bind_rmap.
    destruct (train_lists data a sp) as [[[s1 s2] [[w1 w2] w3]]|e]; cbn [bind fst snd]; [|unfold hc; rewrite K; reflexivity].
    rewrite h_gen_xxx, bind_rmap. destruct (gen_xxx _ _ _ _ _ _) as [[[u v] p]|e]; cbn [bind fst snd]; [|unfold hc; rewrite K; reflexivity].
    rewrite h_dil_train. destruct (dil_train u v p) as [q|e]; cbn; [reflexivity|]. unfold hc; rewrite K; reflexivity.
  - rewrite h_train_lists, bind_rmap.
    destruct (train_lists data a sp) as [[[s1 s2] [[w1 w2] w3]]|e]; cbn [bind fst snd]; [|unfold hc; rewrite K; reflexivity].
    rewrite h_gen_xxx. destruct (gen_xxx _ _ _ _ _ _) as [[[u v] p]|e] eqn:G; cbn [rmap bind fst snd]; [|unfold hc; rewrite K; reflexivity].
    destruct Lo as [L|]; cbn [option_map]; [|unfold hc; cbn [fst snd]; rewrite K; reflexivity]. rewrite hl_icpt, h_fadd_train by (exact (gen_xxx_pos _ _ _ _ _ _ _ _ _ G)).
    destruct (fadd_train L u v p) as [[r1 r2]|e]; reflexivity.
Qed.

(** ** lexical functions *)
Definition hlf (m : @lexfun N) : @lexfun N' := LF (option_map hsp (lf_fs m)) (lf_icpt m) (hl (lf_learner m)) (lf_cols m) (lf_min m).
Lemma h_lf_learn L arg phr n ws ps : lf_learn (hl L) (hsp arg) (hsp phr) n ws ps = rmap (fun p => (hm (fst p), snd p)) (lf_learn L arg phr n ws ps).
Proof.
  unfold lf_learn. rewrite (hsp_get_rows h H). step. intros am Ham. rewrite (hsp_get_rows h H). step. intros pm _.
  change [hm am; hm pm] with (map hm [am; pm]). rewrite (hm_largest h), (hm_resolve2 h H). step. intros [am' pm'] R. cbn [fst snd].
  rewrite hm_learner by (rewrite (resolve2_nr _ _ _ _ _ R); exact (get_rows_pos _ _ _ Ham)). step. intros x _.
  rewrite (hm_transpose h H), (hm_reshape h H). step. intros r _. rewrite hm_type. reflexivity.
Qed.
Lemma h_lf_train_space L k data arg phr : lf_train_space (hl L) k data (hsp arg) (hsp phr) = rmap hsp (lf_train_space L k data arg phr).
Proof.
  unfold lf_train_space. cbv zeta. cbn [PMorph2.hsp s_row2id s_eshape]. step. intros [[w1 w2] w3] _. step. intros [ks rs] _. step. intros _ _.
  step. intros _ _. rewrite hl_icpt.
  rewrite (mapM_eq _ (fun ab : nat * nat => rmap (fun p => (hm (fst p), snd p)) (lf_learn L arg phr
     (list_prod_nat (s_eshape phr ++ [if has_intercept L then nth 0 (s_eshape arg) 0 + 1 else nth 0 (s_eshape arg) 0]))
     (slice (fst ab) (snd ab) w2) (slice (fst ab) (snd ab) w3)))) by (intros; apply h_lf_learn).
  rewrite mapM_rmap. step. intros ls _. rewrite !map_map. cbn [fst snd]. rewrite <- (map_map fst hm), (hm_nary_vstack h H). step. intros mat _.
  apply (hsp_mk h mat _ _ _ _ []).
Qed.
Theorem h_lf_train m data arg phr : lf_train (hlf m) data (hsp arg) (hsp phr) = (let p := lf_train m data arg phr in (hlf (fst p), snd p)).
Proof.
  unfold lf_train. cbn [hlf lf_fs lf_icpt lf_learner lf_cols lf_min]. rewrite h_lf_train_space, hl_icpt.
  destruct (lf_train_space _ _ _ _ _) as [fs|e]; reflexivity.
Qed.
Lemma h_lf_apply i fv av sh : lf_apply i (hm fv) (hm av) sh = rmap hm (lf_apply i fv av sh).
Proof.
  unfold lf_apply. cbv zeta. rewrite hm_type. step. intros _ _. step. intros _ _. rewrite (hm_reshape h H). step. intros u _.
  rewrite (hm_transpose h H).
  replace (if i then padd_matrix (hm (m_transpose av)) 0 f1 else Ok (hm (m_transpose av)))
    with (rmap hm (if i then padd_matrix (m_transpose av) 0 f1 else Ok (m_transpose av))) by (destruct i; [rewrite hm_padd1|]; reflexivity).
  step. intros v _. rewrite (hm_mul h H). step. intros c _. rewrite (hm_transpose h H). reflexivity.
Qed.
Lemma h_lf_compose1 i fs arg a b : lf_compose1 i (hsp fs) (hsp arg) a b = rmap hm (lf_compose1 i fs arg a b).
Proof.
  unfold lf_compose1. rewrite (hsp_get_row h H). step. intros fv _. rewrite (hsp_get_row h H). step. intros av _.
  change [hm fv; hm av] with (map hm [fv; av]). rewrite (hm_largest h), (hm_resolve2 h H). step. intros [x y] _. apply h_lf_apply.
Qed.
Theorem h_lf_compose m data arg : lf_compose (hlf m) data (hsp arg) = rmap hsp (lf_compose m data arg).
Proof.
  unfold lf_compose. cbn [hlf lf_fs lf_icpt lf_cols]. destruct (lf_fs m) as [fs|]; [|reflexivity]. cbn [option_map].
  change (s_row2id (hsp fs)) with (s_row2id fs). change (s_row2id (hsp arg)) with (s_row2id arg). change (s_eshape (hsp fs)) with (s_eshape fs).
  step. intros [[w1 w2] w3] _.
  rewrite (mapM_eq _ (fun p => rmap hm (lf_compose1 (lf_icpt m) fs arg (fst p) (snd p)))) by (intros; apply h_lf_compose1).
  rewrite mapM_rmap. step. intros vs _. rewrite map_map, (map_ext (fun x => type_of (hm x)) type_of) by (intros; apply hm_type).
  rewrite (hm_nary_vstack h H). step. intros mat _. apply (hsp_mk h mat _ _ _ _ []).
Qed.

(** ** evaluation *)
Lemma h_fnat n : @fnat N' n = h (fnat n).  Proof. unfold fnat. symmetry. apply (h_ofZ h H). Qed.
Lemma h_sort (l : list (@F N * @F N)) :
  stable_sort point_before (map (fun p => (h (fst p), h (snd p))) l) = map (fun p => (h (fst p), h (snd p))) (stable_sort point_before l).
Proof.
  unfold stable_sort. change (@nil (@F N' * @F N')) with (map (fun p : @F N * @F N => (h (fst p), h (snd p))) []).
  generalize (@nil (@F N * @F N)). induction l as [|x l IH]; intros acc; [reflexivity|]. cbn [map fold_left]. rewrite <- IH. f_equal.
  clear IH. induction acc as [|y acc IH]; [reflexivity|]. cbn [map ins].
  replace (point_before (h (fst x), h (snd x)) (h (fst y), h (snd y))) with (point_before x y)
    by (unfold point_before; cbn [fst snd]; rewrite !(h_ltb h H), (h_eqb h H); reflexivity).
  destruct (point_before x y); [reflexivity|]. cbn [map]. rewrite IH. reflexivity.
Qed.
Lemma h_auc_step p n st x : (feqb (fst x) f1 = true -> p <> f0) -> (feqb (fst x) f1 = false -> n <> f0) ->
  auc_step (h p) (h n) (h5 st) (h (fst x), h (snd x)) = h5 (auc_step p n st x).
Proof.
  intros Hp Hn. destruct st as [[[[y1 y2] y3] y4] y5]. unfold auc_step. cbn [fst snd]. rewrite (h_eq1 h H).
  destruct (feqb (fst x) f1); cbn [fst snd].
  - rewrite !(h_div h H), !(h_sub h H), (h_1 h H) by (apply Hp; reflexivity). reflexivity.
  - rewrite !(h_add h H), !(h_mul h H), !(h_sub h H), !(h_div h H), !(h_sub h H), !(h_1 h H) by (apply Hn; reflexivity). reflexivity.
Qed.
Lemma count1_pos (l : list (@F N)) x : In x l -> feqb x f1 = true -> 0 < count1 l.
Proof.
  intros Hx E1. unfold count1. assert (Hin : In x (filter (fun g => feqb g f1) l)) by (apply filter_In; split; assumption).
  destruct (filter _ l); [destruct Hin|cbn; lia].
Qed.
Lemma count1_lt (l : list (@F N)) x : In x l -> feqb x f1 = false -> count1 l < length l.
Proof.
  unfold count1. intros Hx E1. induction l as [|y l IH]; [destruct Hx|]. cbn.
  assert (Hle : length (filter (fun g => feqb g f1) l) <= length l)
    by (clear; induction l as [|z l IH]; cbn; [lia|]; destruct (feqb z f1); cbn; lia). destruct Hx as [-> | Hx]; [rewrite E1; lia|]. specialize (IH Hx).
  destruct (feqb y f1); cbn; lia.
Qed.
Theorem h_auc g p : auc (map h g) (map h p) = rmap h (auc g p).
Proof.
  unfold auc. cbv zeta. rewrite map_length.
  replace (count1 (map h g)) with (count1 g) by (unfold count1; symmetry; apply (count_map h); intros; apply (h_eq1 h H)).
  rewrite forallb_map, (forallb_eq _ (fun x => feqb x f0 || feqb x f1)) by (intros; rewrite (h_eq0 h H), (h_eq1 h H); reflexivity).
  step. intros _ _.
  assert (Ec : combine (map h g) (map h p) = map (fun q => (h (fst q), h (snd q))) (combine g p)).
  { clear. revert p. induction g as [|x g IH]; intros [|y p]; cbn; try reflexivity. rewrite IH. reflexivity. }
  rewrite Ec, h_sort, !h_fnat, <- (h_sub h H), <- (h_1 h H). rewrite <- (h_0 h H) at 1.
  set (pos := fnat (count1 g)). set (neg := fsub (fnat (length g)) pos).
  assert (Hall : forall x, In x (stable_sort point_before (combine g p)) ->
    (feqb (fst x) f1 = true -> pos <> f0) /\ (feqb (fst x) f1 = false -> neg <> f0)).
  { intros x Hx. apply (Permutation.Permutation_in _ (Permutation.Permutation_sym (stable_sort_perm point_before _))) in Hx.
    destruct x as [a b]. apply in_combine_l in Hx. cbn [fst]. split; intros E1.
    - apply (o_ofZ N O). pose proof (count1_pos g a Hx E1). lia.
    - apply (o_subZ N O). pose proof (count1_lt g a Hx E1). lia. }
  revert Hall. generalize (stable_sort point_before (combine g p)). intros l. 
  assert (G : forall st, (forall x, In x l -> (feqb (fst x) f1 = true -> pos <> f0) /\ (feqb (fst x) f1 = false -> neg <> f0)) ->
    fold_left (auc_step (h pos) (h neg)) (map (fun q => (h (fst q), h (snd q))) l) (h5 st) = h5 (fold_left (auc_step pos neg) l st)).
  { induction l as [|x l IH]; intros st Hl; [reflexivity|]. cbn [map fold_left].
    rewrite h_auc_step by (apply (Hl x); left; reflexivity). apply IH. intros y Hy. apply Hl. right. exact Hy. }
  intros Hl. specialize (G (@f1 N, @f1 N, pos, neg, @f0 N) Hl). cbn [fst snd] in G. rewrite G.
  destruct (fold_left (auc_step pos neg) l (@f1 N, @f1 N, pos, neg, @f0 N)) as [[[[y1 y2] y3] y4] y5]. reflexivity.
Qed.
End Morph.
