(** PMorph2.v -- PMorph.v continued: norms, scalings, similarities, spaces.  The source numbers are ordered as the reals are. *)
From Verif Require Import Base PyList Dict Num Dense Sparse Matrix Scaling Linalg Learner Operation Similarity Space Composition Utils PMorph.
Local Open Scope nat_scope.

(** what is used of the order of the source numbers *)
Record ordered (N : Num) : Prop := {
  o_0 : fltb (@f0 N) f0 = false;
  o_1 : fltb (@f0 N) f1 = true;
  o_sq : forall a : @F N, fltb (fmul a a) f0 = false;
  o_add : forall a b : @F N, fltb a f0 = false -> fltb b f0 = false -> fltb (fadd a b) f0 = false;
  o_ge1 : forall a : @F N, fltb a f1 = false -> fltb f0 a = true;
  o_gt1 : forall a : @F N, fltb f1 a = true -> fltb f0 a = true;
  o_1add : forall a : @F N, fltb a f0 = false -> fadd f1 a <> f0;
  o_sqrt : forall a : @F N, fltb (fsqrt a) f0 = false;
  o_mul : forall a b : @F N, a <> f0 -> b <> f0 -> fmul a b <> f0;
  o_ofZ : forall z, (0 < z)%Z -> @fofZ N z <> f0;
  o_div1 : forall a : @F N, a <> f0 -> fdiv f1 a <> f0;
  o_subZ : forall y z, y <> z -> fsub (@fofZ N y) (fofZ z) <> f0 }.

Section Morph.
Context {N N' : Num} (h : @F N -> @F N') (H : respects h) (O : ordered N).
Notation hm := (hm h).
Notation hd := (hd h).
Notation hs := (hs h).

Lemma o_sumn n f : (forall i, fltb (f i) (@f0 N) = false) -> fltb (sumn n f) f0 = false.
Proof. intros Hf. induction n as [|n IH]; cbn; [apply (o_0 N O)|]. apply (o_add N O); auto. Qed.
Lemma o_sqtotal m : fltb (@d_sqtotal N m) f0 = false.
Proof. apply o_sumn. intros. apply o_sumn. intros. apply (o_sq N O). Qed.
Lemma o_suml l : Forall (fun x => fltb x (@f0 N) = false) l -> fltb (suml l) f0 = false.
Proof.
  unfold suml. assert (G : forall a, fltb a f0 = false -> Forall (fun x => fltb x (@f0 N) = false) l -> fltb (fold_left fadd l a) f0 = false).
  { induction l as [|x l IH]; intros a Ha Hl; [exact Ha|]. inversion Hl; subst. apply IH; [|assumption]. apply (o_add N O); assumption. }
  apply G, (o_0 N O).
Qed.
Lemma o_sqdata l : fltb (suml (map (@fsq N) l)) f0 = false.
Proof. apply o_suml. apply Forall_forall. intros x Hx. apply in_map_iff in Hx. destruct Hx as (y&<-&_). apply (o_sq N O). Qed.
Lemma hm_norm a : m_norm (hm a) = h (m_norm a).
Proof.
  destruct a as [d|c]; unfold PMorph.hm, m_norm.
  - rewrite (hd_sqtotal h H), (h_sqrt h H); [reflexivity|]. apply o_sqtotal.
  - cbn [PMorph.hs s_data]. rewrite (h_sqrt h H) by (apply o_sqdata). rewrite <- (h_suml h H), !map_map. f_equal. f_equal.
    apply map_ext. intros. apply (h_sq h H).
Qed.
Lemma map_sqrt l : Forall (fun x => fltb x (@f0 N) = false) l -> map fsqrt (map h l) = map h (map fsqrt l).
Proof.
  intros Hl. rewrite !map_map. apply map_ext_in. intros x Hx. symmetry. apply (h_sqrt h H). rewrite Forall_forall in Hl. auto.
Qed.
Lemma hm_square a : of_dense (type_of (hm a)) (d_map2 fmul (to_dense (hm a)) (to_dense (hm a)))
  = hm (of_dense (type_of a) (d_map2 fmul (to_dense a) (to_dense a))).
Proof.
  rewrite hm_type, (hm_to_dense h H), (hd_map2 h H fmul), (hm_of_dense h H); [reflexivity|]. intros. symmetry. apply (h_mul h H).
Qed.
(** entries of the component-wise square are non-negative *)
Lemma rlookup_in (r : list (nat * @F N)) j v : rlookup r j = Some v -> In (j, v) r.
Proof.
  induction r as [|[k x] r IH]; cbn; [discriminate|]. destruct (Nat.eqb j k) eqn:E.
  - apply Nat.eqb_eq in E. subst. intros [= ->]. left. reflexivity.
  - intros Hl. right. apply IH, Hl.
Qed.
Lemma dent_sq (a b : @dmat N) i j : d_nr a = d_nr b -> fltb (dent (d_map2 fmul a a) i j) f0 = false.
Proof.
  intros _. unfold d_map2, dent, tab; cbn. destruct (Nat.ltb_spec i (d_nr a)) as [Hi|Hi].
  - rewrite nth_map_seq by exact Hi. destruct (Nat.ltb_spec j (d_nc a)) as [Hj|Hj].
    + rewrite nth_map_seq by exact Hj. apply (o_sq N O).
    + rewrite nth_overflow; [apply (o_0 N O)|]. rewrite map_length, seq_length. exact Hj.
  - rewrite (nth_overflow _ []) by (rewrite map_length, seq_length; exact Hi). destruct j; apply (o_0 N O).
Qed.
Lemma csr_data_in (d : @dmat N) x : In x (s_data (csr_of_dense d)) -> exists i j, x = dent d i j.
Proof.
  unfold csr_of_dense, csr_of_rows; cbn. intros Hx. apply in_map_iff in Hx. destruct Hx as ([j y]&<-&Hy).
  apply in_concat in Hy. destruct Hy as (r&Hr&Hy). apply in_map_iff in Hr. destruct Hr as (i&<-&_).
  apply filter_In in Hy. destruct Hy as (Hy&_). apply in_map_iff in Hy. destruct Hy as (j'&[= <- <-]&_). exists i, j'. reflexivity.
Qed.
Lemma in_slice {A} a b (l : list A) x : In x (slice a b l) -> In x l.
Proof.
  unfold slice. intros Hx. rewrite <- (firstn_skipn a l). apply in_or_app. right.
  rewrite <- (firstn_skipn (b - a) (skipn a l)). apply in_or_app. left. exact Hx.
Qed.
Lemma sent_in (c : @csr N) i j : sent c i j = f0 \/ In (sent c i j) (s_data c).
Proof.
  unfold sent, rval. destruct (rlookup (srow c i) j) as [v|] eqn:E; [|left; reflexivity]. right.
  apply rlookup_in in E. unfold srow in E. apply in_combine_r in E. apply in_slice in E. exact E.
Qed.
Lemma square_ent (a : @matrix N) i j :
  fltb (dent (to_dense (of_dense (type_of a) (d_map2 fmul (to_dense a) (to_dense a)))) i j) f0 = false.
Proof.
  destruct (type_of a); cbn; [apply (dent_sq _ (to_dense a)); reflexivity|].
  assert (G : forall i j, fltb (sent (csr_of_dense (d_map2 fmul (to_dense a) (to_dense a))) i j) f0 = false).
  { intros i' j'. destruct (sent_in (csr_of_dense (d_map2 fmul (to_dense a) (to_dense a))) i' j') as [-> | Hin]; [apply (o_0 N O)|].
    apply csr_data_in in Hin. destruct Hin as (i2&j2&->). apply (dent_sq _ (to_dense a)). reflexivity. }
  unfold dense_of, dent, tab; cbn. set (c := csr_of_dense _) in *. set (n := d_nr (to_dense a)).
  destruct (Nat.ltb_spec i (s_nr c)) as [Hi|Hi].
  - rewrite nth_map_seq by exact Hi. destruct (Nat.ltb_spec j (s_nc c)) as [Hj|Hj].
    + rewrite nth_map_seq by exact Hj. apply G.
    + rewrite nth_overflow; [apply (o_0 N O)|]. rewrite map_length, seq_length. exact Hj.
  - rewrite (nth_overflow _ []) by (rewrite map_length, seq_length; exact Hi). destruct j; apply (o_0 N O).
Qed.
Lemma hm_norm1 a : m_norm1 (hm a) = map h (m_norm1 a).
Proof.
  unfold m_norm1. rewrite hm_square, (hm_sum1 h H). apply map_sqrt. apply Forall_forall. intros x Hx. unfold m_sum1, d_sum1 in Hx.
  apply in_map_iff in Hx. destruct Hx as (i&<-&_). apply o_sumn. intros. apply square_ent.
Qed.
Lemma hm_norm0 a : m_norm0 (hm a) = map h (m_norm0 a).
Proof.
  unfold m_norm0. rewrite hm_square, (hm_sum0 h H). apply map_sqrt. apply Forall_forall. intros x Hx. unfold m_sum0, d_sum0 in Hx.
  apply in_map_iff in Hx. destruct Hx as (i&<-&_). apply o_sumn. intros. apply square_ent.
Qed.
Lemma h_dplog x : dplog1 (h x) = h (dplog1 x).
Proof.
  unfold dplog1. rewrite (h_lt1 h H). destruct (fltb x f1) eqn:E.
  - rewrite <- (h_1 h H). symmetry. apply (h_ln h H). apply (o_1 N O).
  - symmetry. apply (h_ln h H). apply (o_ge1 N O). exact E.
Qed.
Lemma h_splog x : splog1 (h x) = h (splog1 x).
Proof.
  unfold splog1. replace (fleb (h x) f1) with (fleb x f1) by (unfold fleb; rewrite <- (h_1 h H), (h_ltb h H); reflexivity).
  destruct (fleb x f1) eqn:E.
  - rewrite <- (h_1 h H). symmetry. apply (h_ln h H). apply (o_1 N O).
  - symmetry. apply (h_ln h H). apply (o_gt1 N O). unfold fleb in E. destruct (fltb f1 x); [reflexivity|discriminate].
Qed.
Lemma hm_plog a : m_plog (hm a) = hm (m_plog a).
Proof.
  destruct a; unfold m_plog, PMorph.hm.
  - rewrite (hd_map h H dplog1) by (exact h_dplog). reflexivity.
  - rewrite (hs_mapdata h splog1), (hs_elim h H) by (exact h_splog). reflexivity.
Qed.
Lemma h_rtol : @rtol N' = h rtol.
Proof. unfold rtol. rewrite (h_div h H), (h_1 h H), (h_ofZ h H); [reflexivity|]. apply (o_ofZ N O). lia. Qed.
Lemma h_atol : @atol N' = h atol.
Proof. unfold atol. rewrite (h_div h H), (h_1 h H), (h_ofZ h H); [reflexivity|]. apply (o_ofZ N O). lia. Qed.
Lemma h_close1 a b : close1 (h a) (h b) = close1 a b.
Proof.
  unfold close1. rewrite h_rtol, h_atol, <- (h_sub h H), !(h_abs h H), <- (h_mul h H), <- (h_add h H). apply (h_leb h H).
Qed.
Lemma hm_all_close a b : m_all_close (hm a) (hm b) = m_all_close a b.
Proof.
  destruct a as [x|x], b as [y|y]; unfold m_all_close, PMorph.hm; try reflexivity.
  - rewrite (hd_bcast h H (fun u v => if close1 u v then f1 else f0)), bind_rmap.
    + apply bind_ext. intros z _. rewrite (hd_list h), forallb_map. f_equal. apply forallb_eq. intros u. apply (h_eq1 h H).
    + intros u v. rewrite h_close1. destruct (close1 u v); symmetry; [apply (h_1 h H)|apply (h_0 h H)].
  - change (same_shapeb (MS (hs x)) (MS (hs y))) with (same_shapeb (MS x) (MS y)). apply bind_ext. intros _ _.
    rewrite !(hs_dense h H), (hd_map2 h H fsub), (hs_of_dense h H) by (intros; symmetry; apply (h_sub h H)).
    cbn [PMorph.hs s_data]. rewrite forallb_map. f_equal. apply forallb_eq. intros u. rewrite <- (h_0 h H). apply h_close1.
Qed.

(** ** scalings *)
Definition hst (st : @cstats N) : @cstats N' := match st with SCol l => SCol (map h l) | SScal x => SScal (h x) end.
Lemma h_nonzero_invert l : nonzero_invert (map h l) = map h (nonzero_invert l).
Proof. unfold nonzero_invert. rewrite !map_map. apply map_ext. intros. apply (h_inv0 h H). Qed.
Lemma h_column_stats s m : get_column_stats s (hm m) = hst (get_column_stats s m).
Proof. destruct s; try (cbn; rewrite (hm_sum0 h H); reflexivity). destruct c; cbn; [rewrite (hm_sum h H)|rewrite hm_norm]; reflexivity. Qed.
Lemma hm_epmi m marg : epmi_apply (hm m) (option_map (map h) marg) = rmap hm (epmi_apply m marg).
Proof.
  unfold epmi_apply. rewrite (hm_assert_positive h H), rmap_bind. apply bind_ext. intros _ _.
  assert (E : match option_map (map h) marg with Some c => c | None => m_sum0 (hm m) end
              = map h (match marg with Some c => c | None => m_sum0 m end)) by (destruct marg; [reflexivity|apply (hm_sum0 h H)]).
  rewrite E. clear E. set (cs := match marg with Some c => c | None => m_sum0 m end).
  rewrite (h_suml h H), (hm_sum1 h H), !h_nonzero_invert, (hm_scale_rows h H), bind_rmap, rmap_bind. apply bind_ext. intros m1 _.
  rewrite <- (hm_scale_cols h H). f_equal. rewrite !map_map. apply map_ext. intros. symmetry. apply (h_mul h H).
Qed.
Lemma hm_ppmi m marg : ppmi_apply (hm m) (option_map (map h) marg) = rmap hm (ppmi_apply m marg).
Proof. unfold ppmi_apply. rewrite hm_epmi, bind_rmap, rmap_bind. apply bind_ext. intros e _. rewrite hm_plog. reflexivity. Qed.
Lemma hm_plmi m marg : plmi_apply (hm m) (option_map (map h) marg) = rmap hm (plmi_apply m marg).
Proof. unfold plmi_apply. rewrite hm_ppmi, bind_rmap, rmap_bind. apply bind_ext. intros e _. apply (hm_multiply h H). Qed.
Lemma hm_rownorm c m : rownorm_apply c (hm m) = rmap hm (rownorm_apply c m).
Proof.
  unfold rownorm_apply.
  replace (match c with CLength => m_norm1 (hm m) | CSum => m_sum1 (hm m) end) with (map h (match c with CLength => m_norm1 m | CSum => m_sum1 m end))
    by (destruct c; [rewrite (hm_sum1 h H)|rewrite hm_norm1]; reflexivity).
  rewrite h_nonzero_invert. apply (hm_scale_rows h H).
Qed.
Lemma hm_normalize c m t : norm_apply c (hm m) (option_map h t) = rmap hm (norm_apply c m t).
Proof.
  unfold norm_apply. set (x := match t with Some t => t | None => _ end).
  replace (match option_map h t with Some t => t | None => _ end) with (h x).
  2:{ unfold x. destruct t; [reflexivity|]. destruct c; cbn; [rewrite (hm_sum h H)|rewrite hm_norm]; reflexivity. }
  rewrite (h_eq0 h H). destruct (feqb x f0) eqn:E; [reflexivity|]. cbn. f_equal.
  rewrite <- (h_1 h H), <- (h_div h H) by (apply feqb_neq; exact E). apply (hm_scal h H).
Qed.
Theorem hm_scaling s m st : scaling_apply s (hm m) (option_map hst st) = rmap hm (scaling_apply s m st).
Proof.
  destruct s, st as [[l|x]|]; try reflexivity; cbn [option_map hst scaling_apply].
  - apply (hm_epmi m (Some l)).
  - apply (hm_epmi m None).
  - apply (hm_ppmi m (Some l)).
  - apply (hm_ppmi m None).
  - apply (hm_plmi m (Some l)).
  - apply (hm_plmi m None).
  - unfold plog_apply. rewrite hm_plog. reflexivity.
  - apply hm_rownorm.
  - apply (hm_normalize c m (Some x)).
  - apply (hm_normalize c m None).
Qed.
Lemma hm_topfs c k m : topfs_apply c k (hm m) = rmap (fun p => (hm (fst p), snd p)) (topfs_apply c k m).
Proof.
  unfold topfs_apply.
  replace (match c with CSum => m_sum0 (hm m) | CLength => m_norm0 (hm m) end) with (map h (match c with CSum => m_sum0 m | CLength => m_norm0 m end))
    by (destruct c; [rewrite (hm_sum0 h H)|rewrite hm_norm0]; reflexivity).
  rewrite (h_sorted_permutation h H), hm_nc, (hm_get_cols h H), bind_rmap, rmap_bind. apply bind_ext. reflexivity.
Qed.

(** ** similarities *)
Lemma h_dot v w : dot_sim (hm v) (hm w) = rmap h (dot_sim v w).
Proof. unfold dot_sim. rewrite (hm_multiply h H), bind_rmap, rmap_bind. apply bind_ext. intros x _. cbn. rewrite (hm_sum h H). reflexivity. Qed.
Lemma h_cos v w : cos_sim (hm v) (hm w) = rmap h (cos_sim v w).
Proof.
  unfold cos_sim. rewrite !hm_norm, !(h_eq0 h H). destruct (feqb (m_norm v) f0) eqn:E1; cbn [orb]; [cbn; rewrite (h_0 h H); reflexivity|].
  destruct (feqb (m_norm w) f0) eqn:E2; [cbn; rewrite (h_0 h H); reflexivity|]. rewrite h_dot, bind_rmap, rmap_bind.
  apply bind_ext. intros d _. cbn. rewrite (h_div h H), (h_mul h H); [reflexivity|].
  apply (o_mul N O); apply feqb_neq; assumption.
Qed.
Lemma h_euclid v w : euclid_sim (hm v) (hm w) = rmap h (euclid_sim v w).
Proof.
  unfold euclid_sim. rewrite (hm_sub h H), bind_rmap, rmap_bind. apply bind_ext. intros d _. cbn. rewrite hm_norm.
  assert (Hn : fltb (m_norm d) f0 = false) by (destruct d; apply (o_sqrt N O)).
  rewrite (h_div h H), (h_add h H), (h_1 h H); [reflexivity|]. apply (o_1add N O). exact Hn.
Qed.
Lemma h_lin v w : lin_sim (hm v) (hm w) = rmap h (lin_sim v w).
Proof.
  unfold lin_sim. rewrite (hm_multiply h H), bind_rmap, rmap_bind. apply bind_ext. intros c _.
  rewrite (hm_to_ones h H), !(hm_sum h H), <- (h_add h H), (h_eq0 h H).
  destruct (feqb (fadd (m_sum v) (m_sum w)) f0) eqn:E; [cbn; rewrite (h_0 h H); reflexivity|].
  rewrite (hm_add h H), bind_rmap, rmap_bind. apply bind_ext. intros s _.
  rewrite (hm_multiply h H), bind_rmap, rmap_bind. apply bind_ext. intros cs _. cbn. rewrite (hm_sum h H).
  rewrite (h_div h H); [reflexivity|]. apply feqb_neq. exact E.
Qed.
Lemma h_sim_raw s v w : sim_raw s (hm v) (hm w) = rmap h (sim_raw s v w).
Proof. destruct s; [apply h_cos|apply h_dot|apply h_euclid|apply h_lin]. Qed.
Lemma h_sim_get s v w : sim_get s (hm v) (hm w) = rmap h (sim_get s v w).
Proof.
  unfold sim_get. rewrite (hm_to_compatible h H). destruct (to_compatible v w) as [x y]. rewrite hm_assert_same_shape, rmap_bind.
  apply bind_ext. intros _ _. apply h_sim_raw.
Qed.
Lemma hm_dot_sims v m : dot_sims (hm v) (hm m) = rmap hm (dot_sims v m).
Proof. unfold dot_sims. rewrite (hm_transpose h H). apply (hm_mul h H). Qed.
Lemma hm_cos_sims v m : cos_sims (hm v) (hm m) = rmap hm (cos_sims v m).
Proof.
  unfold cos_sims. rewrite hm_dot_sims, bind_rmap, rmap_bind. apply bind_ext. intros s _. rewrite hm_norm, hm_norm1.
  replace (map (fun x => fmul (h (m_norm v)) x) (map h (m_norm1 m))) with (map h (map (fun x => fmul (m_norm v) x) (m_norm1 m))).
  - rewrite h_nonzero_invert. apply (hm_scale_rows h H).
  - rewrite !map_map. apply map_ext. intros. apply (h_mul h H).
Qed.
Lemma mapM_rmap {A B C} (f : A -> res B) (g : B -> C) l : mapM (fun x => rmap g (f x)) l = rmap (map g) (mapM f l).
Proof.
  induction l as [|x l IH]; cbn; [reflexivity|]. destruct (f x) as [y|e]; cbn; [|reflexivity]. rewrite IH.
  destruct (mapM f l); reflexivity.
Qed.
Lemma mapM_eq {A B} (f g : A -> res B) l : (forall x, f x = g x) -> mapM f l = mapM g l.
Proof. intros E. induction l as [|x l IH]; cbn; [reflexivity|]. rewrite E, IH. reflexivity. Qed.
Lemma hm_loop_sims s v m : loop_sims s (hm v) (hm m) = rmap hm (loop_sims s v m).
Proof.
  unfold loop_sims. rewrite hm_nr, hm_type.
  rewrite (mapM_eq _ (fun i => rmap h (let* r := m_get_row m (Z.of_nat i) in sim_raw s v r))).
  - rewrite mapM_rmap, bind_rmap, rmap_bind. apply bind_ext. intros l _. cbn [rmap bind]. rewrite <- (hm_of_dense h H), (hd_tab h).
    f_equal. f_equal. apply tab_ext. intros. apply (h_nth h H).
  - intros i. rewrite (hm_get_row h H), bind_rmap, rmap_bind. apply bind_ext. intros r _. apply h_sim_raw.
Qed.
Theorem hm_sims_to_matrix s v m : sims_to_matrix s (hm v) (hm m) = rmap hm (sims_to_matrix s v m).
Proof.
  unfold sims_to_matrix. rewrite (hm_to_compatible h H). destruct (to_compatible v m) as [x y]. rewrite !hm_nc, hm_nr, rmap_bind.
  apply bind_ext. intros _ _. destruct s; [apply hm_cos_sims|apply hm_dot_sims|apply hm_loop_sims|apply hm_loop_sims].
Qed.

(** ** matrix_utils.py *)
Lemma hm_type_conflict l : type_conflict (map hm l) = type_conflict l.
Proof.
  destruct l as [|m l]; [reflexivity|]. cbn [map type_conflict]. rewrite hm_type.
  change (hm m :: map hm l) with (map hm (m :: l)). rewrite existsb_map.
  generalize (m :: l). intros l0. induction l0 as [|x l0 IH]; cbn; [reflexivity|]. rewrite hm_type, IH. reflexivity.
Qed.
Lemma hm_resolve l t : resolve_type_conflict (map hm l) t = rmap (map hm) (resolve_type_conflict l t).
Proof.
  unfold resolve_type_conflict. rewrite hm_type_conflict. destruct (type_conflict l); [|reflexivity]. destruct t; [|reflexivity].
  cbn. f_equal. rewrite !map_map. apply map_ext. intros. apply (hm_conv h H).
Qed.
Lemma hm_resolve2 a b t : resolve2 (hm a) (hm b) t = rmap (fun p => (hm (fst p), hm (snd p))) (resolve2 a b t).
Proof.
  unfold resolve2. change [hm a; hm b] with (map hm [a; b]). rewrite hm_resolve, bind_rmap, rmap_bind. apply bind_ext.
  intros l _. destruct l as [|x [|y [|z l]]]; reflexivity.
Qed.
Lemma hm_resolve3 a b c t :
  resolve3 (hm a) (hm b) (hm c) t = rmap (fun p => (hm (fst (fst p)), hm (snd (fst p)), hm (snd p))) (resolve3 a b c t).
Proof.
  unfold resolve3. change [hm a; hm b; hm c] with (map hm [a; b; c]). rewrite hm_resolve, bind_rmap, rmap_bind. apply bind_ext.
  intros l _. destruct l as [|x [|y [|z [|u l]]]]; reflexivity.
Qed.
Lemma hm_largest l : get_type_of_largest (map hm l) = get_type_of_largest l.  Proof. apply hm_largest_aux. Qed.

(** ** spaces *)
Definition ho (o : @operation N) : @operation N' :=
  match o with
  | OpScale s st => OpScale s (option_map hst st)
  | OpDim d k tm => OpDim d k (option_map hm tm)
  | OpFS c k sel orig => OpFS c k sel orig
  end.
Definition hsp (s : @space N) : @space N' :=
  SP (hm (s_mat s)) (s_id2row s) (s_id2col s) (s_row2id s) (s_col2id s) (map ho (s_ops s)) (s_eshape s).
Lemma hsp_mk m r c rd cd ops es : mk_space (hm m) r c rd cd (map ho ops) es = rmap hsp (mk_space m r c rd cd ops es).
Proof.
  unfold mk_space. rewrite hm_nr, !hm_nc, rmap_bind. apply bind_ext. intros r2 _. rewrite rmap_bind. apply bind_ext. intros c2 _.
  rewrite rmap_bind. apply bind_ext. intros _ _. rewrite rmap_bind. apply bind_ext. reflexivity.
Qed.
Lemma hsp_get_row s w : get_row (hsp s) w = rmap hm (get_row s w).
Proof. unfold get_row. rewrite rmap_bind. apply bind_ext. intros i _. apply (hm_get_row h H). Qed.
Lemma hsp_get_rows s ws : get_rows (hsp s) ws = rmap hm (get_rows s ws).
Proof. unfold get_rows. rewrite rmap_bind. apply bind_ext. intros i _. apply (hm_get_rows h H). Qed.
Lemma key_error_rmap {A B} (f : A -> B) r : is_key_error (rmap f r) = is_key_error r.
Proof. destruct r as [|[]]; reflexivity. Qed.
Lemma get_row_opt s s2 w : get_row (match option_map hsp s2 with None => hsp s | Some x => x end) w
  = rmap hm (get_row (match s2 with None => s | Some x => x end) w).
Proof. destruct s2; apply hsp_get_row. Qed.
Theorem h_get_sim s w1 w2 sim s2 : get_sim (hsp s) w1 w2 sim (option_map hsp s2) = rmap h (get_sim s w1 w2 sim s2).
Proof.
  unfold get_sim. cbv zeta. rewrite hsp_get_row, get_row_opt, !key_error_rmap.
  destruct (is_key_error (get_row s w1)); [cbn; rewrite (h_0 h H); reflexivity|]. rewrite bind_rmap, rmap_bind. apply bind_ext.
  intros v1 _. destruct (is_key_error (get_row _ w2)); [cbn; rewrite (h_0 h H); reflexivity|]. rewrite bind_rmap, rmap_bind.
  apply bind_ext. intros v2 _. rewrite hm_resolve2, bind_rmap, rmap_bind. apply bind_ext. intros [x y] _. cbn [fst snd]. apply h_sim_get.
Qed.
Theorem h_get_sims s ps sim s2 : get_sims (hsp s) ps sim (option_map hsp s2) = rmap (map h) (get_sims s ps sim s2).
Proof. unfold get_sims. rewrite <- mapM_rmap. apply mapM_eq. intros p. apply h_get_sim. Qed.
Theorem h_get_neighbours s w k sim s2 :
  get_neighbours (hsp s) w k sim (option_map hsp s2) = rmap (map (fun p => (fst p, h (snd p)))) (get_neighbours s w k sim s2).
Proof.
  unfold get_neighbours. rewrite hsp_get_row, bind_rmap, rmap_bind. apply bind_ext. intros v _.
  replace (match option_map hsp s2 with None => hm v | Some x => conv (type_of (s_mat x)) (hm v) end)
    with (hm (match s2 with None => v | Some x => conv (type_of (s_mat x)) v end)).
  2:{ destruct s2; [|reflexivity]. cbn [option_map hsp s_mat]. rewrite hm_type. symmetry. apply (hm_conv h H). }
  set (v' := match s2 with None => v | Some x => _ end).
  replace (match option_map hsp s2 with None => hsp s | Some x => x end) with (hsp (match s2 with None => s | Some x => x end))
    by (destruct s2; reflexivity).
  set (t := match s2 with None => s | Some x => x end). cbn [hsp s_mat s_id2row].
  rewrite hm_sims_to_matrix, bind_rmap, rmap_bind. apply bind_ext. intros sims _.
  rewrite (hm_sum1 h H), (h_sorted_permutation h H), <- mapM_rmap. apply mapM_eq. intros i.
  destruct (nth_error (sorted_permutation (m_sum1 sims)) i) as [q|]; [|reflexivity].
  destruct (nth_error (s_id2row t) q); [|reflexivity]. cbn [rmap bind fst snd]. unfold m_get. rewrite (hm_ent h H). reflexivity.
Qed.
Theorem h_vstack s1 s2 : space_vstack (hsp s1) (hsp s2) = rmap hsp (space_vstack s1 s2).
Proof.
  unfold space_vstack. cbn [hsp s_mat s_id2row s_id2col s_row2id s_col2id]. rewrite !hm_nc, rmap_bind. apply bind_ext. intros _ _.
  rewrite rmap_bind. apply bind_ext. intros _ _. destruct (add_items_to_dict _ _) as [nr r]. rewrite rmap_bind. apply bind_ext. intros _ _.
  change [hm (s_mat s1); hm (s_mat s2)] with (map hm [s_mat s1; s_mat s2]). rewrite hm_largest, hm_resolve2, bind_rmap, rmap_bind.
  apply bind_ext. intros [a b] _. cbn [fst snd]. rewrite (hm_vstack h H), bind_rmap, rmap_bind. apply bind_ext. intros m _.
  apply (hsp_mk m _ _ _ _ []).
Qed.
End Morph.
