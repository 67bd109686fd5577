(** PMorph.v -- the model is polymorphic in its numbers, so every definition commutes with a map of numbers that respects
    arithmetic, provided each division, square root and logarithm is taken where the map respects it.  Proof development for
    Prop_Defined.v. *)
From Verif Require Import Base PyList Dict Num Dense Sparse Matrix Scaling Linalg Learner Operation Similarity Space Composition Utils.
Local Open Scope nat_scope.

Section Morph.
Context {N N' : Num} (h : @F N -> @F N').
(** [h] respects the arithmetic of [N]; division by zero, roots of negative numbers and logarithms of non-positive numbers
    are left open *)
Record respects : Prop := {
  h_0 : h f0 = f0; h_1 : h f1 = f1;
  h_add : forall a b, h (fadd a b) = fadd (h a) (h b);
  h_sub : forall a b, h (fsub a b) = fsub (h a) (h b);
  h_mul : forall a b, h (fmul a b) = fmul (h a) (h b);
  h_opp : forall a, h (fopp a) = fopp (h a);
  h_ofZ : forall z, h (fofZ z) = fofZ z;
  h_eqb : forall a b, feqb (h a) (h b) = feqb a b;
  h_ltb : forall a b, fltb (h a) (h b) = fltb a b;
  h_div : forall a b, b <> f0 -> h (fdiv a b) = fdiv (h a) (h b);
  h_sqrt : forall a, fltb a f0 = false -> h (fsqrt a) = fsqrt (h a);
  h_ln : forall a, fltb f0 a = true -> h (fln a) = fln (h a) }.
Context (H : respects).

Definition hd (m : @dmat N) : @dmat N' := DM (d_nr m) (d_nc m) (map (map h) (d_dat m)).
Definition hs (c : @csr N) : @csr N' := CSR (s_nr c) (s_nc c) (map h (s_data c)) (s_ind c) (s_ptr c).
Definition hm (m : @matrix N) : @matrix N' := match m with MD d => MD (hd d) | MS c => MS (hs c) end.
Definition hr (r : list (nat * @F N)) : list (nat * @F N') := map (fun p => (fst p, h (snd p))) r.

Lemma h_nth i l : nth i (map h l) f0 = h (nth i l f0).
Proof. rewrite <- (h_0 H). apply map_nth. Qed.
Lemma h_leb a b : fleb (h a) (h b) = fleb a b.  Proof. unfold fleb. rewrite (h_ltb H). reflexivity. Qed.
Lemma h_ltb0 a : fltb f0 (h a) = fltb f0 a.  Proof. rewrite <- (h_0 H). apply (h_ltb H). Qed.
Lemma h_lt0 a : fltb (h a) f0 = fltb a f0.  Proof. rewrite <- (h_0 H). apply (h_ltb H). Qed.
Lemma h_lt1 a : fltb (h a) f1 = fltb a f1.  Proof. rewrite <- (h_1 H). apply (h_ltb H). Qed.
Lemma h_eq0 a : feqb (h a) f0 = feqb a f0.  Proof. rewrite <- (h_0 H). apply (h_eqb H). Qed.
Lemma h_eq1 a : feqb (h a) f1 = feqb a f1.  Proof. rewrite <- (h_1 H). apply (h_eqb H). Qed.
Lemma h_sq a : fsq (h a) = h (fsq a).  Proof. unfold fsq. rewrite (h_mul H). reflexivity. Qed.
Lemma h_abs a : fabs (h a) = h (fabs a).
Proof. unfold fabs. rewrite h_lt0. destruct (fltb a f0); [rewrite (h_opp H)|]; reflexivity. Qed.
Lemma h_if (b : bool) x y : (if b then h x else h y) = h (if b then x else y).  Proof. destruct b; reflexivity. Qed.
Lemma h_inv0 a : finv0 (h a) = h (finv0 a).
Proof.
  unfold finv0. rewrite h_eq0. destruct (feqb a f0) eqn:E; [symmetry; apply (h_0 H)|].
  rewrite (h_div H), (h_1 H); [reflexivity|]. apply feqb_neq. exact E.
Qed.
Lemma h_sumn n f : sumn n (fun i => h (f i)) = h (sumn n f).
Proof. induction n as [|n IH]; cbn; [symmetry; apply (h_0 H)|]. rewrite IH, (h_add H). reflexivity. Qed.
Lemma h_suml l : suml (map h l) = h (suml l).
Proof.
  unfold suml. rewrite <- (h_0 H). generalize (@f0 N). induction l as [|x l IH]; intros a; cbn; [reflexivity|].
  rewrite <- (h_add H). apply IH.
Qed.
Lemma h_map_nat (f : nat -> @F N) l : map (fun i => h (f i)) l = map h (map f l).  Proof. symmetry. apply map_map. Qed.

(** ** dense *)
Lemma hd_tab r c f : hd (tab r c f) = tab r c (fun i j => h (f i j)).
Proof.
  unfold hd, tab; cbn. f_equal. rewrite map_map. apply map_ext. intros i. apply map_map.
Qed.
Lemma hd_ent m i j : dent (hd m) i j = h (dent m i j).
Proof.
  unfold dent, hd; cbn. change (@nil (@F N')) with (map h []). rewrite map_nth. apply h_nth.
Qed.
Lemma tab_hd r c f : tab r c (fun i j => h (f i j)) = hd (tab r c f).  Proof. symmetry. apply hd_tab. Qed.

Ltac dtab := unfold d_map, d_map2, d_scal, d_transpose, d_mul, d_vstack, d_hstack, d_scale_rows, d_scale_cols, d_rows, d_cols,
  d_reshape, d_eye, d_const, d_map in *; rewrite ?hd_tab; cbn [hd d_nr d_nc]; apply tab_ext; intros; rewrite ?hd_ent, ?h_nth.

Lemma hd_map f f' m : (forall x, f' (h x) = h (f x)) -> d_map f' (hd m) = hd (d_map f m).
Proof. intros E. dtab. apply E. Qed.
Lemma hd_map2 f f' a b : (forall x y, f' (h x) (h y) = h (f x y)) -> d_map2 f' (hd a) (hd b) = hd (d_map2 f a b).
Proof. intros E. dtab. apply E. Qed.
Lemma hd_scal x m : d_scal (h x) (hd m) = hd (d_scal x m).
Proof. apply hd_map. intros. symmetry. apply (h_mul H). Qed.
Lemma hd_transpose m : d_transpose (hd m) = hd (d_transpose m).  Proof. dtab. reflexivity. Qed.
Lemma hd_mul a b : d_mul (hd a) (hd b) = hd (d_mul a b).
Proof. dtab. rewrite <- h_sumn. apply sumn_ext. intros. rewrite !hd_ent, (h_mul H). reflexivity. Qed.
Lemma hd_vstack a b : d_vstack (hd a) (hd b) = hd (d_vstack a b).
Proof. dtab. destruct (Nat.ltb _ _); reflexivity. Qed.
Lemma hd_hstack a b : d_hstack (hd a) (hd b) = hd (d_hstack a b).
Proof. dtab. destruct (Nat.ltb _ _); reflexivity. Qed.
Lemma hd_scale_rows m v : d_scale_rows (hd m) (map h v) = hd (d_scale_rows m v).
Proof. dtab. symmetry. apply (h_mul H). Qed.
Lemma hd_scale_cols m v : d_scale_cols (hd m) (map h v) = hd (d_scale_cols m v).
Proof. dtab. symmetry. apply (h_mul H). Qed.
Lemma hd_rows m ids : d_rows (hd m) ids = hd (d_rows m ids).  Proof. dtab. reflexivity. Qed.
Lemma hd_cols m ids : d_cols (hd m) ids = hd (d_cols m ids).  Proof. dtab. reflexivity. Qed.
Lemma hd_reshape m r c : d_reshape (hd m) r c = hd (d_reshape m r c).  Proof. dtab. reflexivity. Qed.
Lemma hd_eye n : d_eye n = hd (d_eye n).
Proof. dtab. destruct (Nat.eqb _ _); symmetry; [apply (h_1 H)|apply (h_0 H)]. Qed.
Lemma hd_const r c x : d_const r c (h x) = hd (d_const r c x).  Proof. dtab. reflexivity. Qed.
Lemma hd_sum1 m : d_sum1 (hd m) = map h (d_sum1 m).
Proof.
  unfold d_sum1; cbn [hd d_nr d_nc]. rewrite map_map. apply map_ext. intros. rewrite <- h_sumn. apply sumn_ext. intros. apply hd_ent.
Qed.
Lemma hd_sum0 m : d_sum0 (hd m) = map h (d_sum0 m).
Proof.
  unfold d_sum0; cbn [hd d_nr d_nc]. rewrite map_map. apply map_ext. intros. rewrite <- h_sumn. apply sumn_ext. intros. apply hd_ent.
Qed.
Lemma hd_total m : d_total (hd m) = h (d_total m).
Proof.
  unfold d_total; cbn [hd d_nr d_nc]. rewrite <- h_sumn. apply sumn_ext. intros. rewrite <- h_sumn. apply sumn_ext. intros. apply hd_ent.
Qed.
Lemma hd_sqtotal m : d_sqtotal (hd m) = h (d_sqtotal m).
Proof.
  unfold d_sqtotal; cbn [hd d_nr d_nc]. rewrite <- h_sumn. apply sumn_ext. intros. rewrite <- h_sumn. apply sumn_ext. intros.
  rewrite hd_ent. apply h_sq.
Qed.
Lemma hd_list m : d_list (hd m) = map h (d_list m).
Proof. unfold d_list; cbn. symmetry. apply concat_map. Qed.
Lemma hd_bcast f f' a b : (forall x y, f' (h x) (h y) = h (f x y)) ->
  d_bcast f' (hd a) (hd b) = rmap hd (d_bcast f a b).
Proof.
  intros E. unfold d_bcast. change (d_nr (hd a)) with (d_nr a). change (d_nr (hd b)) with (d_nr b).
  change (d_nc (hd a)) with (d_nc a). change (d_nc (hd b)) with (d_nc b).
  destruct (bcast_dim _ _); [|reflexivity]. destruct (bcast_dim _ _); [|reflexivity]. unfold rmap, bind. f_equal. rewrite hd_tab.
  apply tab_ext. intros. rewrite !hd_ent. apply E.
Qed.

(** ** sparse *)
Lemma map_combine {A B B'} (f : B -> B') (l : list A) l' :
  combine l (map f l') = map (fun p => (fst p, f (snd p))) (combine l l').
Proof. revert l'. induction l as [|x l IH]; intros [|y l']; cbn; try reflexivity. rewrite IH. reflexivity. Qed.
Lemma map_slice {A B} (f : A -> B) a b l : slice a b (map f l) = map f (slice a b l).
Proof. unfold slice. rewrite skipn_map, firstn_map. reflexivity. Qed.
Lemma hs_row c i : srow (hs c) i = hr (srow c i).
Proof. unfold srow, hr, hs, ptr; cbn [s_nr s_nc s_data s_ind s_ptr]. rewrite map_slice. apply map_combine. Qed.
Lemma hr_lookup r j : rlookup (hr r) j = option_map h (rlookup r j).
Proof. induction r as [|[k v] r IH]; cbn; [reflexivity|]. destruct (Nat.eqb j k); [reflexivity|exact IH]. Qed.
Lemma hs_ent c i j : sent (hs c) i j = h (sent c i j).
Proof.
  unfold sent, rval. rewrite hs_row, hr_lookup. destruct (rlookup _ _); cbn; [reflexivity|]. symmetry. apply (h_0 H).
Qed.
Lemma hs_dense c : dense_of (hs c) = hd (dense_of c).
Proof. unfold dense_of. rewrite hd_tab; cbn. apply tab_ext. intros. apply hs_ent. Qed.
Lemma hr_concat rows : concat (map hr rows) = hr (concat rows).
Proof. unfold hr at 2. rewrite concat_map. reflexivity. Qed.
Lemma hr_snd r : map snd (hr r) = map h (map snd r).  Proof. unfold hr. rewrite !map_map. reflexivity. Qed.
Lemma hr_fst r : map fst (hr r) = map fst r.  Proof. unfold hr. rewrite !map_map. reflexivity. Qed.
Lemma hs_of_rows nc rows : csr_of_rows nc (map hr rows) = hs (csr_of_rows nc rows).
Proof.
  unfold csr_of_rows, hs; cbn. rewrite map_length, !hr_concat, hr_snd, hr_fst. f_equal. f_equal. rewrite map_map. apply map_ext.
  intros r. unfold hr. apply map_length.
Qed.
Lemma hr_filter r : filter nz (hr r) = hr (filter nz r).
Proof.
  induction r as [|[k v] r IH]; [reflexivity|]. cbn [hr map filter fst snd]. fold (hr r).
  replace (nz (k, h v)) with (nz (k, v)) by (unfold nz; cbn [snd]; rewrite h_eq0; reflexivity). rewrite IH.
  destruct (nz (k, v)); reflexivity.
Qed.
Lemma hs_of_dense m : csr_of_dense (hd m) = hs (csr_of_dense m).
Proof.
  unfold csr_of_dense. rewrite <- hs_of_rows. cbn [hd d_nc d_nr]. f_equal. rewrite map_map. apply map_ext. intros i.
  rewrite <- hr_filter. f_equal. unfold hr. rewrite map_map. apply map_ext. intros j. cbn [fst snd]. rewrite <- hd_ent. reflexivity.
Qed.
Lemma hs_elim c : s_elim (hs c) = hs (s_elim c).
Proof.
  unfold s_elim. rewrite <- hs_of_rows. cbn [hs s_nc]. f_equal. unfold srows. rewrite !map_map. apply map_ext. intros i.
  rewrite hs_row. apply hr_filter.
Qed.
Lemma hs_mapdata g g' c : (forall x, g' (h x) = h (g x)) -> s_mapdata g' (hs c) = hs (s_mapdata g c).
Proof. intros E. unfold s_mapdata, hs; cbn. f_equal. rewrite !map_map. apply map_ext. exact E. Qed.
Lemma hs_mapdata_in g g' c : (forall x, In x (s_data c) -> g' (h x) = h (g x)) -> s_mapdata g' (hs c) = hs (s_mapdata g c).
Proof. intros E. unfold s_mapdata, hs; cbn. f_equal. rewrite !map_map. apply map_ext_in. exact E. Qed.
Lemma hs_get_row c i : s_get_row (hs c) i = hs (s_get_row c i).
Proof. unfold s_get_row, hs, ptr; cbn [s_nr s_nc s_data s_ind s_ptr]. rewrite map_slice. reflexivity. Qed.

(** ** Matrix *)
Lemma hm_type m : type_of (hm m) = type_of m.  Proof. destruct m; reflexivity. Qed.
Lemma hm_nr m : m_nr (hm m) = m_nr m.  Proof. destruct m; reflexivity. Qed.
Lemma hm_nc m : m_nc (hm m) = m_nc m.  Proof. destruct m; reflexivity. Qed.
Lemma hm_ent m i j : ment (hm m) i j = h (ment m i j).  Proof. destruct m; [apply hd_ent|apply hs_ent]. Qed.
Lemma hm_to_dense m : to_dense (hm m) = hd (to_dense m).  Proof. destruct m; [reflexivity|apply hs_dense]. Qed.
Lemma hm_to_sparse m : to_sparse (hm m) = hs (to_sparse m).  Proof. destruct m; [apply hs_of_dense|reflexivity]. Qed.
Lemma hm_conv t m : conv t (hm m) = hm (conv t m).
Proof. destruct t; cbn; [rewrite hm_to_dense|rewrite hm_to_sparse]; reflexivity. Qed.
Lemma hm_of_dense t d : of_dense t (hd d) = hm (of_dense t d).
Proof. destruct t; cbn; [reflexivity|]. rewrite hs_of_dense. reflexivity. Qed.
Lemma hm_same_type a b : same_type (hm a) (hm b) = same_type a b.  Proof. unfold same_type. rewrite !hm_type. reflexivity. Qed.
Lemma hm_same_shapeb a b : same_shapeb (hm a) (hm b) = same_shapeb a b.
Proof. unfold same_shapeb. rewrite !hm_nr, !hm_nc. reflexivity. Qed.
Lemma hm_assert_same_shape a b : assert_same_shape (hm a) (hm b) = assert_same_shape a b.
Proof. unfold assert_same_shape. rewrite hm_same_shapeb. reflexivity. Qed.

(** a step that does not look at numbers *)
Lemma rmap_bind {A B C} (f : B -> C) (r : res A) (k : A -> res B) : rmap f (bind r k) = bind r (fun x => rmap f (k x)).
Proof. destruct r; reflexivity. Qed.
Lemma bind_rmap {A B C} (f : A -> B) (r : res A) (k : B -> res C) : bind (rmap f r) k = bind r (fun x => k (f x)).
Proof. destruct r; reflexivity. Qed.
Lemma bind_ext {A B} (r : res A) (k k' : A -> res B) : (forall x, r = Ok x -> k x = k' x) -> bind r k = bind r k'.
Proof. destruct r; cbn; intros E; [apply E|]; reflexivity. Qed.

Lemma hm_zip f f' a b : (forall x y, f' (h x) (h y) = h (f x y)) -> m_zip f' (hm a) (hm b) = rmap hm (m_zip f a b).
Proof.
  intros E. unfold m_zip. rewrite hm_same_type, rmap_bind. apply bind_ext. intros _ _. destruct a as [d|c].
  - cbn [hm]. rewrite hm_to_dense, (hd_bcast f) by exact E. destruct (d_bcast _ _ _); reflexivity.
  - cbn [hm]. change (MS (hs c)) with (hm (MS c)). rewrite hm_same_shapeb, rmap_bind. apply bind_ext. intros _ _.
    rewrite hm_to_dense, hs_dense, (hd_map2 f), hs_of_dense by exact E. reflexivity.
Qed.
Lemma hm_add a b : m_add (hm a) (hm b) = rmap hm (m_add a b).  Proof. apply hm_zip. intros. symmetry. apply (h_add H). Qed.
Lemma hm_sub a b : m_sub (hm a) (hm b) = rmap hm (m_sub a b).  Proof. apply hm_zip. intros. symmetry. apply (h_sub H). Qed.
Lemma hm_neg a : m_neg (hm a) = hm (m_neg a).
Proof. unfold m_neg. rewrite hm_type, hm_to_dense, (hd_map fopp), hm_of_dense; [reflexivity|]. intros. symmetry. apply (h_opp H). Qed.
Lemma hm_scal x a : m_scal (h x) (hm a) = hm (m_scal x a).
Proof. unfold m_scal. rewrite hm_type, hm_to_dense, hd_scal, hm_of_dense. reflexivity. Qed.
Lemma hm_mul a b : m_mul (hm a) (hm b) = rmap hm (m_mul a b).
Proof.
  unfold m_mul. rewrite hm_same_type, hm_nc, hm_nr, hm_type, !hm_to_dense, hd_mul, hm_of_dense, !rmap_bind.
  apply bind_ext. intros _ _. rewrite ?rmap_bind. reflexivity.
Qed.
Lemma hm_div a x : m_div (hm a) (h x) = rmap hm (m_div a x).
Proof.
  unfold m_div. rewrite h_eq0, rmap_bind. unfold check. destruct (feqb x f0) eqn:E; cbn; [reflexivity|].
  rewrite hm_type, hm_to_dense, (hd_map (fun y => fdiv y x)), hm_of_dense; [reflexivity|].
  intros. symmetry. apply (h_div H). apply feqb_neq. exact E.
Qed.
Lemma hm_multiply a b : m_multiply (hm a) (hm b) = rmap hm (m_multiply a b).
Proof.
  unfold m_multiply. rewrite hm_same_type, hm_same_shapeb, hm_type, !hm_to_dense, (hd_map2 fmul), hm_of_dense, !rmap_bind.
  - apply bind_ext. intros _ _. rewrite ?rmap_bind. reflexivity.
  - intros. symmetry. apply (h_mul H).
Qed.
Lemma hm_transpose a : m_transpose (hm a) = hm (m_transpose a).
Proof. unfold m_transpose. rewrite hm_type, hm_to_dense, hd_transpose, hm_of_dense. reflexivity. Qed.
Lemma hm_vstack a b : m_vstack (hm a) (hm b) = rmap hm (m_vstack a b).
Proof.
  unfold m_vstack. rewrite hm_same_type, !hm_nc, hm_type, !hm_to_dense, hd_vstack, hm_of_dense, !rmap_bind.
  apply bind_ext. intros _ _. rewrite ?rmap_bind. reflexivity.
Qed.
Lemma hm_hstack a b : m_hstack (hm a) (hm b) = rmap hm (m_hstack a b).
Proof.
  unfold m_hstack. rewrite hm_same_type, !hm_nr, hm_type, !hm_to_dense, hd_hstack, hm_of_dense, !rmap_bind.
  apply bind_ext. intros _ _. rewrite ?rmap_bind. reflexivity.
Qed.
Lemma hm_nary_vstack t l : nary_vstack t (map hm l) = rmap hm (nary_vstack t l).
Proof.
  induction l as [|m l IH]; [reflexivity|]. destruct l as [|m2 l]; [cbn; rewrite hm_conv; reflexivity|].
  change (nary_vstack t (map hm (m :: m2 :: l))) with
    (let* r := nary_vstack t (map hm (m2 :: l)) in m_vstack (conv t (hm m)) r). rewrite IH, bind_rmap.
  change (nary_vstack t (m :: m2 :: l)) with (let* r := nary_vstack t (m2 :: l) in m_vstack (conv t m) r).
  rewrite rmap_bind. apply bind_ext. intros x _. rewrite hm_conv. apply hm_vstack.
Qed.
Lemma hm_scale_rows a v : m_scale_rows (hm a) (map h v) = rmap hm (m_scale_rows a v).
Proof. unfold m_scale_rows. rewrite map_length, hm_nr, hm_type, hm_to_dense, hd_scale_rows, hm_of_dense, rmap_bind. reflexivity. Qed.
Lemma hm_scale_cols a v : m_scale_cols (hm a) (map h v) = rmap hm (m_scale_cols a v).
Proof. unfold m_scale_cols. rewrite map_length, hm_nc, hm_type, hm_to_dense, hd_scale_cols, hm_of_dense, rmap_bind. reflexivity. Qed.
Lemma h_pos_part x : pos_part (h x) = h (pos_part x).
Proof. unfold pos_part. rewrite h_ltb0. destruct (fltb f0 x); [reflexivity|]. symmetry. apply (h_0 H). Qed.
Lemma h_clip0 x : clip0 (h x) = h (clip0 x).
Proof. unfold clip0. rewrite h_lt0. destruct (fltb x f0); [|reflexivity]. symmetry. apply (h_0 H). Qed.
Lemma h_one_pos x : one_pos (h x) = h (one_pos x).
Proof. unfold one_pos. rewrite h_ltb0. destruct (fltb f0 x); symmetry; [apply (h_1 H)|apply (h_0 H)]. Qed.
Lemma h_keep_gt e x : keep_gt (h e) (h x) = h (keep_gt e x).
Proof. unfold keep_gt. rewrite (h_ltb H). destruct (fltb e x); [reflexivity|]. symmetry. apply (h_0 H). Qed.
Lemma hm_to_non_negative a : m_to_non_negative (hm a) = hm (m_to_non_negative a).
Proof.
  destruct a; cbn.
  - rewrite (hd_map pos_part) by (exact h_pos_part). reflexivity.
  - rewrite (hs_mapdata clip0), hs_elim by (exact h_clip0). reflexivity.
Qed.
Lemma hm_get_non_negative a : m_get_non_negative (hm a) = hm (m_get_non_negative a).
Proof.
  destruct a; cbn.
  - rewrite (hd_map pos_part) by (exact h_pos_part). reflexivity.
  - rewrite (hs_mapdata pos_part), hs_elim by (exact h_pos_part). reflexivity.
Qed.
Lemma hm_to_ones a : m_to_ones (hm a) = hm (m_to_ones a).
Proof.
  destruct a; cbn.
  - rewrite (hd_map one_pos) by (exact h_one_pos). reflexivity.
  - rewrite (hs_mapdata one_pos), hs_elim by (exact h_one_pos). reflexivity.
Qed.
Lemma hm_remove_small a e : m_remove_small (hm a) (h e) = hm (m_remove_small a e).
Proof.
  destruct a; cbn.
  - rewrite (hd_map (keep_gt e)) by (exact (h_keep_gt e)). reflexivity.
  - rewrite (hs_mapdata (keep_gt e)), hs_elim by (exact (h_keep_gt e)). reflexivity.
Qed.
Lemma forallb_map {A B} (f : A -> B) p l : forallb p (map f l) = forallb (fun x => p (f x)) l.
Proof. induction l as [|x l IH]; cbn; [reflexivity|]. rewrite IH. reflexivity. Qed.
Lemma forallb_eq {A} (p q : A -> bool) l : (forall x, p x = q x) -> forallb p l = forallb q l.
Proof. intros E. induction l as [|x l IH]; cbn; [reflexivity|]. rewrite IH, E. reflexivity. Qed.
Lemma count_map {A B} (f : A -> B) p q l : (forall x, p (f x) = q x) -> count p (map f l) = count q l.
Proof. intros E. unfold count. induction l as [|x l IH]; cbn; [reflexivity|]. rewrite E. destruct (q x); cbn; rewrite IH; reflexivity. Qed.
Lemma h_leb0 x : fleb f0 (h x) = fleb f0 x.  Proof. rewrite <- (h_0 H). apply h_leb. Qed.
Lemma hm_assert_positive a : m_assert_positive (hm a) = m_assert_positive a.
Proof.
  destruct a; unfold m_assert_positive, hm; cbn [hs s_data]; [rewrite hd_list|]; rewrite forallb_map; rewrite (forallb_eq _ (fun x => fleb f0 x)) by (exact h_leb0); reflexivity.
Qed.
Lemma hm_is_mostly_positive a : m_is_mostly_positive (hm a) = m_is_mostly_positive a.
Proof.
  destruct a; unfold m_is_mostly_positive, hm; cbn [hs hd s_data d_nr d_nc].
  - rewrite hd_list, (count_map h _ (fltb f0)) by (exact h_ltb0). reflexivity.
  - rewrite map_length, (count_map h _ (fltb f0)) by (exact h_ltb0). reflexivity.
Qed.
Lemma hm_sum a : m_sum (hm a) = h (m_sum a).  Proof. unfold m_sum. rewrite hm_to_dense. apply hd_total. Qed.
Lemma hm_sum0 a : m_sum0 (hm a) = map h (m_sum0 a).  Proof. unfold m_sum0. rewrite hm_to_dense. apply hd_sum0. Qed.
Lemma hm_sum1 a : m_sum1 (hm a) = map h (m_sum1 a).  Proof. unfold m_sum1. rewrite hm_to_dense. apply hd_sum1. Qed.
Lemma stable_sort_ext {A} (lt lt' : A -> A -> bool) l : (forall x y, lt x y = lt' x y) -> stable_sort lt l = stable_sort lt' l.
Proof.
  intros E. unfold stable_sort. generalize (@nil A). induction l as [|x l IH]; intros acc; cbn; [reflexivity|].
  rewrite IH. f_equal. clear IH. induction acc as [|y acc IH]; cbn; [reflexivity|]. rewrite E, IH. reflexivity.
Qed.
Lemma h_sorted_permutation l : sorted_permutation (map h l) = sorted_permutation l.
Proof.
  unfold sorted_permutation. rewrite map_length. apply stable_sort_ext. intros. rewrite !h_nth. apply (h_ltb H).
Qed.
Lemma hm_get_row a i : m_get_row (hm a) i = rmap hm (m_get_row a i).
Proof.
  destruct a as [d|c]; cbn.
  - destruct (py_index _ _); [|reflexivity]. rewrite hd_rows. reflexivity.
  - destruct (0 <=? i)%Z.
    + destruct (length (s_ptr c)) as [|[|n]]; try reflexivity. destruct (Nat.leb _ _); [|reflexivity]. rewrite hs_get_row. reflexivity.
    + destruct (py_index _ _); [|reflexivity]. rewrite hs_dense, hd_rows, hs_of_dense. reflexivity.
Qed.
Lemma hm_get_rows a ids : m_get_rows (hm a) ids = rmap hm (m_get_rows a ids).
Proof.
  unfold m_get_rows. rewrite hm_nr, rmap_bind. apply bind_ext. intros ks _. rewrite rmap_bind. apply bind_ext. intros _ _.
  rewrite hm_type, hm_to_dense, hd_rows, hm_of_dense. reflexivity.
Qed.
Lemma hm_get_cols a ids : m_get_cols (hm a) ids = rmap hm (m_get_cols a ids).
Proof.
  unfold m_get_cols. rewrite hm_nc, rmap_bind. apply bind_ext. intros ks _. rewrite rmap_bind. apply bind_ext. intros _ _.
  rewrite hm_type, hm_to_dense, hd_cols, hm_of_dense. reflexivity.
Qed.
Lemma hm_identity t n : m_identity t n = hm (m_identity t n).
Proof. unfold m_identity. rewrite hd_eye. apply hm_of_dense. Qed.
Lemma hm_const t r c x : of_dense t (d_const r c (h x)) = hm (of_dense t (d_const r c x)).
Proof. rewrite hd_const. apply hm_of_dense. Qed.
Lemma hm_const1 t r c : of_dense t (d_const r c f1) = hm (of_dense t (d_const r c f1)).
Proof. rewrite <- (h_1 H) at 1. apply hm_const. Qed.
Lemma hm_const0 t r c : of_dense t (d_const r c f0) = hm (of_dense t (d_const r c f0)).
Proof. rewrite <- (h_0 H) at 1. apply hm_const. Qed.
Lemma hm_padd a ax x : padd_matrix (hm a) ax (h x) = rmap hm (padd_matrix a ax x).
Proof.
  unfold padd_matrix. destruct ax as [|[|ax]]; [| |reflexivity]; rewrite hm_type, ?hm_nr, ?hm_nc, hm_const;
    [apply hm_vstack|apply hm_hstack].
Qed.
Lemma hm_assert_same_nr a b : assert_same_nr (hm a) (hm b) = assert_same_nr a b.
Proof. unfold assert_same_nr. rewrite !hm_nr. reflexivity. Qed.
Lemma hm_to_compatible a b : to_compatible (hm a) (hm b) = let (x, y) := to_compatible a b in (hm x, hm y).
Proof. unfold to_compatible. rewrite hm_type, hm_conv. reflexivity. Qed.
(** reshape *)
Lemma hs_coo c : coo_of_csr (hs c) = map (fun e => (fst e, h (snd e))) (coo_of_csr c).
Proof.
  unfold coo_of_csr; cbn [hs s_nr]. rewrite concat_map, map_map. f_equal. apply map_ext. intros i. rewrite hs_row. unfold hr.
  rewrite !map_map. reflexivity.
Qed.
Lemma filter_map {A B} (f : A -> B) p l : filter p (map f l) = map f (filter (fun x => p (f x)) l).
Proof. induction l as [|x l IH]; cbn; [reflexivity|]. destruct (p (f x)); cbn; rewrite IH; reflexivity. Qed.
Lemma existsb_map {A B} (f : A -> B) p l : existsb p (map f l) = existsb (fun x => p (f x)) l.
Proof. induction l as [|x l IH]; cbn; [reflexivity|]. rewrite IH. reflexivity. Qed.
Lemma h_coo_val es i j : coo_val (map (fun e => (fst e, h (snd e))) es) i j = h (coo_val es i j).
Proof. unfold coo_val. rewrite filter_map, map_map. cbn. rewrite <- h_suml, map_map. reflexivity. Qed.
Lemma hs_of_coo nr nc es : csr_of_coo nr nc (map (fun e => (fst e, h (snd e))) es) = hs (csr_of_coo nr nc es).
Proof.
  unfold csr_of_coo. rewrite <- hs_of_rows. f_equal. rewrite map_map. apply map_ext. intros i. unfold hr. rewrite map_map.
  rewrite (filter_ext _ (coo_mem es i)).
  - apply map_ext. intros j. cbn. rewrite h_coo_val. reflexivity.
  - intros j. unfold coo_mem. rewrite existsb_map. reflexivity.
Qed.
Lemma hs_reshape c r' c' : s_reshape (hs c) r' c' = rmap hs (s_reshape c r' c').
Proof.
  unfold s_reshape. cbn [hs s_nr s_nc]. rewrite rmap_bind. apply bind_ext. intros _ _. rewrite rmap_bind, hs_coo.
  rewrite !map_map, !forallb_map. cbn [fst snd]. apply bind_ext. intros _ _. cbn. f_equal. rewrite <- hs_of_coo, map_map. reflexivity.
Qed.
Lemma hm_reshape a r c : m_reshape (hm a) r c = rmap hm (m_reshape a r c).
Proof.
  destruct a; unfold m_reshape, hm.
  - cbn [hd d_nr d_nc]. rewrite rmap_bind. apply bind_ext. intros _ _. cbn. rewrite hd_reshape. reflexivity.
  - rewrite hs_reshape. destruct (s_reshape _ _ _); reflexivity.
Qed.
(** matrix_utils.py *)
Lemma hm_largest_aux l b t : largest_aux (map hm l) b t = largest_aux l b t.
Proof. revert b t. induction l as [|m l IH]; intros b t; cbn; [reflexivity|]. rewrite hm_nr, hm_nc, hm_type, !IH. reflexivity. Qed.
End Morph.
