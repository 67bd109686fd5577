(** Prop_Train.v -- properties C36 and C37: what WeightedAdditive.train and Dilation.train learn, over exact reals. *)
From Coq Require Import Reals Lra Psatz.
From Verif Require Import Base PyList Dict Num SpecReal Dense Sparse Matrix PSparse PMatrix PMatOps PShape PVals PReal PPos Scaling Linalg
  PLsq Learner Operation Similarity Space Peripheral SpecSpace PDictList PSpace Composition SpecComp PComp Prop_Periph Prop_Ridge.
#[local] Existing Instance RNum.
Open Scope string_scope.
Open Scope list_scope.
Open Scope R_scope.
Open Scope nat_scope.

(** ** specification *)
(** sum over a list *)
Definition lsum {A} (f : A -> R) (l : list A) : R := fold_right Rplus 0%R (map f l).
(** squared distance of two vectors of n coordinates *)
Definition sqdist (n : nat) (u v : nat -> R) : R := rsum n (fun j => (u j - v j) * (u j - v j))%R.
(** total squared error of the weighted additive model with parameters al, be on a list of tuples *)
Definition wadd_error (s1 s2 sp : space) (l : list tuple3) (al be : R) : R :=
  lsum (fun '(w1, w2, ph) => sqdist (m_nc (s_mat sp)) (fun j => al * vec s1 w1 j + be * vec s2 w2 j)%R (vec sp ph)) l.
(** ... and of the dilation model *)
Definition dil_error (s1 s2 sp : space) (l : list tuple3) (la : R) : R :=
  lsum (fun '(w1, w2, ph) =>
    let n := m_nc (s_mat sp) in let u := vec s1 w1 in let v := vec s2 w2 in
    sqdist n (fun j => dot n u u * v j + (la - 1) * dot n u v * u j)%R (vec sp ph)) l.
(** the tuples WeightedAdditive.train looks at: whole chunks only *)
Definition covered (sp : space) (l : list tuple3) : list tuple3 :=
  let cs := m_nr (s_mat sp) / 15 + 1 in firstn (length l / cs * cs) l.

(** ** sums *)
Lemma lsum_app {A} (f : A -> R) l1 l2 : lsum f (l1 ++ l2) = (lsum f l1 + lsum f l2)%R.
Proof. unfold lsum. rewrite map_app. apply fold_right_app_plus. Qed.
Lemma lsum_ext {A} (f g : A -> R) l : (forall x, In x l -> f x = g x) -> lsum f l = lsum g l.
Proof. intros H. unfold lsum. f_equal. apply map_ext_in. exact H. Qed.
Lemma lsum_rsum {A} (f : A -> R) l d : lsum f l = rsum (length l) (fun i => f (nth i l d)).
Proof.
  unfold lsum. rewrite <- fold_right_map_seq. f_equal. induction l as [|x l IH]; [reflexivity|]. cbn [map length seq nth].
  f_equal. rewrite IH, <- seq_shift, map_map. reflexivity.
Qed.
Lemma lsum_nonneg {A} (f : A -> R) l : (forall x, In x l -> (0 <= f x)%R) -> (0 <= lsum f l)%R.
Proof.
  intros H. unfold lsum. induction l as [|x l IH]; cbn [map fold_right]; [lra|].
  pose proof (H x (or_introl eq_refl)). specialize (IH (fun y Hy => H y (or_intror Hy))). lra.
Qed.
Lemma lsum_zero {A} (f : A -> R) l : (forall x, In x l -> (0 <= f x)%R) -> lsum f l = 0%R -> forall x, In x l -> f x = 0%R.
Proof.
  intros H. unfold lsum. induction l as [|x l IH]; cbn [map fold_right]; intros K y Hy; [destruct Hy|].
  pose proof (H x (or_introl eq_refl)). pose proof (lsum_nonneg f l (fun y Hy => H y (or_intror Hy))) as L. unfold lsum in L.
  destruct Hy as [<-|Hy]; [lra|]. apply IH; [intros; apply H; right; assumption|lra|exact Hy].
Qed.
Lemma rsum_flat n m (f : nat -> nat -> R) : 0 < m -> rsum (n * m) (fun i => f (i / m) (i mod m)) = rsum n (fun i => rsum m (f i)).
Proof.
  intros Hm. induction n as [|n IH]; [reflexivity|]. replace (S n * m) with (n * m + m) by lia. rewrite rsum_app, IH. cbn [rsum]. f_equal.
  apply rsum_ext. intros i Hi. f_equal.
  - rewrite Nat.div_add_l by lia. rewrite Nat.div_small by lia. lia.
  - rewrite Nat.add_comm, Nat.mod_add by lia. apply Nat.mod_small. lia.
Qed.
Lemma foldM_app {A S} (f : S -> A -> res S) l1 l2 s : foldM f (l1 ++ l2) s = let* s' := foldM f l1 s in foldM f l2 s'.
Proof. revert s; induction l1 as [|x l IH]; intros s; [reflexivity|]. cbn [app foldM]. destruct (f s x); cbn [bind]; [apply IH|reflexivity]. Qed.
Lemma slice_map {A B} (f : A -> B) a b l : slice a b (map f l) = map f (slice a b l).
Proof. unfold slice. rewrite skipn_map, firstn_map. reflexivity. Qed.
Lemma firstn_slice {A} a b (l : list A) : a <= b -> firstn b l = firstn a l ++ slice a b l.
Proof.
  intros H. unfold slice. revert b l H. induction a as [|a IH]; intros b l H; [cbn; rewrite Nat.sub_0_r; reflexivity|].
  destruct b as [|b]; [lia|]. destruct l as [|x l]; [cbn; rewrite firstn_nil; reflexivity|]. cbn. rewrite IH by lia. reflexivity.
Qed.
Lemma slice_In {A} a b (l : list A) x : In x (slice a b l) -> In x l.
Proof.
  unfold slice. intros H. rewrite <- (firstn_skipn a l). apply in_app_iff. right.
  rewrite <- (firstn_skipn (b - a) (skipn a l)). apply in_app_iff. left. exact H.
Qed.

Section WithExt.
Context {E : @Ext RNum}.

(** ** WeightedAdditive *)
Definition dots (s1 s2 sp : space) (l : list tuple3) : R * R * R * R * R :=
  let n := m_nc (s_mat sp) in
  (lsum (fun t => dot n (vec s1 (t1 t)) (vec s2 (t2 t))) l, lsum (fun t => dot n (vec s1 (t1 t)) (vec sp (t3 t))) l,
   lsum (fun t => dot n (vec s2 (t2 t)) (vec sp (t3 t))) l, lsum (fun t => dot n (vec s1 (t1 t)) (vec s1 (t1 t))) l,
   lsum (fun t => dot n (vec s2 (t2 t)) (vec s2 (t2 t))) l).
Lemma dots_app s1 s2 sp l1 l2 : dots s1 s2 sp (l1 ++ l2) = add5 (dots s1 s2 sp l1) (dots s1 s2 sp l2).
Proof. unfold dots. cbv zeta. rewrite !lsum_app. reflexivity. Qed.

Lemma rows3 s1 s2 sp w : consistent s1 -> consistent s2 -> consistent sp -> w <> [] -> (forall t, In t w -> usable3 s1 s2 sp t = true) ->
  exists u v p t, gen_xxx s1 s2 sp (map t1 w) (map t2 w) (map t3 w) = Ok (u, v, p) /\
    vals u t (length w) (m_nc (s_mat s1)) (fun i j => vec s1 (nth i (map t1 w) "") j) /\
    vals v t (length w) (m_nc (s_mat s2)) (fun i j => vec s2 (nth i (map t2 w) "") j) /\
    vals p t (length w) (m_nc (s_mat sp)) (fun i j => vec sp (nth i (map t3 w) "") j).
Proof.
  intros C1 C2 C3 Hne Hu. unfold gen_xxx.
  assert (Hk : forall t, In t w -> known s1 (t1 t) = true /\ known s2 (t2 t) = true /\ known sp (t3 t) = true).
  { intros [[x y] z] Ht. specialize (Hu _ Ht). unfold usable3 in Hu. apply andb_true_iff in Hu. destruct Hu as (Hu & Hz). apply andb_true_iff in Hu. cbn. tauto. }
  destruct (get_rows_vals s1 (map t1 w) C1) as (u & -> & Vu).
  { destruct w; [congruence|discriminate]. } { intros x Hx. apply in_map_iff in Hx. destruct Hx as (t & <- & Ht). apply Hk, Ht. }
  cbn [bind]. destruct (get_rows_vals s2 (map t2 w) C2) as (v & -> & Vv).
  { destruct w; [congruence|discriminate]. } { intros x Hx. apply in_map_iff in Hx. destruct Hx as (t & <- & Ht). apply Hk, Ht. }
  cbn [bind]. destruct (get_rows_vals sp (map t3 w) C3) as (p & -> & Vp).
  { destruct w; [congruence|discriminate]. } { intros x Hx. apply in_map_iff in Hx. destruct Hx as (t & <- & Ht). apply Hk, Ht. }
  cbn [bind]. rewrite map_length in Vu, Vv, Vp.
  destruct (resolve3_vals u v p _ _ _ _ _ _ _ _ _ _ _ _ TDense Vu Vv Vp) as (u' & v' & p' & t & -> & Vu' & Vv' & Vp' & _). exists u', v', p', t. auto.
Qed.

Lemma sum_lsum {A} (f : A -> R) (l : list A) (g : nat -> R) d : (forall i, i < length l -> g i = f (nth i l d)) -> rsum (length l) g = lsum f l.
Proof. intros H. rewrite (lsum_rsum f l d). apply rsum_ext. exact H. Qed.
Lemma nth_map_t {B} (f : tuple3 -> B) l i d : i < length l -> nth i (map f l) d = f (nth i l ("", "", "")).
Proof. intros H. apply nth_map_in. exact H. Qed.

Lemma wadd_train1_vals s1 s2 sp w u v p t : m_nc (s_mat s1) = m_nc (s_mat sp) -> m_nc (s_mat s2) = m_nc (s_mat sp) ->
  vals u t (length w) (m_nc (s_mat s1)) (fun i j => vec s1 (nth i (map t1 w) "") j) ->
  vals v t (length w) (m_nc (s_mat s2)) (fun i j => vec s2 (nth i (map t2 w) "") j) ->
  vals p t (length w) (m_nc (s_mat sp)) (fun i j => vec sp (nth i (map t3 w) "") j) ->
  wadd_train1 u v p = Ok (dots s1 s2 sp w).
Proof.
  intros H1 H2 Vu Vv Vp. rewrite H1 in Vu. rewrite H2 in Vv. unfold wadd_train1.
  destruct (vals_multiply u v t _ _ _ _ Vu Vv) as (uv & -> & Vuv). cbn [bind].
  destruct (vals_multiply u p t _ _ _ _ Vu Vp) as (up & -> & Vup). cbn [bind].
  destruct (vals_multiply v p t _ _ _ _ Vv Vp) as (vp & -> & Vvp). cbn [bind].
  rewrite (vals_sum uv t _ _ _ Vuv), (vals_sum up t _ _ _ Vup), (vals_sum vp t _ _ _ Vvp).
  assert (Hs : forall (f : nat -> R), @fsq RNum (sqrt (rsum (length w) f)) = (sqrt (rsum (length w) f) * sqrt (rsum (length w) f))%R) by reflexivity.
  unfold dots. cbv zeta. f_equal. rewrite !sumn_rsum.
  assert (Q : forall x (f : tuple3 -> nat -> R), vals x t (length w) (m_nc (s_mat sp)) (fun i j => f (nth i w ("", "", "")) j) ->
     fsq (m_norm x) = lsum (fun t => dot (m_nc (s_mat sp)) (f t) (f t)) w).
  { intros x f Vx. rewrite (m_norm_R x (vals_wf _ _ _ _ _ Vx)), (vals_nr _ _ _ _ _ Vx), (vals_nc _ _ _ _ _ Vx).
    unfold fsq. change (@fmul RNum) with Rmult. rewrite sqrt_sqrt by (apply rsum_nonneg; intros; apply rsum_nonneg; intros; apply Rle_0_sqr).
    apply (sum_lsum _ _ _ ("", "", "")). intros i Hi. unfold dot. apply rsum_ext. intros j Hj. rewrite (vals_ent _ _ _ _ _ i j Vx Hi Hj). reflexivity. }
  rewrite (Q u (fun t => vec s1 (t1 t))), (Q v (fun t => vec s2 (t2 t))).
  2: { eapply vals_ext; [exact Vv|]. intros i j Hi Hj. cbn beta. rewrite (nth_map_t t2 w i "" Hi). reflexivity. }
  2: { eapply vals_ext; [exact Vu|]. intros i j Hi Hj. cbn beta. rewrite (nth_map_t t1 w i "" Hi). reflexivity. }
  repeat apply f_equal2; try reflexivity.
  all: apply (sum_lsum _ _ _ ("", "", "")); intros i Hi; rewrite sumn_rsum; unfold dot; apply rsum_ext; intros j Hj; cbn beta;
    rewrite ?(nth_map_t t1 w i "" Hi), ?(nth_map_t t2 w i "" Hi), ?(nth_map_t t3 w i "" Hi); reflexivity.
Qed.

Lemma wadd_chunks s1 s2 sp w cs : consistent s1 -> consistent s2 -> consistent sp -> (forall t, In t w -> usable3 s1 s2 sp t = true) ->
  m_nc (s_mat s1) = m_nc (s_mat sp) -> m_nc (s_mat s2) = m_nc (s_mat sp) -> 0 < cs ->
  forall k, k * cs <= length w ->
  foldM (wadd_chunk s1 s2 sp (map t1 w) (map t2 w) (map t3 w) cs) (seq 0 k) (f0, f0, f0, f0, f0) = Ok (dots s1 s2 sp (firstn (k * cs) w)).
Proof.
  intros C1 C2 C3 Hu H1 H2 Hcs. induction k as [|k IH]; intros Hk; [reflexivity|].
  rewrite seq_S, foldM_app, IH by lia. cbn [bind plus foldM]. unfold wadd_chunk. rewrite map_length.
  replace ((k + 1) * cs) with (S k * cs) by lia. rewrite (Nat.min_l (S k * cs) (length w)) by lia.
  rewrite !slice_map. set (z := slice (k * cs) (S k * cs) w).
  assert (Lz : length z = cs) by (unfold z; rewrite slice_length by lia; lia).
  assert (Hz : z <> []) by (intros K; rewrite K in Lz; cbn in Lz; lia).
  destruct (rows3 s1 s2 sp z C1 C2 C3 Hz) as (u & v & p & t & Eg & Vu & Vv & Vp). { intros t Ht. apply Hu. eapply slice_In. exact Ht. }
  unfold gen_xxx in Eg. apply bind_ok in Eg. destruct Eg as (u0 & -> & Eg). apply bind_ok in Eg. destruct Eg as (v0 & -> & Eg). apply bind_ok in Eg. destruct Eg as (p0 & -> & Eg).
  cbn [bind]. rewrite Eg. cbn [bind]. rewrite (wadd_train1_vals s1 s2 sp z u v p t H1 H2 Vu Vv Vp). cbn [bind].
  rewrite (firstn_slice (k * cs) (S k * cs) w) by lia. fold z. rewrite dots_app. reflexivity.
Qed.

(** two-parameter least squares with generalised inverse *)
Lemma wadd_error_flat s1 s2 sp l al be : 0 < m_nc (s_mat sp) ->
  let m := m_nc (s_mat sp) in let t i := nth (i / m) l ("", "", "") in
  wadd_error s1 s2 sp l al be =
  lsq (length l * m) 2 (fun i k => if Nat.eqb k 0 then vec s1 (t1 (t i)) (i mod m) else vec s2 (t2 (t i)) (i mod m)) (fun _ => 0%R)
      (fun i => vec sp (t3 (t i)) (i mod m)) (fun k => if Nat.eqb k 0 then al else be).
Proof.
  intros Hm m t. unfold lsq. rewrite (rsum_zero 2 (fun k => 0 * _)%R) by (intros; ring). rewrite Rplus_0_r. unfold mv. cbn [rsum Nat.eqb].
  set (G := (fun i j => (0 + vec s1 (t1 (nth i l ("", "", ""))) j * al + vec s2 (t2 (nth i l ("", "", ""))) j * be - vec sp (t3 (nth i l ("", "", ""))) j) *
     (0 + vec s1 (t1 (nth i l ("", "", ""))) j * al + vec s2 (t2 (nth i l ("", "", ""))) j * be - vec sp (t3 (nth i l ("", "", ""))) j))%R).
  rewrite (rsum_ext (length l * m) _ (fun i => G (i / m) (i mod m))) by reflexivity.
  rewrite (rsum_flat (length l) m G Hm). unfold G.
  unfold wadd_error. rewrite (lsum_rsum _ l ("", "", "")). apply rsum_ext. intros i Hi. destruct (nth i l ("", "", "")) as [[w1 w2] ph]. cbn [t1 t2 t3 fst snd].
  unfold sqdist. apply rsum_ext. intros j Hj. ring.
Qed.
Lemma flat_dots (f g : tuple3 -> nat -> R) l m : 0 < m ->
  rsum (length l * m) (fun i => f (nth (i / m) l ("", "", "")) (i mod m) * g (nth (i / m) l ("", "", "")) (i mod m))%R = lsum (fun t => dot m (f t) (g t)) l.
Proof.
  intros Hm. rewrite (rsum_flat (length l) m (fun i j => f (nth i l ("", "", "")) j * g (nth i l ("", "", "")) j)%R Hm).
  rewrite (lsum_rsum _ l ("", "", "")). reflexivity.
Qed.

Lemma wadd_train2_opt s1 s2 sp l al be : pinv_correct -> 0 < m_nc (s_mat sp) ->
  (let '(uv, up, vp, uu, vv) := dots s1 s2 sp l in wadd_train2 uv up vp uu vv) = Ok (al, be) ->
  forall al' be', (wadd_error s1 s2 sp l al be <= wadd_error s1 s2 sp l al' be')%R.
Proof.
  intros HP Hm H al' be'. unfold dots in H. cbv zeta in H. rewrite !wadd_error_flat by exact Hm. cbv zeta.
  set (m := m_nc (s_mat sp)) in *. unfold wadd_train2 in H. apply bind_ok in H. destruct H as (P & HP' & H). injection H as Ha Hb.
  set (A := fun i k => if Nat.eqb k 0 then vec s1 (t1 (nth (i / m) l ("", "", ""))) (i mod m) else vec s2 (t2 (nth (i / m) l ("", "", ""))) (i mod m)).
  set (b := fun i => vec sp (t3 (nth (i / m) l ("", "", ""))) (i mod m)).
  enough (NE : normal_eq (length l * m) 2 A (fun _ => 0%R) b (fun k => if Nat.eqb k 0 then al else be)).
  { exact (lsq_optimal _ _ A (fun _ => 0%R) (fun k _ => Rle_refl 0) b _ _ NE). }
  apply (ginv_normal (length l * m) 2 A (fun _ => 0%R)) with (P := P); [intros; lra| |].
  - match type of HP' with e_pinv ?d = _ => assert (W : dwfm d) by (repeat split; cbn; try lia; repeat constructor); pose proof (HP d P W HP') as MP; pose proof (mp_mpm _ _ _ _ MP) as M1;
      assert (EG : forall k q, k < 2 -> q < 2 -> gram (length l * m) A (fun _ => 0%R) k q = dent d k q) end.
    { assert (F00 : rsum (length l * m) (fun i => A i 0%nat * A i 0%nat)%R = lsum (fun t => dot m (vec s1 (t1 t)) (vec s1 (t1 t))) l) by exact (flat_dots (fun t => vec s1 (t1 t)) (fun t => vec s1 (t1 t)) l m Hm).
      assert (F01 : rsum (length l * m) (fun i => A i 0%nat * A i 1%nat)%R = lsum (fun t => dot m (vec s1 (t1 t)) (vec s2 (t2 t))) l) by exact (flat_dots (fun t => vec s1 (t1 t)) (fun t => vec s2 (t2 t)) l m Hm).
      assert (F11 : rsum (length l * m) (fun i => A i 1%nat * A i 1%nat)%R = lsum (fun t => dot m (vec s2 (t2 t)) (vec s2 (t2 t))) l) by exact (flat_dots (fun t => vec s2 (t2 t)) (fun t => vec s2 (t2 t)) l m Hm).
      assert (F10 : rsum (length l * m) (fun i => A i 1%nat * A i 0%nat)%R = lsum (fun t => dot m (vec s1 (t1 t)) (vec s2 (t2 t))) l) by (rewrite <- F01; apply rsum_ext; intros; ring).
      intros k q Hk Hq. unfold gram. destruct k as [|[|]]; [| |lia]; (destruct q as [|[|]]; [| |lia]); rewrite ?F00, ?F01, ?F10, ?F11; cbn; lra. }
    intros k q Hk Hq. rewrite (EG k q Hk Hq), <- (M1 k q Hk Hq). cbn [d_nr d_nc]. apply rsum_ext. intros x Hx. apply rsum_ext. intros y Hy. rewrite (EG k x Hk Hx), (EG y q Hy Hq). reflexivity.
  - assert (G0 : rsum (length l * m) (fun i => A i 0%nat * b i)%R = lsum (fun t => dot m (vec s1 (t1 t)) (vec sp (t3 t))) l) by exact (flat_dots (fun t => vec s1 (t1 t)) (fun t => vec sp (t3 t)) l m Hm).
    assert (G1 : rsum (length l * m) (fun i => A i 1%nat * b i)%R = lsum (fun t => dot m (vec s2 (t2 t)) (vec sp (t3 t))) l) by exact (flat_dots (fun t => vec s2 (t2 t)) (fun t => vec sp (t3 t)) l m Hm).
    intros k Hk. cbn [rsum]. rewrite G0, G1. destruct k as [|[|]]; [| |lia]; cbn [Nat.eqb]; [rewrite <- Ha|rewrite <- Hb]; toR; ring.
Qed.

Lemma train_lists_ok data a s1 s2 sp : consistent s1 -> consistent s2 -> consistent sp -> args_of a s1 s2 -> forall r,
  train_lists data a sp = Ok r -> let v := filter (usable3 s1 s2 sp) data in
  v <> [] /\ r = (s1, s2, (map t1 v, map t2 v, map t3 v)).
Proof.
  intros C1 C2 C3 Ha r H. unfold train_lists in H. rewrite (args_extract a s1 s2 Ha) in H. destruct (strings_eqb _ _); [|discriminate H]. cbn [bind] in H.
  rewrite (valid_data_eq data _ _ _ _ (valid_eq3 s1 s2 sp C1 C2 C3)) in H. destruct data as [|d ds]; [discriminate H|].
  destruct (filter (usable3 s1 s2 sp) (d :: ds)) as [|x xs] eqn:Q; [discriminate H|]. cbn [bind] in H. injection H as <-. split; [discriminate|reflexivity].
Qed.
Lemma usable_filter s1 s2 sp data t : In t (filter (usable3 s1 s2 sp) data) -> usable3 s1 s2 sp t = true.
Proof. intros H. apply filter_In in H. apply H. Qed.

(** ** C36 *)
Theorem C36_covered_partial : forall m al0 be0 data a s1 s2 sp m', pinv_correct -> consistent s1 -> consistent s2 -> consistent sp -> args_of a s1 s2 ->
  m_nc (s_mat s1) = m_nc (s_mat sp) -> m_nc (s_mat s2) = m_nc (s_mat sp) -> cm_kind m = WAdd al0 be0 ->
  train m data a sp = (m', Ok tt) ->
  exists al be, cm_kind m' = WAdd al be /\
    forall al' be', (wadd_error s1 s2 sp (covered sp (filter (usable3 s1 s2 sp) data)) al be
                     <= wadd_error s1 s2 sp (covered sp (filter (usable3 s1 s2 sp) data)) al' be')%R.
Proof.
  intros m al0 be0 data a s1 s2 sp m' HP C1 C2 C3 Ha H1 H2 Hk H. unfold train in H. rewrite Hk in H.
  destruct (train_lists data a sp) as [r|e] eqn:ET; [|discriminate H].
  destruct (train_lists_ok data a s1 s2 sp C1 C2 C3 Ha r ET) as (Hne & ->). set (v := filter (usable3 s1 s2 sp) data) in *. cbn [bind] in H.
  destruct (wadd_xxx s1 s2 sp (map t1 v) (map t2 v) (map t3 v)) as [[x y]|e] eqn:EX; [|discriminate H]. injection H as <-. exists x, y. split; [reflexivity|].
  unfold wadd_xxx in EX. rewrite map_length in EX. set (cs := chunk_size (m_nr (s_mat sp))) in *.
  assert (Hcs : 0 < cs) by (unfold cs, chunk_size; lia).
  rewrite (wadd_chunks s1 s2 sp v cs C1 C2 C3 (usable_filter s1 s2 sp data) H1 H2 Hcs (length v / cs)) in EX.
  2: { rewrite Nat.mul_comm. apply Nat.mul_div_le. lia. }
  apply (wadd_train2_opt s1 s2 sp (covered sp v) x y HP).
  - destruct C3 as (W&_). exact (proj2 (mwf_pos _ W)).
  - exact EX.
Qed.

(** the full property whenever no tuple is left over, in particular for a phrase space of fewer than 15 rows *)
Theorem C36_whole_partial : forall m al0 be0 data a s1 s2 sp m', pinv_correct -> consistent s1 -> consistent s2 -> consistent sp -> args_of a s1 s2 ->
  m_nc (s_mat s1) = m_nc (s_mat sp) -> m_nc (s_mat s2) = m_nc (s_mat sp) -> cm_kind m = WAdd al0 be0 ->
  m_nr (s_mat sp) < 15 \/ length (filter (usable3 s1 s2 sp) data) mod (m_nr (s_mat sp) / 15 + 1) = 0 ->
  train m data a sp = (m', Ok tt) ->
  exists al be, cm_kind m' = WAdd al be /\
    forall al' be', (wadd_error s1 s2 sp (filter (usable3 s1 s2 sp) data) al be <= wadd_error s1 s2 sp (filter (usable3 s1 s2 sp) data) al' be')%R.
Proof.
  intros m al0 be0 data a s1 s2 sp m' HP C1 C2 C3 Ha H1 H2 Hk Hc H.
  assert (EQ : covered sp (filter (usable3 s1 s2 sp) data) = filter (usable3 s1 s2 sp) data).
  { unfold covered. set (v := filter _ data) in *. set (cs := m_nr (s_mat sp) / 15 + 1) in *. apply firstn_all2.
    assert (length v mod cs = 0). { destruct Hc as [Hc|Hc]; [|exact Hc]. unfold cs. rewrite (Nat.div_small _ 15 Hc). apply Nat.mod_1_r. }
    pose proof (Nat.div_mod (length v) cs ltac:(unfold cs; lia)). lia. }
  destruct (C36_covered_partial m al0 be0 data a s1 s2 sp m' HP C1 C2 C3 Ha H1 H2 Hk H) as (al & be & K1 & K2). rewrite EQ in K2. eauto.
Qed.

(** ** C37 *)
Lemma dil_train_vals s1 s2 sp w u v p t : m_nc (s_mat s1) = m_nc (s_mat sp) -> m_nc (s_mat s2) = m_nc (s_mat sp) ->
  vals u t (length w) (m_nc (s_mat s1)) (fun i j => vec s1 (nth i (map t1 w) "") j) ->
  vals v t (length w) (m_nc (s_mat s2)) (fun i j => vec s2 (nth i (map t2 w) "") j) ->
  vals p t (length w) (m_nc (s_mat sp)) (fun i j => vec sp (nth i (map t3 w) "") j) ->
  let n := m_nc (s_mat sp) in
  let nom := lsum (fun t => let x := vec s1 (t1 t) in let y := vec s2 (t2 t) in dot n x y * dot n x y * dot n x x)%R w in
  let denom := lsum (fun t => let x := vec s1 (t1 t) in let y := vec s2 (t2 t) in dot n x y * dot n x (fun j => dot n x x * y j - vec sp (t3 t) j))%R w in
  dil_train u v p = Ok (if Req_EM_T nom 0 then 2 else 1 - denom / nom)%R.
Proof.
  intros H1 H2 Vu Vv Vp n nom denom. rewrite H1 in Vu. rewrite H2 in Vv. fold n in Vu, Vv, Vp. unfold dil_train.
  assert (Lq : length (map fsq (m_norm1 u)) = length w) by (rewrite map_length, m_norm1_length; exact (vals_nr _ _ _ _ _ Vu)).
  assert (Nq : forall i, i < length w -> nth i (map fsq (m_norm1 u)) f0 = dot n (vec s1 (t1 (nth i w ("", "", "")))) (vec s1 (t1 (nth i w ("", "", ""))))).
  { intros i Hi. rewrite (nth_map_in fsq (m_norm1 u) i f0 f0) by (rewrite m_norm1_length, (vals_nr _ _ _ _ _ Vu); exact Hi).
    change (nth i (m_norm1 u) f0) with (nth i (m_norm1 u) 0%R). rewrite (nth_m_norm1_R u i (vals_wf _ _ _ _ _ Vu)) by (rewrite (vals_nr _ _ _ _ _ Vu); exact Hi).
    unfold fsq. change (@fmul RNum) with Rmult. rewrite norm_sq, (vals_nc _ _ _ _ _ Vu). unfold dot. apply rsum_ext. intros j Hj.
    rewrite (vals_ent _ _ _ _ _ i j Vu Hi Hj), (nth_map_t t1 w i "" Hi). reflexivity. }
  destruct (vals_scale_rows v t _ _ _ _ Vv Lq) as (vs & -> & Vvs). cbn [bind].
  destruct (vals_sub vs p t _ _ _ _ Vvs Vp) as (v2p & -> & Vv2p). cbn [bind].
  destruct (vals_multiply u v2p t _ _ _ _ Vu Vv2p) as (u2 & -> & Vu2). cbn [bind].
  destruct (vals_multiply u v t _ _ _ _ Vu Vv) as (uv & -> & Vuv). cbn [bind].
  assert (Nuv : forall i, i < length w -> nth i (m_sum1 uv) f0 = dot n (vec s1 (t1 (nth i w ("", "", "")))) (vec s2 (t2 (nth i w ("", "", ""))))).
  { intros i Hi. rewrite (vals_sum1 uv t _ _ _ i Vuv Hi), sumn_rsum. unfold dot. apply rsum_ext. intros j Hj. cbn beta.
    rewrite (nth_map_t t1 w i "" Hi), (nth_map_t t2 w i "" Hi). reflexivity. }
  assert (Nu2 : forall i, i < length w -> nth i (m_sum1 u2) f0 =
    dot n (vec s1 (t1 (nth i w ("", "", "")))) (fun j => dot n (vec s1 (t1 (nth i w ("", "", "")))) (vec s1 (t1 (nth i w ("", "", "")))) * vec s2 (t2 (nth i w ("", "", ""))) j - vec sp (t3 (nth i w ("", "", ""))) j)%R).
  { intros i Hi. rewrite (vals_sum1 u2 t _ _ _ i Vu2 Hi), sumn_rsum. unfold dot at 1. apply rsum_ext. intros j Hj. cbn beta.
    rewrite (Nq i Hi), (nth_map_t t1 w i "" Hi), (nth_map_t t2 w i "" Hi), (nth_map_t t3 w i "" Hi). toR. ring. }
  rewrite m_sum1_length, (vals_nr _ _ _ _ _ Vuv), !suml_map_seq.
  match goal with |- context [feqb (rsum _ ?f) _] => assert (EN : rsum (length w) f = nom) end.
  { apply (sum_lsum _ _ _ ("", "", "")). intros i Hi. rewrite (Nuv i Hi), (Nq i Hi). reflexivity. }
  match goal with |- context [fdiv (rsum _ ?g) _] => assert (ED : rsum (length w) g = denom) end.
  { apply (sum_lsum _ _ _ ("", "", "")). intros i Hi. rewrite (Nuv i Hi), (Nu2 i Hi). reflexivity. }
  rewrite EN, ED. change (feqb nom f0) with (Reqb nom 0). unfold Reqb. destruct (Req_EM_T nom 0); reflexivity.
Qed.

Lemma dil_error_quad s1 s2 sp l la : dil_error s1 s2 sp l la =
  let n := m_nc (s_mat sp) in
  let nom := lsum (fun t => let x := vec s1 (t1 t) in let y := vec s2 (t2 t) in dot n x y * dot n x y * dot n x x)%R l in
  let denom := lsum (fun t => let x := vec s1 (t1 t) in let y := vec s2 (t2 t) in dot n x y * dot n x (fun j => dot n x x * y j - vec sp (t3 t) j))%R l in
  (dil_error s1 s2 sp l 1 + 2 * (la - 1) * denom + (la - 1) * (la - 1) * nom)%R.
Proof.
  cbv zeta. unfold dil_error. induction l as [|[[w1 w2] ph] l IH]; [unfold lsum; cbn; ring|].
  unfold lsum in *. cbn [map fold_right t1 t2 t3 fst snd] in *. rewrite IH. cbv zeta. clear IH. set (n := m_nc (s_mat sp)).
  set (u := vec s1 w1). set (v := vec s2 w2). set (p := vec sp ph). set (c := dot n u v). set (q := dot n u u).
  enough (K : sqdist n (fun j => q * v j + (la - 1) * c * u j)%R p =
    (sqdist n (fun j => q * v j + (1 - 1) * c * u j)%R p + 2 * (la - 1) * (c * dot n u (fun j => q * v j - p j)) + (la - 1) * (la - 1) * (c * c * q))%R).
  { rewrite K. ring. }
  unfold sqdist. rewrite (rsum_ext n _ (fun j => (q * v j + (1 - 1) * c * u j - p j) * (q * v j + (1 - 1) * c * u j - p j)
     + (2 * (la - 1) * c) * (u j * (q * v j - p j)) + ((la - 1) * (la - 1) * (c * c)) * (u j * u j))%R) by (intros; ring).
  rewrite !rsum_plus, !rsum_scal_l. change (rsum n (fun i => u i * u i)%R) with q. change (rsum n (fun i => u i * (q * v i - p i))%R) with (dot n u (fun j => q * v j - p j)%R). ring.
Qed.

Theorem C37_optimal : forall m la0 data a s1 s2 sp m', consistent s1 -> consistent s2 -> consistent sp -> args_of a s1 s2 ->
  m_nc (s_mat s1) = m_nc (s_mat sp) -> m_nc (s_mat s2) = m_nc (s_mat sp) -> cm_kind m = Dil la0 ->
  train m data a sp = (m', Ok tt) ->
  exists la, cm_kind m' = Dil la /\
    forall la', (dil_error s1 s2 sp (filter (usable3 s1 s2 sp) data) la <= dil_error s1 s2 sp (filter (usable3 s1 s2 sp) data) la')%R.
Proof.
  intros m la0 data a s1 s2 sp m' C1 C2 C3 Ha H1 H2 Hk H. unfold train in H. rewrite Hk in H.
  destruct (train_lists data a sp) as [r|e] eqn:ET; [|discriminate H].
  destruct (train_lists_ok data a s1 s2 sp C1 C2 C3 Ha r ET) as (Hne & ->). set (w := filter (usable3 s1 s2 sp) data) in *. cbn [bind] in H.
  destruct (rows3 s1 s2 sp w C1 C2 C3 Hne (usable_filter s1 s2 sp data)) as (u & v & p & t & Eg & Vu & Vv & Vp). rewrite Eg in H. cbn [bind] in H.
  rewrite (dil_train_vals s1 s2 sp w u v p t H1 H2 Vu Vv Vp) in H. cbv zeta in H. injection H as <-.
  eexists. split; [reflexivity|]. intros la'. rewrite (dil_error_quad s1 s2 sp w la'). rewrite dil_error_quad. cbv zeta.
  set (nom := lsum _ w). set (denom := lsum _ w). set (e1 := dil_error _ _ _ _ _).
  assert (Hp : forall x, In x w -> (0 <= (fun t => let x := vec s1 (t1 t) in let y := vec s2 (t2 t) in dot (m_nc (s_mat sp)) x y * dot (m_nc (s_mat sp)) x y * dot (m_nc (s_mat sp)) x x)%R x)%R).
  { intros x _. cbv zeta beta. apply Rmult_le_pos; [apply Rle_0_sqr|apply dot_self_nonneg]. }
  pose proof (lsum_nonneg _ w Hp) as Hn. pose proof (lsum_zero _ w Hp) as Hz. fold nom in Hn, Hz.
  destruct (Req_EM_T nom 0) as [Z|Z].
  - assert (HD : denom = 0%R).
    { unfold denom. rewrite (lsum_ext _ (fun _ => 0%R)).
      - clear. unfold lsum. induction w; cbn [map fold_right]; lra.
      - intros x Hx. specialize (Hz Z x Hx). cbv zeta beta in Hz |- *. apply Rmult_integral in Hz. destruct Hz as [Hz|Hz].
        + apply Rmult_integral in Hz. destruct Hz as [Hz|Hz]; rewrite Hz; ring.
        + assert (D0 : forall y, dot (m_nc (s_mat sp)) (vec s1 (t1 x)) y = 0%R).
          { intros y. unfold dot. apply rsum_zero. intros j Hj. rewrite (dot_self_zero _ _ Hz j Hj). ring. }
          rewrite D0. ring. }
    rewrite HD, Z. lra.
  - assert (K : (e1 + 2 * (la' - 1) * denom + (la' - 1) * (la' - 1) * nom =
       e1 + 2 * (1 - denom / nom - 1) * denom + (1 - denom / nom - 1) * (1 - denom / nom - 1) * nom
       + nom * ((la' - 1 + denom / nom) * (la' - 1 + denom / nom)))%R) by (field; exact Z).
    rewrite K. assert (0 <= nom * ((la' - 1 + denom / nom) * (la' - 1 + denom / nom)))%R by (apply Rmult_le_pos; [exact Hn|apply Rle_0_sqr]). lra.
Qed.

(** training succeeds whenever a tuple is usable and the dimensions agree *)
Theorem C37_total : forall m la0 data a s1 s2 sp, consistent s1 -> consistent s2 -> consistent sp -> args_of a s1 s2 ->
  s_id2col s1 = s_id2col s2 -> m_nc (s_mat s1) = m_nc (s_mat sp) -> m_nc (s_mat s2) = m_nc (s_mat sp) -> cm_kind m = Dil la0 ->
  filter (usable3 s1 s2 sp) data <> [] -> exists m', train m data a sp = (m', Ok tt).
Proof.
  intros m la0 data a s1 s2 sp C1 C2 C3 Ha Hcol H1 H2 Hk Hne. unfold train. rewrite Hk. unfold train_lists.
  rewrite (args_extract a s1 s2 Ha), (proj2 (strings_eqb_eq _ _) Hcol). cbn [bind].
  rewrite (valid_data_ok data _ _ _ _ (valid_eq3 s1 s2 sp C1 C2 C3) Hne). cbn [bind]. set (w := filter (usable3 s1 s2 sp) data) in *.
  destruct (rows3 s1 s2 sp w C1 C2 C3 Hne (usable_filter s1 s2 sp data)) as (u & v & p & t & Eg & Vu & Vv & Vp). rewrite Eg. cbn [bind].
  rewrite (dil_train_vals s1 s2 sp w u v p t H1 H2 Vu Vv Vp). cbv zeta. eauto.
Qed.

(** ... for WeightedAdditive if moreover the 2x2 pseudo-inverse is computed *)
Theorem C36_total : forall m al0 be0 data a s1 s2 sp, (forall l, exists P, e_pinv (DM 2 2 l) = Ok P) ->
  consistent s1 -> consistent s2 -> consistent sp -> args_of a s1 s2 ->
  s_id2col s1 = s_id2col s2 -> m_nc (s_mat s1) = m_nc (s_mat sp) -> m_nc (s_mat s2) = m_nc (s_mat sp) -> cm_kind m = WAdd al0 be0 ->
  filter (usable3 s1 s2 sp) data <> [] -> exists m', train m data a sp = (m', Ok tt).
Proof.
  intros m al0 be0 data a s1 s2 sp HP C1 C2 C3 Ha Hcol H1 H2 Hk Hne. unfold train. rewrite Hk. unfold train_lists.
  rewrite (args_extract a s1 s2 Ha), (proj2 (strings_eqb_eq _ _) Hcol). cbn [bind].
  rewrite (valid_data_ok data _ _ _ _ (valid_eq3 s1 s2 sp C1 C2 C3) Hne). cbn [bind]. set (v := filter (usable3 s1 s2 sp) data) in *.
  unfold wadd_xxx. rewrite map_length. set (cs := chunk_size (m_nr (s_mat sp))) in *.
  assert (Hcs : 0 < cs) by (unfold cs, chunk_size; lia).
  rewrite (wadd_chunks s1 s2 sp v cs C1 C2 C3 (usable_filter s1 s2 sp data) H1 H2 Hcs (length v / cs)).
  2: { rewrite Nat.mul_comm. apply Nat.mul_div_le. lia. }
  cbn [bind]. unfold dots, wadd_train2. cbv zeta.
  match goal with |- context [e_pinv (DM 2 2 ?l)] => destruct (HP l) as (P & ->) end.
  cbn [bind]. eauto.
Qed.

(** Fewer usable tuples than one chunk: nothing is learnt, alpha = beta = 0 whatever the data.  [np.linalg.pinv] of
    the zero matrix only has to return. *)
Theorem C36_nothing_learnt_refuted : forall m al0 be0 data a s1 s2 sp P, consistent s1 -> consistent s2 -> consistent sp -> args_of a s1 s2 ->
  s_id2col s1 = s_id2col s2 -> cm_kind m = WAdd al0 be0 -> e_pinv (DM 2 2 [[0; 0]; [0; 0]]%R) = Ok P ->
  0 < length (filter (usable3 s1 s2 sp) data) < m_nr (s_mat sp) / 15 + 1 ->
  exists m', train m data a sp = (m', Ok tt) /\ cm_kind m' = WAdd 0%R 0%R.
Proof.
  intros m al0 be0 data a s1 s2 sp P C1 C2 C3 Ha Hcol Hk HP Hl. unfold train. rewrite Hk. unfold train_lists.
  rewrite (args_extract a s1 s2 Ha), (proj2 (strings_eqb_eq _ _) Hcol). cbn [bind].
  rewrite (valid_data_ok data _ _ _ _ (valid_eq3 s1 s2 sp C1 C2 C3)) by (intros K; rewrite K in Hl; cbn [length] in Hl; lia).
  cbn [bind]. unfold wadd_xxx. rewrite map_length. unfold chunk_size. rewrite (Nat.div_small (length _) _ (proj2 Hl)). cbn [seq foldM bind]. unfold wadd_train2.
  change (@e_pinv RNum E (DM 2 2 [[f0; f0]; [f0; f0]])) with (@e_pinv RNum E (DM 2 2 [[0; 0]; [0; 0]]%R)). rewrite HP. cbn [bind].
  eexists. split; [reflexivity|]. cbn [cm_kind]. f_equal; toR; ring.
Qed.
End WithExt.

(** ** concrete cases *)
(** a pseudo-inverse routine: exact on 1x1 and 2x2 matrices, an error elsewhere *)
Definition det2 (d : dmat) : R := (dent d 0 0 * dent d 1 1 - dent d 0 1 * dent d 1 0)%R.
Definition fro2 (d : dmat) : R := (dent d 0 0 * dent d 0 0 + dent d 0 1 * dent d 0 1 + dent d 1 0 * dent d 1 0 + dent d 1 1 * dent d 1 1)%R.
Definition pinv_small (d : dmat) : res (nat -> nat -> R) :=
  match d_nr d, d_nc d with
  | 1, 1 => Ok (fun _ _ => if Req_EM_T (dent d 0 0) 0 then 0 else / dent d 0 0)%R
  | 2, 2 => Ok (if Req_EM_T (det2 d) 0 then if Req_EM_T (fro2 d) 0 then fun _ _ => 0%R else fun i j => (dent d j i / fro2 d)%R
            else (fun i j => match i, j with
                             | 0, 0 => (dent d 1 1 / det2 d)%R | 0, 1 => (- dent d 0 1 / det2 d)%R
                             | 1, 0 => (- dent d 1 0 / det2 d)%R | _, _ => (dent d 0 0 / det2 d)%R end))
  | _, _ => Err ValueError
  end.
Definition Epi : @Ext RNum := {|
  e_svd := fun _ => Err LinAlgError; e_sparsesvd := fun _ _ => Err LinAlgError; e_pinv := pinv_small;
  e_lstsq := fun _ _ => Err LinAlgError;
  e_rndcol := fun _ _ => O; e_rndrow := fun _ _ => O; e_timeout := fun _ => false |}.
Lemma Epi_correct : @pinv_correct Epi.
Proof.
  intros d P Hd H. cbn [e_pinv Epi] in H. unfold pinv_small in H.
  destruct (d_nr d) as [|[|[|n]]]; try discriminate H; (destruct (d_nc d) as [|[|[|m]]]; try discriminate H); injection H as <-.
  - assert (D : forall i, i < 1 -> i = 0) by (intros; lia).
    destruct (Req_EM_T (dent d 0 0) 0) as [Z|Z]; constructor; intros i j Hi Hj; rewrite ?(D i Hi), ?(D j Hj); cbn [rsum]; try rewrite Z; try ring; field; exact Z.
  - assert (D : forall i, i < 2 -> i = 0 \/ i = 1) by (intros; lia).
    unfold det2, fro2. set (a := dent d 0 0). set (b := dent d 0 1). set (c := dent d 1 0). set (e := dent d 1 1).
    destruct (Req_EM_T (a * e - b * c) 0) as [Z|Z].
    + destruct (Req_EM_T (a * a + b * b + c * c + e * e) 0) as [W|W].
      * assert (a = 0 /\ b = 0 /\ c = 0 /\ e = 0)%R as (Ha & Hb & Hc & He).
        { pose proof (Rle_0_sqr a); pose proof (Rle_0_sqr b); pose proof (Rle_0_sqr c); pose proof (Rle_0_sqr e). unfold Rsqr in *.
          repeat split; apply Rsqr_0_uniq; unfold Rsqr; lra. }
        constructor; intros i j Hi Hj; destruct (D i Hi) as [-> | ->], (D j Hj) as [-> | ->]; cbn [rsum]; fold a b c e; rewrite ?Ha, ?Hb, ?Hc, ?He; ring.
      * assert (Q : forall x y k, (x = y * (a * a + b * b + c * c + e * e) - k * (a * e - b * c))%R -> (x / (a * a + b * b + c * c + e * e) = y)%R).
        { intros x y k ->. rewrite Z. field. exact W. }
        set (N := (a * a + b * b + c * c + e * e)%R) in *.
        constructor; intros i j Hi Hj; destruct (D i Hi) as [-> | ->], (D j Hj) as [-> | ->]; cbn [rsum]; fold a b c e.
        -- transitivity ((a * (a * a + c * c) + b * (a * b + c * e)) / N)%R; [field; exact W|]. apply (Q _ _ e). unfold N; ring.
        -- transitivity ((a * (b * a + e * c) + b * (b * b + e * e)) / N)%R; [field; exact W|]. apply (Q _ _ (-c)%R). unfold N; ring.
        -- transitivity ((c * (a * a + c * c) + e * (a * b + c * e)) / N)%R; [field; exact W|]. apply (Q _ _ (-b)%R). unfold N; ring.
        -- transitivity ((c * (b * a + e * c) + e * (b * b + e * e)) / N)%R; [field; exact W|]. apply (Q _ _ a). unfold N; ring.
        -- transitivity ((a * (a * a + b * b) + c * (c * a + e * b)) / N / N)%R; [field; exact W|]. rewrite (Q (a * (a * a + b * b) + c * (c * a + e * b))%R a e) by (unfold N; ring). reflexivity.
        -- transitivity ((c * (c * c + e * e) + a * (a * c + b * e)) / N / N)%R; [field; exact W|]. rewrite (Q (c * (c * c + e * e) + a * (a * c + b * e))%R c (-b)%R) by (unfold N; ring). reflexivity.
        -- transitivity ((b * (a * a + b * b) + e * (c * a + e * b)) / N / N)%R; [field; exact W|]. rewrite (Q (b * (a * a + b * b) + e * (c * a + e * b))%R b (-c)%R) by (unfold N; ring). reflexivity.
        -- transitivity ((e * (c * c + e * e) + b * (a * c + b * e)) / N / N)%R; [field; exact W|]. rewrite (Q (e * (c * c + e * e) + b * (a * c + b * e))%R e a) by (unfold N; ring). reflexivity.
        -- reflexivity.
        -- field; exact W.
        -- field; exact W.
        -- reflexivity.
        -- reflexivity.
        -- field; exact W.
        -- field; exact W.
        -- reflexivity.
    + constructor; intros i j Hi Hj; destruct (D i Hi) as [-> | ->], (D j Hj) as [-> | ->]; cbn [rsum]; fold a b c e; field; exact Z.
Qed.
Lemma Epi_converges : @pinv_converges Epi.
Proof. intros d _. cbn [e_pinv Epi]. unfold pinv_small. destruct (d_nr d) as [|[|[|]]]; try discriminate; destruct (d_nc d) as [|[|[|]]]; discriminate. Qed.
Lemma Epi_2x2 l : exists P, @e_pinv RNum Epi (DM 2 2 l) = Ok P.
Proof. cbn. eauto. Qed.

(** a space of n-dimensional dense vectors *)
Definition tsp (rows : list string) (n : nat) (v : list (list R)) : space :=
  SP (MD (DM (length rows) n v)) rows [] (numbered rows) [] [] [n].
Lemma tsp_consistent rows n v : NoDup rows -> rows <> [] -> 0 < n -> length v = length rows -> Forall (fun r => length r = n) v -> consistent (tsp rows n v).
Proof.
  intros Hn Hr Hp Hl Hf. assert (W : mwf (MD (DM (length rows) n v))) by (repeat split; cbn; try lia; [destruct rows; [congruence|cbn; lia]|exact Hf]).
  apply (mk_space_consistent (MD (DM (length rows) n v)) rows [] None None [] None); [exact W|constructor|exact I|exact I|].
  unfold mk_space, tsp. rewrite (numbered_total rows Hn). cbn [bind list2dict]. unfold assert_shape_consistent. rewrite numbered_length. cbn [m_nr m_nc length d_nr d_nc].
  rewrite Nat.eqb_refl. cbn. reflexivity.
Qed.
Ltac nodup := repeat (constructor; [cbn; intuition discriminate|]); constructor.
Definition ex_arg : space := tsp ["a"; "b"] 2 [[1; 0]; [0; 1]]%R.
Definition ex_phr : space := tsp ["ab"; "ba"] 2 [[2; 3]; [3; 2]]%R.
Lemma ex_arg_consistent : consistent ex_arg.
Proof. apply tsp_consistent; [nodup|discriminate|lia|reflexivity|repeat constructor]. Qed.
Lemma ex_phr_consistent : consistent ex_phr.
Proof. apply tsp_consistent; [nodup|discriminate|lia|reflexivity|repeat constructor]. Qed.
Definition ex_data : list tuple3 := [("a", "b", "ab"); ("a", "zz", "ab"); ("b", "a", "ba")].

(** the hypotheses of C36 and C37 hold of a training set of three tuples, one with an unknown word *)
Example C36_example : exists m', @pinv_correct Epi /\ consistent ex_arg /\ consistent ex_phr /\ args_of (One ex_arg) ex_arg ex_arg /\
  m_nc (s_mat ex_arg) = m_nc (s_mat ex_phr) /\ m_nr (s_mat ex_phr) < 15 /\
  filter (usable3 ex_arg ex_arg ex_phr) ex_data = [("a", "b", "ab"); ("b", "a", "ba")] /\
  @train RNum Epi (mk_wadd None None) ex_data (One ex_arg) ex_phr = (m', Ok tt).
Proof.
  destruct (@C36_total Epi (mk_wadd None None) (1/2)%R (1/2)%R ex_data (One ex_arg) ex_arg ex_arg ex_phr Epi_2x2 ex_arg_consistent ex_arg_consistent ex_phr_consistent
     (or_introl (conj eq_refl eq_refl)) eq_refl eq_refl eq_refl eq_refl) as (m' & Hm); [discriminate|].
  exists m'. split; [exact Epi_correct|]. split; [exact ex_arg_consistent|]. split; [exact ex_phr_consistent|]. split; [left; auto|].
  split; [reflexivity|]. split; [cbn; lia|]. split; [reflexivity|exact Hm].
Qed.
Example C37_example : exists m', consistent ex_arg /\ consistent ex_phr /\ args_of (One ex_arg) ex_arg ex_arg /\
  m_nc (s_mat ex_arg) = m_nc (s_mat ex_phr) /\ cm_kind (mk_dil None) = Dil 2%R /\
  @train RNum Epi (mk_dil None) ex_data (One ex_arg) ex_phr = (m', Ok tt).
Proof.
  destruct (@C37_total Epi (mk_dil None) 2%R ex_data (One ex_arg) ex_arg ex_arg ex_phr ex_arg_consistent ex_arg_consistent ex_phr_consistent
     (or_introl (conj eq_refl eq_refl)) eq_refl eq_refl eq_refl eq_refl) as (m' & Hm); [discriminate|].
  exists m'. split; [exact ex_arg_consistent|]. split; [exact ex_phr_consistent|]. split; [left; auto|].
  split; [reflexivity|]. split; [reflexivity|exact Hm].
Qed.

(** ** C36 is false: with 15 phrases and one training pair, alpha = beta = 0 is learnt although alpha = 1, beta = 0 fits exactly *)
Definition ex_phr15 : space :=
  tsp ["p0"; "p1"; "p2"; "p3"; "p4"; "p5"; "p6"; "p7"; "p8"; "p9"; "p10"; "p11"; "p12"; "p13"; "p14"] 2 (repeat [1; 0]%R 15).
Theorem C36_refuted : exists m', consistent ex_arg /\ consistent ex_phr15 /\ @pinv_correct Epi /\
  @train RNum Epi (mk_wadd None None) [("a", "b", "p0")] (One ex_arg) ex_phr15 = (m', Ok tt) /\ cm_kind m' = WAdd 0%R 0%R /\
  (wadd_error ex_arg ex_arg ex_phr15 [("a", "b", "p0")] 1 0 = 0 /\ wadd_error ex_arg ex_arg ex_phr15 [("a", "b", "p0")] 0 0 = 1)%R.
Proof.
  assert (C : consistent ex_phr15).
  { apply tsp_consistent; [nodup|discriminate|lia|reflexivity|repeat constructor]. }
  destruct (Epi_2x2 [[0; 0]; [0; 0]]%R) as (P & HP).
  destruct (@C36_nothing_learnt_refuted Epi (mk_wadd None None) (1/2)%R (1/2)%R [("a", "b", "p0")] (One ex_arg) ex_arg ex_arg ex_phr15 P
     ex_arg_consistent ex_arg_consistent C (or_introl (conj eq_refl eq_refl)) eq_refl eq_refl HP) as (m' & Hm & Hk).
  { change (0 < 1 < 2). lia. }
  exists m'. split; [exact ex_arg_consistent|]. split; [exact C|]. split; [exact Epi_correct|]. split; [exact Hm|]. split; [exact Hk|].
  unfold wadd_error, lsum, sqdist. cbn [map fold_right]. change (m_nc (s_mat ex_phr15)) with 2. cbn [rsum].
  change (vec ex_arg "a" 0) with 1%R. change (vec ex_arg "a" 1) with 0%R. change (vec ex_arg "b" 0) with 0%R. change (vec ex_arg "b" 1) with 1%R.
  change (vec ex_phr15 "p0" 0) with 1%R. change (vec ex_phr15 "p0" 1) with 0%R. split; ring.
Qed.

(** ** C38, C43: concrete case *)
Definition ex_a : matrix := MD (DM 3 1 [[1]; [2]; [3]]%R).
Definition ex_b : matrix := MD (DM 3 2 [[1; 0]; [2; 1]; [2; 5]]%R).
Lemma ex_ab_wf : mwf ex_a /\ mwf ex_b.
Proof. split; repeat split; cbn; try lia; repeat constructor. Qed.
Lemma Epi_ridge lambda icpt : exists X tr dist, @ridge_regression RNum Epi ex_a ex_b lambda icpt = Ok (X, tr, dist).
Proof.
  destruct ex_ab_wf as (Wa & Wb).
  destruct (@ridge_value Epi ex_a ex_b TDense 3 1 2 (ment ex_a) (ment ex_b) lambda icpt (vals_self ex_a Wa) (vals_self ex_b Wb)) as (reg & Wr & Rr & Cr & Hg & He & Hv).
  assert (HP : exists P, @e_pinv RNum Epi reg = Ok P).
  { cbn [e_pinv Epi]. unfold pinv_small. rewrite Rr, Cr. destruct icpt; cbn; eauto. }
  destruct HP as (P & HP). destruct (Hv P HP) as (X & dist & H & _). eauto.
Qed.
Example C38_example : exists X tr dist, @pinv_correct Epi /\ @pinv_converges Epi /\ mwf ex_a /\ mwf ex_b /\
  @ridge_regression RNum Epi ex_a ex_b 1%R true = Ok (X, tr, dist).
Proof. destruct (Epi_ridge 1%R true) as (X & tr & dist & H). exists X, tr, dist. destruct ex_ab_wf. auto using Epi_correct, Epi_converges. Qed.
Example C43_example : exists X, @learner_train RNum Epi (LRidge true true [1; 2]%R None) ex_a ex_b = Ok X.
Proof.
  cbn [learner_train]. unfold gcv_param. cbn [foldM]. unfold gcv_step at 1.
  destruct (Epi_ridge 1%R true) as (X1 & t1' & d1 & ->). cbn [bind].
  match goal with |- context [if ?c then Ok ?x else Ok ?y] => set (st := if c then Ok x else Ok y); assert (S : exists q, st = Ok q) by (unfold st; destruct c; eauto) end.
  destruct S as ([[m0 p0] g0] & ->). cbn [bind]. unfold gcv_step. destruct (Epi_ridge 2%R true) as (X2 & t2' & d2 & ->). cbn [bind].
  match goal with |- context [if ?c then Ok ?x else Ok ?y] => set (st2 := if c then Ok x else Ok y); assert (S : exists q, st2 = Ok q) by (unfold st2; destruct c; eauto) end.
  destruct S as ([[m1 p1] g1] & ->). cbn [bind fst snd]. destruct (Epi_ridge p1 true) as (X3 & t3' & d3 & ->). cbn. eauto.
Qed.
