(** Prop_TrainOrder.v -- property C76: the order in which the training examples are given does not change what is learnt. *)
From Coq Require Import Reals Lra Psatz Permutation Sorted.
From Verif Require Import Base PyList Dict Num SpecReal Dense Sparse Matrix PSparse PMatrix PMatOps PShape PVals PReal PPos Scaling Linalg
  PLsq Learner Operation Similarity Space Peripheral SpecSpace PDictList PSpace Prop_Periph Composition SpecComp PComp Prop_Ridge Prop_Train Prop_Comp Prop_Fadd PMoved Utils Prop_Utils LexFun PLexFun PReshape Prop_LexFun.
#[local] Existing Instance RNum.
Open Scope string_scope.
Open Scope list_scope.
Open Scope R_scope.
Open Scope nat_scope.

(** ** ridge regression does not depend on the order of the rows *)
Lemma mul_same x y x' y' z z' t r k k' c f1 g1 f2 g2 h : vals x t r k f1 -> vals y t k c g1 -> vals x' t r k' f2 -> vals y' t k' c g2 ->
  m_mul x y = Ok z -> m_mul x' y' = Ok z' -> vals z t r c h -> vals z' t r c h -> z = z'.
Proof.
  intros Vx Vy Vx' Vy' E E' Vz Vz'. unfold m_mul in E, E'.
  apply bind_ok in E. destruct E as (? & _ & E). apply bind_ok in E. destruct E as (? & _ & E). injection E as <-.
  apply bind_ok in E'. destruct E' as (? & _ & E'). apply bind_ok in E'. destruct E' as (? & _ & E'). injection E' as <-.
  rewrite (vals_type _ _ _ _ _ Vx), (vals_type _ _ _ _ _ Vx') in *.
  pose proof (vals_dense_eq _ _ _ _ _ _ _ Vz Vz') as K. pose proof (vals_pos _ _ _ _ _ Vz) as (Hr & Hc).
  assert (W : forall a b ka fa ga, vals a t r ka fa -> vals b t ka c ga -> dwfm (d_mul (to_dense a) (to_dense b))).
  { intros a b ka fa ga Va Vb. unfold d_mul. apply tab_wf; rewrite ?to_dense_nr, ?to_dense_nc, ?(vals_nr _ _ _ _ _ Va), ?(vals_nc _ _ _ _ _ Vb); assumption. }
  rewrite !to_dense_of_dense in K by (eapply W; eassumption). rewrite K. reflexivity.
Qed.

Section WithExt.
Context {E : @Ext RNum}.

Section Rows.
Variables (n : nat) (s : nat -> nat).
Hypothesis s_lt : forall i, i < n -> s i < n.
Hypothesis s_inj : forall i k, i < n -> k < n -> s i = s k -> i = k.

Lemma ridge_perm a b a' b' t dim m f g lambda icpt : vals a t n dim f -> vals b t n m g ->
  vals a' t n dim (fun i => f (s i)) -> vals b' t n m (fun i => g (s i)) ->
  ridge_regression a' b' lambda icpt = ridge_regression a b lambda icpt.
Proof using s_lt s_inj.
  intros Ha Hb Ha' Hb'. pose proof (vals_pos _ _ _ _ _ Ha) as (Hn & Hdim). pose proof (vals_pos _ _ _ _ _ Hb) as (_ & Hm).
  unfold ridge_regression.
  rewrite !same_type_same by (rewrite ?(vals_type _ _ _ _ _ Ha), ?(vals_type _ _ _ _ _ Hb), ?(vals_type _ _ _ _ _ Ha'), ?(vals_type _ _ _ _ _ Hb'); reflexivity).
  unfold assert_same_nr. rewrite (vals_nr _ _ _ _ _ Ha), (vals_nr _ _ _ _ _ Hb), (vals_nr _ _ _ _ _ Ha'), (vals_nr _ _ _ _ _ Hb'), Nat.eqb_refl. cbn [check bind].
  rewrite (vals_type _ _ _ _ _ Ha), (vals_nc _ _ _ _ _ Ha), (vals_type _ _ _ _ _ Ha'), (vals_nc _ _ _ _ _ Ha').
  assert (HA : forall a f, vals a t n dim f -> exists a', (if icpt then m_hstack a (of_dense t (d_const n 1 f1)) else Ok a) = Ok a' /\ vals a' t n (xdim dim icpt) (padm dim f)).
  { clear - Hn. intros a f Ha. unfold xdim. destruct icpt.
    - destruct (vals_hstack a _ t n dim 1 f (fun _ _ => f1) Ha (vals_const t n 1 f1 Hn ltac:(lia))) as (a' & -> & V). exists a'. split; [reflexivity|exact V].
    - exists a. split; [reflexivity|]. eapply vals_ext; [exact Ha|]. intros i j Hi Hj. unfold padm. destruct (Nat.ltb_spec j dim); [reflexivity|lia]. }
  destruct (HA a f Ha) as (x & -> & Vx). destruct (HA a' _ Ha') as (x' & -> & Vx'). cbn [bind].
  assert (Vx2 : vals x' t n (xdim dim icpt) (fun i => padm dim f (s i))) by exact Vx'. clear Vx'. rename Vx2 into Vx'.
  set (fp := padm dim f) in *. set (k := xdim dim icpt) in *.
  assert (HL : exists l', (if icpt then let* p := padd_matrix (m_scal lambda (m_identity t dim)) 0 f0 in padd_matrix p 1 f0 else Ok (m_scal lambda (m_identity t dim))) = Ok l'
     /\ vals l' t k k (fun k l => if Nat.eqb k l then pen dim lambda k else 0)%R).
  { pose proof (vals_scal lambda _ t dim dim _ (vals_identity t dim Hdim)) as Vi. unfold k, xdim. destruct icpt.
    - destruct (padd0_vals _ t dim dim _ f0 Vi) as (p & -> & Vp). cbn [bind].
      destruct (padd1_vals p t (dim + 1) dim _ f0 Vp) as (q & -> & Vq). exists q. split; [reflexivity|].
      eapply vals_ext; [exact Vq|]. intros i l Hk Hl. cbn beta. unfold pen. toR.
      destruct (Nat.ltb_spec l dim), (Nat.ltb_spec i dim), (Nat.eqb_spec i l); try lia; try ring.
    - exists (m_scal lambda (m_identity t dim)). split; [reflexivity|]. eapply vals_ext; [exact Vi|]. intros i l Hk Hl. cbn beta. unfold pen. toR.
      destruct (Nat.ltb_spec i dim), (Nat.eqb_spec i l); try lia; try ring. }
  destruct HL as (l' & -> & Vl). cbn [bind].
  pose proof (vals_transpose x t n _ _ Vx) as Vt. pose proof (vals_transpose x' t n _ _ Vx') as Vt'.
  destruct (vals_mul _ x t _ n _ _ _ Vt Vx) as (ata & Eata & Vata). destruct (vals_mul _ x' t _ n _ _ _ Vt' Vx') as (ata' & Eata' & Vata').
  assert (Vata2 : vals ata' t k k (fun i j => sumn n (fun l => fmul (fp l i) (fp l j)))).
  { eapply vals_ext; [exact Vata'|]. intros i j Hi Hj. cbn beta. rewrite !sumn_rsum. exact (rsum_perm n s (fun l => (fp l i * fp l j)%R) s_lt s_inj). }
  clear Vata'. pose proof (mul_same _ _ _ _ _ _ t k n n k _ _ _ _ _ Vt Vx Vt' Vx' Eata Eata' Vata Vata2) as <-.
  rewrite Eata, Eata'. cbn [bind].
  destruct (vals_add ata l' t _ _ _ _ Vata Vl) as (reg & -> & Vreg). cbn [bind].
  assert (HP : exists o, (match linalg_pinv reg with Ok p => Ok p | Err LinAlgError => Ok (m_identity t (m_nr l')) | Err e => Err e end) = o /\
     forall p, o = Ok p -> exists P, vals p t k k P).
  { eexists. split; [reflexivity|]. intros p Hp. assert (Hk : 0 < k) by (unfold k, xdim; destruct icpt; lia). unfold linalg_pinv in Hp. destruct (e_pinv (to_dense reg)) as [P|e].
    - cbn [bind] in Hp. injection Hp as <-. rewrite (vals_type _ _ _ _ _ Vreg), (vals_nr _ _ _ _ _ Vreg), (vals_nc _ _ _ _ _ Vreg). exists P. apply vals_of_dense; exact Hk.
    - cbn [bind] in Hp. destruct e; try discriminate Hp. injection Hp as <-. rewrite (vals_nr _ _ _ _ _ Vl). eexists. apply vals_identity; exact Hk. }
  destruct HP as (o & Eo & Ho). rewrite Eo. destruct o as [tmp|e]; [|reflexivity]. cbn [bind]. destruct (Ho tmp eq_refl) as (P & VP). clear Ho Eo.
  destruct (vals_mul _ _ t _ _ n _ _ VP Vt) as (tr & -> & Vtr). destruct (vals_mul _ _ t _ _ n _ _ VP Vt') as (tr' & -> & Vtr'). cbn [bind].
  destruct (vals_mul tr b t _ n m _ _ Vtr Hb) as (X & EX & VX). destruct (vals_mul tr' b' t _ n m _ _ Vtr' Hb') as (X' & EX' & VX').
  assert (VX2 : vals X' t k m (fun i j => sumn n (fun l => fmul (sumn k (fun q => fmul (P i q) (fp l q))) (g l j)))).
  { eapply vals_ext; [exact VX'|]. intros i j Hi Hj. cbn beta. rewrite !sumn_rsum.
    exact (rsum_perm n s (fun l => fmul (sumn k (fun q => fmul (P i q) (fp l q))) (g l j)) s_lt s_inj). }
  clear VX'. pose proof (mul_same _ _ _ _ _ _ t k n n m _ _ _ _ _ Vtr Hb Vtr' Hb' EX EX' VX VX2) as <-.
  rewrite EX, EX'. cbn [bind].
  destruct (vals_mul x X t n _ m _ _ Vx VX) as (ar & -> & Var). destruct (vals_mul x' X t n _ m _ _ Vx' VX) as (ar' & -> & Var'). cbn [bind].
  destruct (vals_sub ar b t n m _ _ Var Hb) as (diff & -> & Vdiff). destruct (vals_sub ar' b' t n m _ _ Var' Hb') as (diff' & -> & Vdiff'). cbn [bind].
  destruct (vals_multiply _ tr t _ n _ _ Vt Vtr) as (st & -> & Vst). destruct (vals_multiply _ tr' t _ n _ _ Vt' Vtr') as (st' & -> & Vst'). cbn [bind].
  do 2 f_equal; [f_equal|].
  - rewrite (vals_sum st t _ n _ Vst), (vals_sum st' t _ n _ Vst'), !sumn_rsum. apply rsum_ext. intros q Hq. rewrite !sumn_rsum.
    exact (rsum_perm n s (fun i => fmul (fp i q) (sumn k (fun l => fmul (P q l) (fp i l)))) s_lt s_inj).
  - rewrite (m_norm_R diff (vals_wf _ _ _ _ _ Vdiff)), (m_norm_R diff' (vals_wf _ _ _ _ _ Vdiff')). f_equal.
    rewrite (vals_nr _ _ _ _ _ Vdiff), (vals_nc _ _ _ _ _ Vdiff), (vals_nr _ _ _ _ _ Vdiff'), (vals_nc _ _ _ _ _ Vdiff').
    symmetry. rewrite <- (rsum_perm n s _ s_lt s_inj). apply rsum_ext. intros i Hi. apply rsum_ext. intros c Hc.
    rewrite (vals_ent _ _ _ _ _ i c Vdiff' Hi Hc), (vals_ent _ _ _ _ _ (s i) c Vdiff (s_lt i Hi) Hc). reflexivity.
Qed.

(** the same with the learners that are built on it; a dense least squares problem is left to numpy.linalg.lstsq *)
Definition by_ridge (L : learner) (t : mtype) : Prop := match L with LLstsq _ => t = TSparse | LRidge _ _ _ _ => True end.
Lemma learner_perm L a b a' b' t dim m f g : by_ridge L t -> vals a t n dim f -> vals b t n m g ->
  vals a' t n dim (fun i => f (s i)) -> vals b' t n m (fun i => g (s i)) ->
  learner_train L a' b' = learner_train L a b.
Proof using s_lt s_inj.
  intros HL Ha Hb Ha' Hb'. assert (HR : forall l i, ridge_regression a' b' l i = ridge_regression a b l i) by (intros; eapply ridge_perm; eassumption).
  assert (ST : forall x y, type_of x = t -> type_of y = t -> same_type x y = Ok tt) by (intros x y Hx Hy; apply same_type_same; congruence).
  pose proof (vals_type _ _ _ _ _ Ha) as T1. pose proof (vals_type _ _ _ _ _ Hb) as T2. pose proof (vals_type _ _ _ _ _ Ha') as T3. pose proof (vals_type _ _ _ _ _ Hb') as T4.
  destruct L as [i|i [|] rg p]; cbn [learner_train].
  - cbn in HL. unfold lstsq_regression. rewrite !ST by assumption. unfold assert_same_nr.
    rewrite (vals_nr _ _ _ _ _ Ha), (vals_nr _ _ _ _ _ Hb), (vals_nr _ _ _ _ _ Ha'), (vals_nr _ _ _ _ _ Hb'), Nat.eqb_refl. cbn [check bind].
    destruct (pad_vals a t n dim f i Ha) as (x & Ex & Vx). destruct (pad_vals a' t n dim _ i Ha') as (x' & Ex' & Vx').
    rewrite (vals_nr _ _ _ _ _ Ha) in Ex. rewrite (vals_nr _ _ _ _ _ Ha') in Ex'. rewrite Ex, Ex'. cbn [bind].
    pose proof (vals_type _ _ _ _ _ Vx) as Tx. pose proof (vals_type _ _ _ _ _ Vx') as Tx'.
    destruct x; [cbn in Tx; congruence|]. destruct x'; [cbn in Tx'; congruence|].
    change (@f0 RNum) with 0%R. rewrite (ridge_perm _ _ _ _ t _ m _ g 0%R false Vx Hb Vx' Hb'). reflexivity.
  - assert (HG : forall st q, gcv_step a' b' i st q = gcv_step a b i st q).
    { intros [[e pm] gc] q. unfold gcv_step. rewrite HR, (vals_nr _ _ _ _ _ Ha), (vals_nr _ _ _ _ _ Ha'). reflexivity. }
    assert (HF : forall l st, foldM (gcv_step a' b' i) l st = foldM (gcv_step a b i) l st).
    { induction l as [|q l IH]; intros st; cbn [foldM]; [reflexivity|]. rewrite HG. destruct (gcv_step a b i st q); [apply IH|reflexivity]. }
    unfold gcv_param. rewrite HF. destruct (foldM _ _ _) as [st|e]; [|reflexivity]. cbn [bind]. rewrite HR. reflexivity.
  - destruct p as [p|]; [rewrite HR; reflexivity|]. rewrite !ST by assumption. unfold assert_same_nr.
    rewrite (vals_nr _ _ _ _ _ Ha), (vals_nr _ _ _ _ _ Hb), (vals_nr _ _ _ _ _ Ha'), (vals_nr _ _ _ _ _ Hb'). reflexivity.
Qed.
End Rows.

(** ** the vector based models *)
Lemma perm_index {A} (l l' : list A) d : Permutation l l' -> length l' = length l /\
  exists s, (forall i, i < length l -> s i < length l) /\ (forall i k, i < length l -> k < length l -> s i = s k -> i = k) /\
    forall i, i < length l -> nth i l' d = nth (s i) l d.
Proof.
  intros H. destruct (proj1 (Permutation_nth l l' d) H) as (Hl & s & B & I & Hs). split; [exact Hl|]. exists s. split; [exact B|]. split; [|exact Hs].
  intros i k Hi Hk. apply I; assumption.
Qed.
Lemma perm_filter {A} (f : A -> bool) l l' : Permutation l l' -> Permutation (filter f l) (filter f l').
Proof.
  induction 1; cbn; [constructor| | |eapply Permutation_trans; eassumption].
  - destruct (f x); [constructor|]; assumption.
  - destruct (f x), (f y); try apply Permutation_refl. constructor.
Qed.
Lemma lsum_perm {A} (f : A -> R) l l' : Permutation l l' -> lsum f l' = lsum f l.
Proof. intros H. unfold lsum. symmetry. apply fold_right_perm, Permutation_map, H. Qed.

Lemma train_lists_perm data data' a s1 s2 sp : consistent s1 -> consistent s2 -> consistent sp -> args_of a s1 s2 -> Permutation data data' ->
  (exists e, train_lists data a sp = Err e /\ train_lists data' a sp = Err e) \/
  let w := filter (usable3 s1 s2 sp) data in let w' := filter (usable3 s1 s2 sp) data' in
  w <> [] /\ w' <> [] /\ Permutation w w' /\ train_lists data a sp = Ok (s1, s2, (map t1 w, map t2 w, map t3 w)) /\ train_lists data' a sp = Ok (s1, s2, (map t1 w', map t2 w', map t3 w')).
Proof.
  intros C1 C2 C3 Ha HP. pose proof (perm_filter (usable3 s1 s2 sp) _ _ HP) as HW. unfold train_lists. rewrite (args_extract a s1 s2 Ha).
  destruct (strings_eqb _ _); [|left; eexists; split; reflexivity]. cbn [bind].
  rewrite !(valid_data_eq _ _ _ _ _ (valid_eq3 s1 s2 sp C1 C2 C3)). destruct data as [|d ds].
  { apply Permutation_nil in HP. rewrite HP. left. eexists. split; reflexivity. }
  destruct data' as [|d' ds']. { apply Permutation_sym, Permutation_nil in HP. discriminate. }
  destruct (filter (usable3 s1 s2 sp) (d :: ds)) as [|x xs].
  { apply Permutation_nil in HW. rewrite HW. left. eexists. split; reflexivity. }
  destruct (filter (usable3 s1 s2 sp) (d' :: ds')) as [|x' xs']. { apply Permutation_sym, Permutation_nil in HW. discriminate. }
  right. cbv zeta. split; [discriminate|]. split; [discriminate|]. split; [exact HW|]. split; reflexivity.
Qed.

(** Dilation *)
Theorem C76_dilation : forall m la0 data data' a s1 s2 sp, consistent s1 -> consistent s2 -> consistent sp -> args_of a s1 s2 ->
  m_nc (s_mat s1) = m_nc (s_mat sp) -> m_nc (s_mat s2) = m_nc (s_mat sp) -> cm_kind m = Dil la0 -> Permutation data data' ->
  train m data' a sp = train m data a sp.
Proof.
  intros m la0 data data' a s1 s2 sp C1 C2 C3 Ha H1 H2 Hk HP. unfold train. rewrite Hk.
  destruct (train_lists_perm data data' a s1 s2 sp C1 C2 C3 Ha HP) as [(e & -> & ->)|(Hne & Hne' & HW & -> & ->)]; [reflexivity|]. cbn [bind].
  set (w := filter _ data) in *. set (w' := filter _ data') in *.
  destruct (rows3 s1 s2 sp w C1 C2 C3 Hne (usable_filter s1 s2 sp data)) as (u & v & p & t & -> & Vu & Vv & Vp).
  destruct (rows3 s1 s2 sp w' C1 C2 C3 Hne' (usable_filter s1 s2 sp data')) as (u' & v' & p' & t' & -> & Vu' & Vv' & Vp'). cbn [bind].
  rewrite (dil_train_vals s1 s2 sp w u v p t H1 H2 Vu Vv Vp), (dil_train_vals s1 s2 sp w' u' v' p' t' H1 H2 Vu' Vv' Vp'). cbv zeta.
  rewrite !(lsum_perm _ w w' HW). reflexivity.
Qed.

(** WeightedAdditive, when every usable example is covered *)
Theorem C76_weighted_additive : forall m al0 be0 data data' a s1 s2 sp, consistent s1 -> consistent s2 -> consistent sp -> args_of a s1 s2 ->
  m_nc (s_mat s1) = m_nc (s_mat sp) -> m_nc (s_mat s2) = m_nc (s_mat sp) -> cm_kind m = WAdd al0 be0 -> Permutation data data' ->
  m_nr (s_mat sp) < 15 \/ length (filter (usable3 s1 s2 sp) data) mod (m_nr (s_mat sp) / 15 + 1) = 0 ->
  train m data' a sp = train m data a sp.
Proof.
  intros m al0 be0 data data' a s1 s2 sp C1 C2 C3 Ha H1 H2 Hk HP Hc. unfold train. rewrite Hk.
  destruct (train_lists_perm data data' a s1 s2 sp C1 C2 C3 Ha HP) as [(e & -> & ->)|(Hne & Hne' & HW & -> & ->)]; [reflexivity|]. cbn [bind].
  set (w := filter _ data) in *. set (w' := filter _ data') in *.
  assert (HL : length w' = length w) by (symmetry; apply Permutation_length, HW).
  unfold wadd_xxx. rewrite !map_length, HL. set (cs := chunk_size (m_nr (s_mat sp))). assert (Hcs : 0 < cs) by (unfold cs, chunk_size; lia).
  assert (Hd : length w / cs * cs = length w).
  { assert (length w mod cs = 0). { destruct Hc as [Hc|Hc]; [|exact Hc]. unfold cs, chunk_size. rewrite (Nat.div_small _ 15 Hc). apply Nat.mod_1_r. }
    pose proof (Nat.div_mod (length w) cs ltac:(lia)). lia. }
  rewrite (wadd_chunks s1 s2 sp w cs C1 C2 C3 (usable_filter s1 s2 sp data) H1 H2 Hcs (length w / cs)) by lia.
  rewrite (wadd_chunks s1 s2 sp w' cs C1 C2 C3 (usable_filter s1 s2 sp data') H1 H2 Hcs (length w / cs)) by lia.
  cbn [bind]. rewrite Hd, firstn_all, <- HL, firstn_all. unfold dots. cbv zeta. rewrite !(lsum_perm _ w w' HW). reflexivity.
Qed.

Definition common3 (s1 s2 sp : space) : mtype :=
  let t := type_of (s_mat s1) in if mtype_eqb t (type_of (s_mat s2)) && mtype_eqb t (type_of (s_mat sp)) then t else TDense.
Lemma rows3_type s1 s2 sp w : consistent s1 -> consistent s2 -> consistent sp -> w <> [] -> (forall t, In t w -> usable3 s1 s2 sp t = true) ->
  exists u v p, let t := common3 s1 s2 sp in gen_xxx s1 s2 sp (map t1 w) (map t2 w) (map t3 w) = Ok (u, v, p) /\
    vals u t (length w) (m_nc (s_mat s1)) (fun i j => vec s1 (nth i (map t1 w) "") j) /\
    vals v t (length w) (m_nc (s_mat s2)) (fun i j => vec s2 (nth i (map t2 w) "") j) /\
    vals p t (length w) (m_nc (s_mat sp)) (fun i j => vec sp (nth i (map t3 w) "") j).
Proof.
  intros C1 C2 C3 Hne Hu. unfold gen_xxx.
  assert (Hk : forall t, In t w -> known s1 (t1 t) = true /\ known s2 (t2 t) = true /\ known sp (t3 t) = true).
  { intros [[x y] z] Ht. specialize (Hu _ Ht). unfold usable3 in Hu. apply andb_true_iff in Hu. destruct Hu as (Hu & Hz). apply andb_true_iff in Hu. cbn. tauto. }
  destruct (get_rows_vals s1 (map t1 w) C1) as (u & -> & Vu).
  { destruct w; [congruence|discriminate]. } { intros x Hx. apply in_map_iff in Hx. destruct Hx as (t & <- & Ht). apply Hk, Ht. }
  cbn [bind]. destruct (get_rows_vals s2 (map t2 w) C2) as (v & -> & Vv).
  { destruct w; [congruence|discriminate]. } { intros x Hx. apply in_map_iff in Hx. destruct Hx as (t & <- & Ht). apply Hk, Ht. }
  cbn [bind]. destruct (get_rows_vals sp (map t3 w) C3) as (p & -> & Vp).
  { destruct w; [congruence|discriminate]. } { intros x Hx. apply in_map_iff in Hx. destruct Hx as (t & <- & Ht). apply Hk, Ht. }
  cbn [bind]. rewrite map_length in Vu, Vv, Vp.
  destruct (resolve3_vals u v p _ _ _ _ _ _ _ _ _ _ _ _ TDense Vu Vv Vp) as (u' & v' & p' & t & -> & Vu' & Vv' & Vp' & ->). exists u', v', p'. auto.
Qed.
(** FullAdditive with a ridge learner (with or without cross-validation), or any learner when all the data are sparse *)
Theorem C76_full_additive : forall m ab i0 L data data' a s1 s2 sp, consistent s1 -> consistent s2 -> consistent sp -> args_of a s1 s2 ->
  cm_kind m = FAdd ab i0 (Some L) -> by_ridge L (common3 s1 s2 sp) -> Permutation data data' ->
  train m data' a sp = train m data a sp.
Proof.
  intros m ab i0 L data data' a s1 s2 sp C1 C2 C3 Ha Hk HL HP. unfold train. rewrite Hk.
  destruct (train_lists_perm data data' a s1 s2 sp C1 C2 C3 Ha HP) as [(e & -> & ->)|(Hne & Hne' & HW & -> & ->)]; [reflexivity|]. cbn [bind].
  set (w := filter _ data) in *. set (w' := filter _ data') in *.
  destruct (perm_index w w' ("", "", "") HW) as (Hl & s & Sl & Si & Sn).
  destruct (rows3_type s1 s2 sp w C1 C2 C3 Hne (usable_filter s1 s2 sp data)) as (u & v & p & EG & Vu & Vv & Vp).
  destruct (rows3_type s1 s2 sp w' C1 C2 C3 Hne' (usable_filter s1 s2 sp data')) as (u' & v' & p' & EG' & Vu' & Vv' & Vp'). rewrite EG, EG'. cbn [bind].
  set (t := common3 s1 s2 sp) in *.
  unfold fadd_train. destruct (vals_hstack u v t _ _ _ _ _ Vu Vv) as (uv & -> & Vuv). destruct (vals_hstack u' v' t _ _ _ _ _ Vu' Vv') as (uv' & -> & Vuv'). cbn [bind].
  assert (HE : learner_train L uv' p' = learner_train L uv p).
  { rewrite Hl in Vuv', Vp'. eapply (learner_perm (length w) s Sl Si); [exact HL|exact Vuv|exact Vp| |].
    - eapply vals_ext; [exact Vuv'|]. intros i j Hi Hj. cbn beta. rewrite !nth_map_t by (rewrite ?Hl; auto). rewrite (Sn i Hi). reflexivity.
    - eapply vals_ext; [exact Vp'|]. intros i j Hi Hj. cbn beta. rewrite !nth_map_t by (rewrite ?Hl; auto). rewrite (Sn i Hi). reflexivity. }
  rewrite HE, (vals_nc _ _ _ _ _ Vu), (vals_nc _ _ _ _ _ Vu'). reflexivity.
Qed.

(** ** LexicalFunction *)
Lemma sorted_unique l : forall l', StronglySorted sle l -> StronglySorted sle l' -> Permutation l l' -> l' = l.
Proof.
  induction l as [|x l IH]; intros l' H H' HP; [apply Permutation_nil, HP|].
  destruct l' as [|y l']; [apply Permutation_sym, Permutation_nil in HP; discriminate|].
  inversion H as [|? ? S1 F1]; inversion H' as [|? ? S2 F2]; subst. rewrite Forall_forall in F1, F2.
  assert (y = x).
  { pose proof (Permutation_in y (Permutation_sym HP) (or_introl eq_refl)) as Hy. pose proof (Permutation_in x HP (or_introl eq_refl)) as Hx.
    destruct Hy as [Hy|Hy]; [congruence|]. destruct Hx as [Hx|Hx]; [congruence|]. apply sle_antisym; auto. }
  subst y. apply Permutation_cons_inv in HP. rewrite (IH l' S1 S2 HP). reflexivity.
Qed.
Lemma mapM_same {A B} (f g : A -> res B) l : (forall x, In x l -> f x = g x) -> mapM f l = mapM g l.
Proof. induction l as [|x l IH]; intros H; cbn; [reflexivity|]. rewrite (H x) by (left; reflexivity). rewrite IH by (intros; apply H; right; assumption). reflexivity. Qed.

Lemma lf_learn_perm L arg phr sz (w w' : list tuple3) : consistent arg -> consistent phr -> w <> [] ->
  (forall t, In t w -> known arg (t2 t) = true /\ known phr (t3 t) = true) -> Permutation w w' ->
  by_ridge L (common_type (type_of (s_mat arg)) (type_of (s_mat phr)) (m_nc (s_mat arg)) (m_nc (s_mat phr))) ->
  lf_learn L arg phr sz (map t2 w') (map t3 w') = lf_learn L arg phr sz (map t2 w) (map t3 w).
Proof.
  intros C1 C2 Hw HK HP HL. destruct (perm_index w w' ("", "", "") HP) as (Hl & s & Sl & Si & Sn).
  assert (Hw' : w' <> []) by (intros ->; apply Permutation_sym, Permutation_nil in HP; congruence).
  assert (HK' : forall t, In t w' -> known arg (t2 t) = true /\ known phr (t3 t) = true) by (intros t Ht; apply HK; apply (Permutation_in t (Permutation_sym HP)), Ht).
  set (T := common_type _ _ _ _) in *.
  assert (G : forall w, w <> [] -> (forall t, In t w -> known arg (t2 t) = true /\ known phr (t3 t) = true) ->
    exists A B, lf_learn L arg phr sz (map t2 w) (map t3 w) = (let* x := learner_train L A B in let* r := m_reshape (m_transpose x) 1 sz in Ok (r, T)) /\
      vals A T (length w) (m_nc (s_mat arg)) (fun i j => vec arg (t2 (nth i w ("", "", ""))) j) /\ vals B T (length w) (m_nc (s_mat phr)) (fun i j => vec phr (t3 (nth i w ("", "", ""))) j)).
  { clear - C1 C2. intros w Hw HK. unfold lf_learn.
    destruct (get_rows_vals arg (map t2 w) C1) as (A0 & -> & VA); [destruct w; [congruence|discriminate]|intros x Hx; apply in_map_iff in Hx; destruct Hx as (t & <- & Ht); apply (HK t Ht)|].
    destruct (get_rows_vals phr (map t3 w) C2) as (B0 & -> & VB); [destruct w; [congruence|discriminate]|intros x Hx; apply in_map_iff in Hx; destruct Hx as (t & <- & Ht); apply (HK t Ht)|].
    cbn [bind]. destruct (resolve2_largest A0 B0 _ _ _ _ _ _ _ _ VA VB) as (A & B & -> & VA' & VB'). rewrite !map_length in VA', VB'.
    rewrite common_scale in VA', VB' by (destruct w; [congruence|cbn; lia]). fold T in VA', VB'. cbn [bind].
    exists A, B. rewrite (vals_type _ _ _ _ _ VA'). split; [reflexivity|]. split; (eapply vals_ext; [eassumption|]); intros i j Hi Hj; cbn beta; rewrite nth_map_t by exact Hi; reflexivity. }
  destruct (G w Hw HK) as (A & B & -> & VA & VB). destruct (G w' Hw' HK') as (A' & B' & -> & VA' & VB'). clear G. rewrite Hl in VA', VB'.
  rewrite (learner_perm (length w) s Sl Si L A B A' B' T _ _ _ _ HL VA VB); [reflexivity| |].
  - eapply vals_ext; [exact VA'|]. intros i j Hi Hj. cbn beta. rewrite (Sn i Hi). reflexivity.
  - eapply vals_ext; [exact VB'|]. intros i j Hi Hj. cbn beta. rewrite (Sn i Hi). reflexivity.
Qed.

Theorem C76_lexical_function : forall m data data' arg phr, consistent arg -> consistent phr ->
  by_ridge (lf_learner m) (common_type (type_of (s_mat arg)) (type_of (s_mat phr)) (m_nc (s_mat arg)) (m_nc (s_mat phr))) -> Permutation data data' ->
  lf_train m data' arg phr = lf_train m data arg phr.
Proof.
  intros m data data' arg phr C1 C2 HL HP. unfold lf_train. set (L := lf_learner m) in *.
  enough (HE : lf_train_space L (lf_min m) data' arg phr = lf_train_space L (lf_min m) data arg phr) by (rewrite HE; reflexivity).
  unfold lf_train_space. set (srt := stable_sort (fun x y : tuple3 => String.ltb (t1 x) (t1 y))).
  assert (HS : Permutation (srt data) (srt data')).
  { eapply Permutation_trans; [apply Permutation_sym, stable_sort_perm|]. eapply Permutation_trans; [exact HP|apply stable_sort_perm]. }
  assert (HV : (exists e, valid_data_to_lists (srt data) None (Some (s_row2id arg)) (Some (s_row2id phr)) = Err e /\ valid_data_to_lists (srt data') None (Some (s_row2id arg)) (Some (s_row2id phr)) = Err e) \/
    exists l1 l2 l3 l2' l3', valid_data_to_lists (srt data) None (Some (s_row2id arg)) (Some (s_row2id phr)) = Ok (l1, l2, l3) /\ valid_data_to_lists (srt data') None (Some (s_row2id arg)) (Some (s_row2id phr)) = Ok (l1, l2', l3')).
  { rewrite !(valid_data_eq _ _ _ _ _ (valid_eq23 arg phr C1 C2)). set (p := fun t : tuple3 => _). pose proof (perm_filter p _ _ HS) as HW.
    assert (HN : forall d, StronglySorted sle (map t1 (filter p (srt d)))) by (intros d; apply sorted_map, sorted_filter; exact (stable_sort_sorted _ (sltb_swo t1) d)).
    pose proof (sorted_unique _ _ (HN data) (HN data') (Permutation_map t1 HW)) as HU. clear HN.
    destruct (srt data) as [|d ds]. { apply Permutation_nil in HS. rewrite HS. left. eexists. split; reflexivity. }
    destruct (srt data') as [|d' ds']. { apply Permutation_sym, Permutation_nil in HS. discriminate. }
    destruct (filter p (d :: ds)) as [|x xs]. { apply Permutation_nil in HW. rewrite HW. left. eexists. split; reflexivity. }
    destruct (filter p (d' :: ds')) as [|x' xs']. { apply Permutation_sym, Permutation_nil in HW. discriminate. }
    right. exists (map t1 (x :: xs)), (map t2 (x :: xs)), (map t3 (x :: xs)), (map t2 (x' :: xs')), (map t3 (x' :: xs')). rewrite <- HU at 2. split; reflexivity. }
  destruct HV as [(e & -> & ->)|(l1 & l2 & l3 & l2' & l3' & E1 & E2)]; [reflexivity|]. cbv zeta. rewrite E1, E2. cbn [bind].
  destruct (get_partitions String.eqb l1 (lf_min m)) as [[keys ranges]|e] eqn:EG; [|reflexivity]. cbn [bind].
  destruct (train_groups arg phr data _ l1 l2 l3 keys ranges C1 C2 E1 EG) as (_ & G2 & G3 & G4).
  destruct (train_groups arg phr data' _ l1 l2' l3' keys ranges C1 C2 E2 EG) as (_ & _ & _ & G4').
  destruct (check (negb (Nat.eqb (length keys) 0)) ValueError); [|reflexivity]. cbn [bind].
  destruct (check (Nat.eqb (length (s_eshape arg)) 1) AssertionError); [|reflexivity]. cbn [bind].
  set (sz := list_prod_nat _).
  assert (HM : mapM (fun ab : nat * nat => lf_learn L arg phr sz (slice (fst ab) (snd ab) l2') (slice (fst ab) (snd ab) l3')) ranges =
               mapM (fun ab : nat * nat => lf_learn L arg phr sz (slice (fst ab) (snd ab) l2) (slice (fst ab) (snd ab) l3)) ranges).
  { apply mapM_same. intros [lo hi] Hab. cbn [fst snd]. apply In_nth_error in Hab. destruct Hab as (i & Hi).
    destruct (nth_error keys i) as [f|] eqn:Hf. 2: { apply nth_error_None in Hf. assert (nth_error ranges i <> None) by congruence. apply nth_error_Some in H. lia. }
    destruct (G4 i f lo hi Hf Hi) as (-> & ->). destruct (G4' i f lo hi Hf Hi) as (-> & ->).
    assert (HPs : Permutation (samples arg phr data f) (samples arg phr data' f)) by (unfold samples; apply perm_filter, HP).
    apply lf_learn_perm; [exact C1|exact C2| | |exact HPs|exact HL].
    - destruct (proj1 (G3 f) (nth_error_In _ _ Hf)) as (Q & _). intros K0. rewrite K0 in Q. cbn in Q. lia.
    - intros t Ht. unfold samples in Ht. apply filter_In in Ht. destruct Ht as (_ & Ht). destruct t as [[x y] z]. rewrite !andb_true_iff in Ht. cbn. tauto. }
  rewrite HM. reflexivity.
Qed.

(** ** least squares by numpy.linalg.lstsq: whichever minimiser is returned, the learnt model maps every training example to the same vector *)
Lemma sqdist_mid n x y p : (sqdist n x p + sqdist n y p = 2 * sqdist n (fun j => (x j + y j) / 2) p + / 2 * sqdist n x y)%R.
Proof.
  unfold sqdist. rewrite <- !rsum_scal_l, <- !rsum_plus. apply rsum_ext. intros j _. field.
Qed.
Lemma sqdist_nonneg n x y : (0 <= sqdist n x y)%R.
Proof. apply rsum_nonneg. intros. apply Rle_0_sqr. Qed.
Lemma sqdist_zero n x y : sqdist n x y = 0%R -> forall j, j < n -> x j = y j.
Proof.
  intros H j Hj. pose proof (dot_self_zero n (fun j => x j - y j)%R H j Hj) as K. cbn beta in K. lra.
Qed.
Lemma lsum_plus {A} (f g : A -> R) l : lsum (fun t => f t + g t)%R l = (lsum f l + lsum g l)%R.
Proof. unfold lsum. induction l as [|x l IH]; cbn [map fold_right]; [lra|]. rewrite IH. lra. Qed.
Lemma lsum_scal {A} (c : R) (f : A -> R) l : lsum (fun t => c * f t)%R l = (c * lsum f l)%R.
Proof. unfold lsum. induction l as [|x l IH]; cbn [map fold_right]; [lra|]. rewrite IH. lra. Qed.
(** two minimisers of a sum of squared distances, with values x t and y t and midpoint also available *)
Lemma same_fit {A} n (l : list A) (x y : A -> nat -> R) (p : A -> nat -> R) :
  (lsum (fun t => sqdist n (x t) (p t)) l <= lsum (fun t => sqdist n (fun j => (x t j + y t j) / 2) (p t)) l)%R ->
  (lsum (fun t => sqdist n (y t) (p t)) l <= lsum (fun t => sqdist n (fun j => (x t j + y t j) / 2) (p t)) l)%R ->
  forall t, In t l -> forall j, j < n -> x t j = y t j.
Proof.
  intros H1 H2 t Ht j Hj.
  assert (K : lsum (fun t => sqdist n (x t) (y t)) l = 0%R).
  { pose proof (lsum_nonneg (fun t => sqdist n (x t) (y t)) l (fun t _ => sqdist_nonneg n _ _)) as Hp.
    assert (EQ : (lsum (fun t => sqdist n (x t) (p t)) l + lsum (fun t => sqdist n (y t) (p t)) l =
       2 * lsum (fun t => sqdist n (fun j => (x t j + y t j) / 2) (p t)) l + / 2 * lsum (fun t => sqdist n (x t) (y t)) l)%R).
    { rewrite <- lsum_plus, <- !lsum_scal, <- lsum_plus. apply lsum_ext. intros. apply sqdist_mid. }
    lra. }
  pose proof (lsum_zero _ l (fun t _ => sqdist_nonneg n _ _) K t Ht) as Z. cbn beta in Z. exact (sqdist_zero n _ _ Z j Hj).
Qed.

Theorem C76_full_additive_lstsq : forall m ab i0 icpt data data' a s1 s2 sp m1 m2, pinv_correct -> pinv_converges -> lstsq_correct ->
  consistent s1 -> consistent s2 -> consistent sp -> args_of a s1 s2 -> cm_kind m = FAdd ab i0 (Some (LLstsq icpt)) -> Permutation data data' ->
  train m data a sp = (m1, Ok tt) -> train m data' a sp = (m2, Ok tt) ->
  exists A1 B1 A2 B2, cm_kind m1 = FAdd (Some (A1, B1)) icpt (Some (LLstsq icpt)) /\ cm_kind m2 = FAdd (Some (A2, B2)) icpt (Some (LLstsq icpt)) /\
    forall w1 w2 ph, In (w1, w2, ph) data -> usable3 s1 s2 sp (w1, w2, ph) = true -> forall j, j < m_nc (s_mat sp) ->
      fadd_vec (m_nc (s_mat s1)) (m_nc (s_mat s2)) icpt (ment A1) (ment B1) (vec s1 w1) (vec s2 w2) j
      = fadd_vec (m_nc (s_mat s1)) (m_nc (s_mat s2)) icpt (ment A2) (ment B2) (vec s1 w1) (vec s2 w2) j.
Proof.
  intros m ab i0 icpt data data' a s1 s2 sp m1 m2 HP HC HL C1 C2 C3 Ha Hk Hperm T1 T2.
  destruct (C39_optimal m ab i0 (LLstsq icpt) data a s1 s2 sp m1 HP HC HL I C1 C2 C3 Ha Hk T1) as (A1 & B1 & l1 & K1 & U1 & _ & _ & O1).
  destruct (C39_optimal m ab i0 (LLstsq icpt) data' a s1 s2 sp m2 HP HC HL I C1 C2 C3 Ha Hk T2) as (A2 & B2 & l2 & K2 & U2 & _ & _ & O2).
  cbn [uses_lambda has_intercept] in *. subst l1 l2. exists A1, B1, A2, B2. split; [exact K1|]. split; [exact K2|].
  set (w := filter (usable3 s1 s2 sp) data) in *. set (w' := filter (usable3 s1 s2 sp) data') in *.
  assert (HW : Permutation w w') by (apply perm_filter, Hperm).
  set (n1 := m_nc (s_mat s1)). set (n2 := m_nc (s_mat s2)). set (q := m_nc (s_mat sp)).
  assert (HE : forall v A B, fadd_error s1 s2 sp v 0 icpt A B = lsum (fun t => sqdist q (fadd_vec n1 n2 icpt A B (vec s1 (t1 t)) (vec s2 (t2 t))) (vec sp (t3 t))) v).
  { intros v A B. unfold fadd_error. cbv zeta. fold n1 n2 q. rewrite Rmult_0_l, Rplus_0_r. apply lsum_ext. intros [[x y] z] _. reflexivity. }
  assert (HM : forall t, forall j, fadd_vec n1 n2 icpt (fun k c => (ment A1 k c + ment A2 k c) / 2)%R (fun k c => (ment B1 k c + ment B2 k c) / 2)%R (vec s1 (t1 t)) (vec s2 (t2 t)) j
     = ((fadd_vec n1 n2 icpt (ment A1) (ment B1) (vec s1 (t1 t)) (vec s2 (t2 t)) j + fadd_vec n1 n2 icpt (ment A2) (ment B2) (vec s1 (t1 t)) (vec s2 (t2 t)) j) / 2)%R).
  { intros t j. unfold fadd_vec.
    assert (HH : forall n (X Y : nat -> R) (v : nat -> R), rsum n (fun k => (X k + Y k) / 2 * v k)%R = ((rsum n (fun k => X k * v k) + rsum n (fun k => Y k * v k)) / 2)%R).
    { intros n X Y v. rewrite <- rsum_plus. unfold Rdiv. rewrite <- rsum_scal_r. apply rsum_ext. intros; field. }
    rewrite (HH n1 (fun k => ment A1 k j) (fun k => ment A2 k j)), (HH n2 (fun k => ment B1 k j) (fun k => ment B2 k j)). destruct icpt; field. }
  specialize (O1 (fun k c => (ment A1 k c + ment A2 k c) / 2)%R (fun k c => (ment B1 k c + ment B2 k c) / 2)%R).
  specialize (O2 (fun k c => (ment A1 k c + ment A2 k c) / 2)%R (fun k c => (ment B1 k c + ment B2 k c) / 2)%R).
  rewrite !HE in O1, O2. rewrite !(lsum_perm _ w w' HW) in O2.
  assert (HX : lsum (fun t => sqdist q (fadd_vec n1 n2 icpt (fun k c => (ment A1 k c + ment A2 k c) / 2)%R (fun k c => (ment B1 k c + ment B2 k c) / 2)%R (vec s1 (t1 t)) (vec s2 (t2 t))) (vec sp (t3 t))) w
    = lsum (fun t => sqdist q (fun j => (fadd_vec n1 n2 icpt (ment A1) (ment B1) (vec s1 (t1 t)) (vec s2 (t2 t)) j + fadd_vec n1 n2 icpt (ment A2) (ment B2) (vec s1 (t1 t)) (vec s2 (t2 t)) j) / 2)%R (vec sp (t3 t))) w).
  { apply lsum_ext. intros t _. unfold sqdist. apply rsum_ext. intros j _. rewrite HM. reflexivity. }
  rewrite HX in O1, O2. intros w1 w2 ph Hin Hu j Hj.
  exact (same_fit q w _ _ (fun t => vec sp (t3 t)) O1 O2 (w1, w2, ph) (proj2 (filter_In _ _ _) (conj Hin Hu)) j Hj).
Qed.

Theorem C76_lexical_function_lstsq : forall m data data' arg phr m1 m2 icpt, pinv_correct -> pinv_converges -> lstsq_correct ->
  consistent arg -> consistent phr -> lf_learner m = LLstsq icpt ->
  let n := m_nc (s_mat arg) in let n' := domain n icpt in (Z.of_nat (m_nc (s_mat phr)) * Z.of_nat n' < 2 ^ 63)%Z -> Permutation data data' ->
  lf_train m data arg phr = (m1, Ok tt) -> lf_train m data' arg phr = (m2, Ok tt) ->
  exists f1 f2, lf_fs m1 = Some f1 /\ lf_fs m2 = Some f2 /\ s_eshape f2 = s_eshape f1 /\ (forall f, In f (s_id2row f2) <-> In f (s_id2row f1)) /\
    forall f w ph, In f (s_id2row f1) -> In (f, w, ph) data -> known arg w = true -> known phr ph = true -> forall r, r < m_nc (s_mat phr) ->
      apply_fun n icpt (fmatrix f1 f n') (vec arg w) r = apply_fun n icpt (fmatrix f2 f n') (vec arg w) r.
Proof.
  intros m data data' arg phr m1 m2 icpt HP HC HL C1 C2 Hl n n' HZ Hperm T1 T2.
  assert (HI : has_intercept (lf_learner m) = icpt) by (rewrite Hl; reflexivity).
  assert (Hn : domain n (has_intercept (lf_learner m)) = n') by (rewrite HI; reflexivity).
  assert (HZ' : (Z.of_nat (m_nc (s_mat phr)) * Z.of_nat (domain (m_nc (s_mat arg)) (has_intercept (lf_learner m))) < 2 ^ 63)%Z) by (fold n; rewrite Hn; exact HZ).
  assert (HS : forall f, Permutation (samples arg phr data f) (samples arg phr data' f)) by (intros f; apply perm_filter, Hperm).
  destruct (C40_train m data arg phr m1 C1 C2 HZ' T1) as (f1 & E1 & _ & S1 & _ & I1 & _). destruct (C40_train m data' arg phr m2 C1 C2 HZ' T2) as (f2 & E2 & _ & S2 & _ & I2 & _).
  exists f1, f2. assert (F1 : lf_fs m1 = Some f1) by (rewrite E1; reflexivity). assert (F2 : lf_fs m2 = Some f2) by (rewrite E2; reflexivity).
  split; [exact F1|]. split; [exact F2|]. split; [rewrite S1, S2; reflexivity|].
  assert (HI12 : forall f, In f (s_id2row f2) <-> In f (s_id2row f1)) by (intros f; rewrite I1, I2, (Permutation_length (HS f)); reflexivity).
  split; [exact HI12|]. intros f w ph Hf Hin Hw Hph r Hr.
  assert (Hnn : nonneg_params (lf_learner m)) by (rewrite Hl; exact I).
  destruct (C40_optimal m data arg phr m1 f1 HP HC HL Hnn C1 C2 HZ' T1 F1 f Hf) as (l1 & U1 & O1).
  destruct (C40_optimal m data' arg phr m2 f2 HP HC HL Hnn C1 C2 HZ' T2 F2 f (proj2 (HI12 f) Hf)) as (l2 & U2 & O2).
  rewrite Hl in U1, U2. cbn [uses_lambda] in U1, U2. subst l1 l2. rewrite HI in O1, O2. fold n n' in O1, O2.
  set (q := m_nc (s_mat phr)) in *.
  assert (HE : forall v U, lf_cost arg phr v 0 icpt U = lsum (fun t => sqdist q (apply_fun n icpt U (vec arg (t2 t))) (vec phr (t3 t))) v).
  { intros v U. unfold lf_cost. cbv zeta. fold n q. rewrite Rmult_0_l, Rplus_0_r. reflexivity. }
  specialize (O1 (fun i j => (fmatrix f1 f n' i j + fmatrix f2 f n' i j) / 2)%R). specialize (O2 (fun i j => (fmatrix f1 f n' i j + fmatrix f2 f n' i j) / 2)%R).
  rewrite !HE in O1, O2. rewrite !(lsum_perm _ _ _ (HS f)) in O2. set (ss := samples arg phr data f) in *.
  assert (HX : lsum (fun t => sqdist q (apply_fun n icpt (fun i j => (fmatrix f1 f n' i j + fmatrix f2 f n' i j) / 2)%R (vec arg (t2 t))) (vec phr (t3 t))) ss
     = lsum (fun t => sqdist q (fun r => (apply_fun n icpt (fmatrix f1 f n') (vec arg (t2 t)) r + apply_fun n icpt (fmatrix f2 f n') (vec arg (t2 t)) r) / 2)%R (vec phr (t3 t))) ss).
  { apply lsum_ext. intros t _. unfold sqdist. apply rsum_ext. intros j _.
    assert (HA : apply_fun n icpt (fun i j => (fmatrix f1 f n' i j + fmatrix f2 f n' i j) / 2)%R (vec arg (t2 t)) j =
      ((apply_fun n icpt (fmatrix f1 f n') (vec arg (t2 t)) j + apply_fun n icpt (fmatrix f2 f n') (vec arg (t2 t)) j) / 2)%R).
    { unfold apply_fun. assert (HH : rsum n (fun k => (fmatrix f1 f n' j k + fmatrix f2 f n' j k) / 2 * vec arg (t2 t) k)%R
        = ((rsum n (fun k => fmatrix f1 f n' j k * vec arg (t2 t) k) + rsum n (fun k => fmatrix f2 f n' j k * vec arg (t2 t) k)) / 2)%R).
      { rewrite <- rsum_plus. unfold Rdiv. rewrite <- rsum_scal_r. apply rsum_ext. intros; field. }
      rewrite HH. destruct icpt; field. }
    rewrite HA. reflexivity. }
  rewrite HX in O1, O2.
  refine (same_fit q ss _ _ (fun t => vec phr (t3 t)) O1 O2 (f, w, ph) _ r Hr).
  unfold ss, samples. apply filter_In. split; [exact Hin|]. rewrite String.eqb_refl, Hw, Hph. reflexivity.
Qed.
End WithExt.

(** ** examples *)
Definition ex_data_rev : list tuple3 := [("b", "a", "ba"); ("a", "b", "ab"); ("a", "zz", "ab")].
Lemma ex_data_perm : Permutation ex_data ex_data_rev.
Proof. unfold ex_data, ex_data_rev. apply Permutation_sym. apply Permutation_cons_append. Qed.

(** WeightedAdditive does depend on the order when the last chunk is incomplete: 15 phrases, three examples, the third ignored *)
Definition ex_phr15' : space :=
  tsp ["p0"; "p1"; "p2"; "p3"; "p4"; "p5"; "p6"; "p7"; "p8"; "p9"; "p10"; "p11"; "p12"; "p13"; "p14"] 2 (repeat [1; 0]%R 2 ++ [3; 0]%R :: repeat [1; 0]%R 12).
Definition ex3 : list tuple3 := [("a", "b", "p0"); ("a", "b", "p1"); ("a", "b", "p2")].
Definition ex3' : list tuple3 := [("a", "b", "p2"); ("a", "b", "p1"); ("a", "b", "p0")].
Theorem C76_weighted_additive_order_matters : exists m1 m2, Permutation ex3 ex3' /\ consistent ex_arg /\ consistent ex_phr15' /\ @pinv_correct Epi /\
  @train RNum Epi (mk_wadd None None) ex3 (One ex_arg) ex_phr15' = (m1, Ok tt) /\ @train RNum Epi (mk_wadd None None) ex3' (One ex_arg) ex_phr15' = (m2, Ok tt) /\
  cm_kind m1 <> cm_kind m2.
Proof.
  assert (C : consistent ex_phr15').
  { apply tsp_consistent; [nodup|discriminate|lia|reflexivity|repeat constructor]. }
  assert (K : forall d, filter (usable3 ex_arg ex_arg ex_phr15') d <> [] -> exists m', @train RNum Epi (mk_wadd None None) d (One ex_arg) ex_phr15' = (m', Ok tt)).
  { intros d Hd. apply (@C36_total Epi (mk_wadd None None) (1/2)%R (1/2)%R d (One ex_arg) ex_arg ex_arg ex_phr15' Epi_2x2 ex_arg_consistent ex_arg_consistent C
     (or_introl (conj eq_refl eq_refl)) eq_refl eq_refl eq_refl eq_refl Hd). }
  destruct (K ex3 ltac:(discriminate)) as (m1 & H1). destruct (K ex3' ltac:(discriminate)) as (m2 & H2).
  exists m1, m2. split. { apply (Permutation_rev ex3). } split; [exact ex_arg_consistent|]. split; [exact C|]. split; [exact Epi_correct|]. split; [exact H1|]. split; [exact H2|].
  intros HE.
  destruct (@C36_covered_partial Epi (mk_wadd None None) (1/2)%R (1/2)%R ex3 (One ex_arg) ex_arg ex_arg ex_phr15' m1 Epi_correct ex_arg_consistent ex_arg_consistent C
     (or_introl (conj eq_refl eq_refl)) eq_refl eq_refl eq_refl H1) as (al & be & K1 & O1).
  destruct (@C36_covered_partial Epi (mk_wadd None None) (1/2)%R (1/2)%R ex3' (One ex_arg) ex_arg ex_arg ex_phr15' m2 Epi_correct ex_arg_consistent ex_arg_consistent C
     (or_introl (conj eq_refl eq_refl)) eq_refl eq_refl eq_refl H2) as (al' & be' & K2 & O2).
  rewrite K1, K2 in HE. injection HE as <- <-.
  specialize (O1 1%R 0%R). specialize (O2 2%R 0%R).
  change (covered ex_phr15' (filter (usable3 ex_arg ex_arg ex_phr15') ex3)) with [("a", "b", "p0"); ("a", "b", "p1")] in O1.
  change (covered ex_phr15' (filter (usable3 ex_arg ex_arg ex_phr15') ex3')) with [("a", "b", "p2"); ("a", "b", "p1")] in O2.
  revert O1 O2. unfold wadd_error, lsum, sqdist. cbn [map fold_right]. change (m_nc (s_mat ex_phr15')) with 2. cbn [rsum].
  change (vec ex_arg "a" 0) with 1%R. change (vec ex_arg "a" 1) with 0%R. change (vec ex_arg "b" 0) with 0%R. change (vec ex_arg "b" 1) with 1%R.
  change (vec ex_phr15' "p0" 0) with 1%R. change (vec ex_phr15' "p0" 1) with 0%R. change (vec ex_phr15' "p1" 0) with 1%R. change (vec ex_phr15' "p1" 1) with 0%R.
  change (vec ex_phr15' "p2" 0) with 3%R. change (vec ex_phr15' "p2" 1) with 0%R. intros O1 O2.
  assert (al = 1)%R by nra. assert (be = 0)%R by nra. subst. lra.
Qed.

Example C76_example : Permutation ex_data ex_data_rev /\ consistent ex_arg /\ consistent ex_phr /\ args_of (One ex_arg) ex_arg ex_arg /\
  m_nc (s_mat ex_arg) = m_nc (s_mat ex_phr) /\ m_nr (s_mat ex_phr) < 15 /\
  filter (usable3 ex_arg ex_arg ex_phr) ex_data <> filter (usable3 ex_arg ex_arg ex_phr) ex_data_rev /\
  by_ridge (LRidge true true default_range None) (common3 ex_arg ex_arg ex_phr) /\
  (exists m', @train RNum Epi (mk_dil None) ex_data (One ex_arg) ex_phr = (m', Ok tt)) /\
  (exists m', @train RNum Epi (mk_wadd None None) ex_data (One ex_arg) ex_phr = (m', Ok tt)).
Proof.
  split; [exact ex_data_perm|]. split; [exact ex_arg_consistent|]. split; [exact ex_phr_consistent|]. split; [left; auto|]. split; [reflexivity|].
  split; [cbn; lia|]. split; [discriminate|]. split; [exact I|]. split.
  - destruct C37_example as (m' & H). exists m'. tauto.
  - destruct C36_example as (m' & H). exists m'. tauto.
Qed.
(** a LexicalFunction model learns "old" from two examples given in either order *)
Example C76_lf_example : exists m' fs, @lf_train RNum Epi ex_lf [("old", "a", "ab"); ("old", "zz", "ab"); ("red", "a", "ab"); ("old", "b", "ba")] ex_arg1 ex_phr1 = (m', Ok tt) /\
  lf_fs m' = Some fs /\ s_id2row fs = ["old"].
Proof.
  destruct C40_example as (m' & fs & H & Hf & _ & Hr & _). exists m', fs. split; [|auto]. rewrite <- H.
  apply (@C76_lexical_function Epi); [exact ex_arg1_consistent|exact ex_phr1_consistent|exact I|]. apply (Permutation_rev ex_lf_data).
Qed.

(** ** a least squares routine for one or two columns, by the normal equations: the hypotheses on numpy can be met *)
Definition lstsq_small (a b : dmat) : res (nat -> nat -> R) :=
  let k := d_nc a in
  let* P := pinv_small (tab k k (gram (d_nr a) (dent a) (fun _ => 0%R))) in
  Ok (fun i c => rsum k (fun q => P i q * rsum (d_nr a) (fun l => dent a l q * dent b l c))%R).
Definition Els : @Ext RNum := {|
  e_svd := fun _ => Err LinAlgError; e_sparsesvd := fun _ _ => Err LinAlgError; e_pinv := pinv_small; e_lstsq := lstsq_small;
  e_rndcol := fun _ _ => O; e_rndrow := fun _ _ => O; e_timeout := fun _ => false |}.
Lemma Els_pinv : @pinv_correct Els.
Proof. exact Epi_correct. Qed.
Lemma Els_converges : @pinv_converges Els.
Proof. exact Epi_converges. Qed.
Lemma Els_lstsq : @lstsq_correct Els.
Proof.
  intros a b X Wa Wb Hr H Y. cbn [e_lstsq Els] in H. unfold lstsq_small in H. apply bind_ok in H. destruct H as (P & HP & H). injection H as <-.
  set (n := d_nr a) in *. set (k := d_nc a) in *. set (G := gram n (dent a) (fun _ => 0%R)) in *. assert (Hk : 0 < k) by (unfold k; destruct Wa as (_ & Hk & _); exact Hk).
  pose proof (Epi_correct (tab k k G) P (tab_wf k k G Hk Hk) HP) as MP. pose proof (mp_mpm _ _ _ _ MP) as M1. cbn [d_nr d_nc tab] in M1.
  rewrite (rsum_swap n (d_nc b)). rewrite (rsum_swap n (d_nc b) (fun i c => (rsum k (fun k0 => dent a i k0 * Y k0 c) - dent b i c) * (rsum k (fun k0 => dent a i k0 * Y k0 c) - dent b i c))%R).
  apply rsum_le. intros c Hc.
  assert (NE : normal_eq n k (dent a) (fun _ => 0%R) (fun i => dent b i c) (fun i => rsum k (fun q => P i q * rsum n (fun l => dent a l q * dent b l c))%R)).
  { apply (ginv_normal n k (dent a) (fun _ => 0%R)) with (P := P); [intros; lra| |intros; reflexivity].
    intros i j Hi Hj. fold G. rewrite <- (dent_tab k k G i j Hi Hj), <- (M1 i j Hi Hj). apply rsum_ext. intros x Hx. apply rsum_ext. intros y Hy. rewrite !dent_tab by assumption. reflexivity. }
  pose proof (lsq_optimal n k (dent a) (fun _ => 0%R) (fun _ _ => Rle_refl 0) _ _ (fun i => Y i c) NE) as K. unfold lsq in K.
  assert (Z : forall x : nat -> R, rsum k (fun k0 => 0 * (x k0 * x k0))%R = 0%R) by (intros x; apply rsum_zero; intros; ring).
  rewrite (Z (fun i => rsum k (fun q => P i q * rsum n (fun l => dent a l q * dent b l c))%R)), (Z (fun i => Y i c)), !Rplus_0_r in K. exact K.
Qed.
Lemma Els_returns (i : bool) k : k = 1 \/ k = 2 -> @learner_usable Els k (LLstsq i).
Proof. intros Hk a b _ _ Ha _. cbn [e_lstsq Els]. unfold lstsq_small. rewrite Ha. destruct Hk as [-> | ->]; cbn [pinv_small tab d_nr d_nc bind]; eauto. Qed.

(** training by least squares in two orders, on dense spaces *)
Example C76_lstsq_example : exists m1 m2, @pinv_correct Els /\ @pinv_converges Els /\ @lstsq_correct Els /\
  @train RNum Els (mk_fadd None (Some (LLstsq false))) ex_data (One ex_arg1) ex_phr1 = (m1, Ok tt) /\
  @train RNum Els (mk_fadd None (Some (LLstsq false))) ex_data_rev (One ex_arg1) ex_phr1 = (m2, Ok tt).
Proof.
  assert (K : forall d, filter (usable3 ex_arg1 ex_arg1 ex_phr1) d <> [] -> exists m', @train RNum Els (mk_fadd None (Some (LLstsq false))) d (One ex_arg1) ex_phr1 = (m', Ok tt)).
  { intros d Hd. apply (@C39_total Els (mk_fadd None (Some (LLstsq false))) None false (LLstsq false) d (One ex_arg1) ex_arg1 ex_arg1 ex_phr1); try reflexivity.
    - intros x _ Hr Hc. cbn in Hr, Hc. cbn [e_pinv Els]. unfold pinv_small. rewrite Hr, Hc. eauto.
    - apply Els_returns. right. reflexivity.
    - exact ex_arg1_consistent.
    - exact ex_arg1_consistent.
    - exact ex_phr1_consistent.
    - left; auto.
    - exact Hd. }
  destruct (K ex_data ltac:(discriminate)) as (m1 & H1). destruct (K ex_data_rev ltac:(discriminate)) as (m2 & H2). exists m1, m2.
  split; [exact Els_pinv|]. split; [exact Els_converges|]. split; [exact Els_lstsq|]. split; assumption.
Qed.
(** a lexical function learnt by least squares, with an intercept *)
Example C76_lf_lstsq_example : exists m1 m2, lf_learner (LF None false (LLstsq true) [] 2) = LLstsq true /\
  @lf_train RNum Els (LF None false (LLstsq true) [] 2) ex_lf_data ex_arg1 ex_phr1 = (m1, Ok tt) /\
  @lf_train RNum Els (LF None false (LLstsq true) [] 2) (rev ex_lf_data) ex_arg1 ex_phr1 = (m2, Ok tt) /\
  In "old" (match lf_fs m1 with Some fs => s_id2row fs | None => [] end).
Proof.
  set (m := LF None false (LLstsq true) [] 2).
  assert (HZ : (Z.of_nat (m_nc (s_mat ex_phr1)) * Z.of_nat (domain (m_nc (s_mat ex_arg1)) (has_intercept (lf_learner m))) < 2 ^ 63)%Z) by (cbn; lia).
  assert (K : forall d, samples ex_arg1 ex_phr1 d "old" <> [] -> (2 <= Z.of_nat (length (samples ex_arg1 ex_phr1 d "old")))%Z -> exists m', @lf_train RNum Els m d ex_arg1 ex_phr1 = (m', Ok tt)).
  { intros d Hd Hd2. apply (@C40_total Els m d ex_arg1 ex_phr1 "old" ex_arg1_consistent ex_phr1_consistent HZ).
    - intros x _ Hr Hc. cbn in Hr, Hc. cbn [e_pinv Els]. unfold pinv_small. rewrite Hr, Hc. cbn. eauto.
    - apply Els_returns. right. reflexivity.
    - reflexivity.
    - exact Hd.
    - exact Hd2. }
  destruct (K ex_lf_data) as (m1 & H1); [discriminate|cbn; lia|]. destruct (K (rev ex_lf_data)) as (m2 & H2); [discriminate|cbn; lia|].
  exists m1, m2. split; [reflexivity|]. split; [exact H1|]. split; [exact H2|].
  destruct (@C40_train Els m ex_lf_data ex_arg1 ex_phr1 m1 ex_arg1_consistent ex_phr1_consistent HZ H1) as (fs & -> & _ & _ & _ & Hin & _). cbn [lf_fs].
  apply Hin. cbn. lia.
Qed.
