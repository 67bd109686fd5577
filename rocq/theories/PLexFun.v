(** PLexFun.v -- lemmas for the lexical function model: order on strings, reshape, n-ary stacking. *)
From Coq Require Import Reals Lra Psatz Permutation Sorted.
From Coq Require Import Ascii.
From Verif Require Import Base PyList Dict Num SpecReal Dense Sparse Matrix PSparse PMatrix PMatOps PShape PVals PReal PPos PReshape Scaling Linalg
  PLsq Learner Operation Similarity Space Peripheral SpecSpace PDictList PSpace Prop_Periph Composition SpecComp PComp Prop_Ridge Prop_Train Prop_Comp Prop_Fadd Utils Prop_Utils LexFun.
#[local] Existing Instance RNum.
Open Scope string_scope.
Open Scope list_scope.
Open Scope R_scope.
Open Scope nat_scope.

(** ** Python's order on byte strings *)
Lemma scompare_refl s : String.compare s s = Eq.
Proof. induction s as [|a s IH]; cbn; [reflexivity|]. unfold Ascii.compare. rewrite N.compare_refl. exact IH. Qed.
Lemma scompare_trans x : forall y z, String.compare x y = Lt -> String.compare y z = Lt -> String.compare x z = Lt.
Proof.
  induction x as [|a x IH]; intros [|b y] [|c z]; cbn; try congruence.
  unfold Ascii.compare.
  destruct (N.compare_spec (N_of_ascii a) (N_of_ascii b)) as [E1|L1|G1]; try congruence;
  destruct (N.compare_spec (N_of_ascii b) (N_of_ascii c)) as [E2|L2|G2]; try congruence; intros H1 H2.
  - rewrite E1, E2, N.compare_refl. eapply IH; eassumption.
  - rewrite E1. rewrite (proj2 (N.compare_lt_iff _ _) L2). reflexivity.
  - rewrite <- E2. rewrite (proj2 (N.compare_lt_iff _ _) L1). reflexivity.
  - rewrite (proj2 (N.compare_lt_iff _ _) (N.lt_trans _ _ _ L1 L2)). reflexivity.
Qed.
Lemma sltb_swo {A} (k : A -> string) : swo (fun x y => String.ltb (k x) (k y)).
Proof.
  unfold String.ltb. split.
  - intros x. rewrite scompare_refl. reflexivity.
  - intros x y z H1 H2. destruct (String.compare (k x) (k y)) eqn:E1; try discriminate.
    destruct (String.compare (k y) (k z)) eqn:E2; try discriminate. rewrite (scompare_trans _ _ _ E1 E2). reflexivity.
  - intros x y z H1 H2. destruct (String.compare (k x) (k y)) eqn:E1; try discriminate.
    + apply String.compare_eq_iff in E1. rewrite E1. exact H2.
    + destruct (String.compare (k y) (k z)) eqn:E2; try discriminate.
      * apply String.compare_eq_iff in E2. rewrite <- E2, E1. reflexivity.
      * rewrite String.compare_antisym in E1, E2. destruct (String.compare (k y) (k x)) eqn:F1; try discriminate.
        destruct (String.compare (k z) (k y)) eqn:F2; try discriminate.
        rewrite String.compare_antisym, (scompare_trans _ _ _ F2 F1). reflexivity.
Qed.
(** x may come before y in a sorted list *)
Definition sle (x y : string) : Prop := String.ltb y x = false.
Lemma sle_refl x : sle x x.
Proof. unfold sle, String.ltb. rewrite scompare_refl. reflexivity. Qed.
Lemma sle_antisym x y : sle x y -> sle y x -> x = y.
Proof.
  unfold sle, String.ltb. intros H1 H2. rewrite String.compare_antisym in H1.
  destruct (String.compare x y) eqn:E; try discriminate. apply String.compare_eq_iff, E.
Qed.

(** ** lists *)
Lemma sorted_filter {A} (R : A -> A -> Prop) p l : StronglySorted R l -> StronglySorted R (filter p l).
Proof.
  induction 1 as [|x l Hs IH Hf]; cbn; [constructor|]. destruct (p x); [|assumption]. constructor; [assumption|].
  rewrite Forall_forall in *. intros y Hy. apply filter_In in Hy. apply Hf, Hy.
Qed.
Lemma sorted_map {A B} (g : A -> B) (R : B -> B -> Prop) l : StronglySorted (fun x y => R (g x) (g y)) l -> StronglySorted R (map g l).
Proof.
  induction 1 as [|x l Hs IH Hf]; cbn; [constructor|]. constructor; [assumption|].
  rewrite Forall_forall in *. intros y Hy. apply in_map_iff in Hy. destruct Hy as (z & <- & Hz). apply Hf, Hz.
Qed.
Lemma slice_filter {A} (p : A -> bool) l : forall a b, a <= b -> b <= length l ->
  (forall i x, nth_error l i = Some x -> (p x = true <-> a <= i < b)) -> slice a b l = filter p l.
Proof.
  induction l as [|y l IH]; intros a b Hab Hb H.
  - cbn in Hb. replace a with 0 by lia. replace b with 0 by lia. reflexivity.
  - pose proof (H 0 y eq_refl) as H0. cbn in Hb. cbn [filter].
    assert (HS : forall i x, nth_error l i = Some x -> (p x = true <-> a - 1 <= i < b - 1)).
    { intros i x Hx. rewrite (H (S i) x Hx). destruct a; [|lia]. split; [lia|]. intros [K1 K2]. lia. }
    destruct (p y) eqn:Ep.
    + destruct H0 as [H0 _]. specialize (H0 eq_refl). assert (a = 0) by lia. subst a. destruct b as [|b]; [lia|].
      unfold slice. cbn [skipn Nat.sub firstn]. f_equal.
      rewrite <- (IH 0 b); [unfold slice; rewrite Nat.sub_0_r; reflexivity|lia|lia|].
      intros i x Hx. rewrite (HS i x Hx). lia.
    + assert (HN : ~ (a <= 0 < b)) by (intros K; apply H0 in K; discriminate).
      destruct a as [|a].
      * assert (b = 0) by lia. subst b. unfold slice. cbn. symmetry. rewrite <- (IH 0 0); [reflexivity|lia|lia|].
        intros i x Hx. rewrite (HS i x Hx). lia.
      * destruct b as [|b]; [lia|]. unfold slice. cbn [skipn Nat.sub].
        rewrite <- (IH a b); [reflexivity|lia|lia|]. intros i x Hx. rewrite (HS i x Hx). lia.
Qed.
Lemma slice_map' {A B} (g : A -> B) a b l : slice a b (map g l) = map g (slice a b l).
Proof. unfold slice. rewrite <- firstn_map, skipn_map. reflexivity. Qed.
Lemma filter_filter {A} (p q : A -> bool) l : filter p (filter q l) = filter (fun x => q x && p x) l.
Proof.
  induction l as [|x l IH]; cbn; [reflexivity|]. destruct (q x); cbn; [|assumption]. destruct (p x); rewrite IH; reflexivity.
Qed.
Lemma prod_snoc l n : list_prod_nat (l ++ [n]) = list_prod_nat l * n.
Proof. unfold list_prod_nat. rewrite fold_left_app. reflexivity. Qed.

(** a threshold below 1 acts as 1 *)
Lemma low_fold {A} (eqb : A -> A -> bool) (l : list A) k : (k <= 1)%Z -> forall n a prev rs, prev < a ->
  fold_left (part_step eqb l k) (seq a n) (prev, rs) = fold_left (part_step eqb l 1) (seq a n) (prev, rs) /\
  fst (fold_left (part_step eqb l 1) (seq a n) (prev, rs)) < a + n.
Proof.
  intros Hk. induction n as [|n IH]; intros a prev rs Hp; cbn [seq fold_left]; [split; [reflexivity|cbn; lia]|].
  assert (Hs : part_step eqb l k (prev, rs) a = part_step eqb l 1 (prev, rs) a).
  { unfold part_step. destruct (differs eqb l a); [|reflexivity].
    destruct (Z.leb_spec k (Z.of_nat a - Z.of_nat prev)); [|lia]. destruct (Z.leb_spec 1 (Z.of_nat a - Z.of_nat prev)); [|lia]. reflexivity. }
  rewrite Hs. destruct (part_step eqb l 1 (prev, rs) a) as [prev' rs'] eqn:Es.
  assert (Hp' : prev' < S a) by (unfold part_step in Es; destruct (differs eqb l a); injection Es as <- _; lia).
  destruct (IH (S a) prev' rs' Hp') as (I1 & I2). split; [exact I1|]. eapply Nat.lt_le_trans; [exact I2|lia].
Qed.
Lemma get_partitions_low {A} (eqb : A -> A -> bool) (l : list A) k : l <> [] -> (k <= 1)%Z -> get_partitions eqb l k = get_partitions eqb l 1.
Proof.
  intros Hl Hk. unfold get_partitions. destruct l as [|x l]; [congruence|]. set (L := x :: l).
  assert (HL : 0 < length L) by (cbn; lia).
  destruct (low_fold eqb L k Hk (length L - 1) 1 0 [] ltac:(lia)) as (E1 & E2). rewrite E1.
  destruct (fold_left (part_step eqb L 1) (seq 1 (length L - 1)) (0, [])) as [prev rs]. cbn [fst] in E2.
  destruct (Z.leb_spec k (Z.of_nat (length L) - Z.of_nat prev)); [|lia]. destruct (Z.leb_spec 1 (Z.of_nat (length L) - Z.of_nat prev)); [|lia]. reflexivity.
Qed.

(** ** matrices *)
Lemma vals_reshape a t r c f r' c' : vals a t r c f -> (Z.of_nat r * Z.of_nat c < 2 ^ 63)%Z -> r * c = r' * c' ->
  exists z, m_reshape a r' c' = Ok z /\ vals z t r' c' (fun i j => f ((i * c' + j) / c) ((i * c' + j) mod c)).
Proof.
  intros Va Hs He. pose proof (vals_pos _ _ _ _ _ Va) as (Hr & Hc). assert (0 < r' /\ 0 < c') as [Hr' Hc'] by nia.
  pose proof (vals_nr _ _ _ _ _ Va) as Nr. pose proof (vals_nc _ _ _ _ _ Va) as Nc. pose proof (vals_type _ _ _ _ _ Va) as Ty.
  pose proof (vals_wf _ _ _ _ _ Va) as W.
  assert (HB : forall i j, i < r' -> j < c' -> (i * c' + j) / c < r /\ (i * c' + j) mod c < c).
  { intros i j Hi Hj. split; [apply Nat.div_lt_upper_bound; nia|apply Nat.mod_upper_bound; lia]. }
  destruct a as [d|s]; cbn [m_reshape m_nr m_nc type_of] in *; subst t.
  - rewrite Nr, Nc, He, Nat.eqb_refl. cbn [check bind]. eexists. split; [reflexivity|]. unfold d_reshape. cbv zeta.
    eapply vals_ext; [exact (vals_of_dense TDense r' c' _ Hr' Hc')|]. intros i j Hi Hj. cbn beta.
    rewrite Nc. destruct (HB i j Hi Hj) as [B1 B2]. exact (vals_ent _ _ _ _ _ _ _ Va B1 B2).
  - destruct (s_reshape_value s r' c' W) as (z & Ez & Wz & Rz & Cz & Hz); [rewrite Nr, Nc; exact Hs|rewrite Nr, Nc; exact He|].
    rewrite Ez. cbn [rmap bind]. eexists. split; [reflexivity|]. split; [split; [exact Wz|split; [reflexivity|split; [exact Rz|exact Cz]]]|].
    intros i j Hi Hj. cbn [ment]. rewrite (Hz i j Hi Hj), Nc. destruct (HB i j Hi Hj) as [B1 B2].
    exact (vals_ent _ _ _ _ _ _ _ Va B1 B2).
Qed.
Lemma reshape_reject a t r c f r' c' : vals a t r c f -> r * c <> r' * c' -> m_reshape a r' c' = Err ValueError.
Proof.
  intros Va He. pose proof (vals_nr _ _ _ _ _ Va) as Nr. pose proof (vals_nc _ _ _ _ _ Va) as Nc.
  destruct a as [d|s]; cbn [m_reshape m_nr m_nc] in *.
  - rewrite Nr, Nc. apply Nat.eqb_neq in He. rewrite He. reflexivity.
  - rewrite s_reshape_reject by (rewrite Nr, Nc; exact He). reflexivity.
Qed.

Definition common_type (ta tb : mtype) (size1 size2 : nat) : mtype :=
  if mtype_eqb ta tb then ta else if Nat.ltb size1 size2 then tb else ta.
Lemma resolve2_largest a b ta tb r1 c1 r2 c2 f g : vals a ta r1 c1 f -> vals b tb r2 c2 g ->
  exists a' b', resolve2 a b (get_type_of_largest [a; b]) = Ok (a', b') /\
    vals a' (common_type ta tb (r1 * c1) (r2 * c2)) r1 c1 f /\ vals b' (common_type ta tb (r1 * c1) (r2 * c2)) r2 c2 g.
Proof.
  intros Ha Hb. pose proof (vals_pos _ _ _ _ _ Ha) as (P1 & P2).
  unfold get_type_of_largest. cbn [largest_aux].
  rewrite (vals_type _ _ _ _ _ Ha), (vals_type _ _ _ _ _ Hb), (vals_nr _ _ _ _ _ Ha), (vals_nr _ _ _ _ _ Hb), (vals_nc _ _ _ _ _ Ha), (vals_nc _ _ _ _ _ Hb).
  destruct (Nat.ltb_spec 0 (r1 * c1)); [|nia]. unfold common_type.
  destruct (mtype_eqb ta tb) eqn:Et.
  - apply mtype_eqb_eq in Et. subst tb. exists a, b.
    rewrite resolve2_same by (rewrite (vals_type _ _ _ _ _ Ha), (vals_type _ _ _ _ _ Hb); reflexivity). auto.
  - set (t := if Nat.ltb (r1 * c1) (r2 * c2) then tb else ta).
    exists (conv t a), (conv t b). split; [|split; eapply vals_conv; eassumption].
    unfold resolve2, resolve_type_conflict, type_conflict. cbn [existsb]. rewrite (vals_type _ _ _ _ _ Ha), (vals_type _ _ _ _ _ Hb).
    unfold t. destruct (Nat.ltb (r1 * c1) (r2 * c2)), ta, tb; cbn in Et |- *; try discriminate; reflexivity.
Qed.

Lemma nary_vals t c (vs : list matrix) : forall f : nat -> nat -> R, vs <> [] ->
  (forall i v, nth_error vs i = Some v -> vals v t 1 c (fun _ j => f i j)) ->
  exists z, nary_vstack t vs = Ok z /\ vals z t (length vs) c f.
Proof.
  induction vs as [|v vs IH]; intros f Hne H; [congruence|].
  pose proof (H 0 v eq_refl) as H0. cbn beta in H0.
  destruct vs as [|v' vs].
  - cbn [nary_vstack]. eexists. split; [reflexivity|]. cbn [length].
    eapply vals_ext; [eapply vals_conv; exact H0|]. intros i j Hi Hj. replace i with 0 by lia. reflexivity.
  - destruct (IH (fun i j => f (S i) j)) as (r & Er & Vr); [discriminate|intros i w Hw; exact (H (S i) w Hw)|].
    change (nary_vstack t (v :: v' :: vs)) with (let* r := nary_vstack t (v' :: vs) in m_vstack (conv t v) r).
    rewrite Er. cbn [bind]. destruct (vals_vstack (conv t v) r t 1 _ c _ _ (vals_conv t v _ _ _ _ H0) Vr) as (z & Ez & Vz).
    exists z. split; [exact Ez|]. cbn [length]. change (S (S (length vs))) with (1 + S (length vs)).
    eapply vals_ext; [exact Vz|]. intros i j Hi Hj. cbn beta. destruct i; [reflexivity|]. cbn [Nat.ltb Nat.leb]. 
    replace (S i - 1) with i by lia. destruct (Nat.leb_spec (S (S i)) 1); [lia|reflexivity].
Qed.

Lemma common_scale ta tb k n p : 0 < k -> common_type ta tb (k * n) (k * p) = common_type ta tb n p.
Proof.
  intros Hk. unfold common_type. destruct (mtype_eqb ta tb); [reflexivity|].
  destruct (Nat.ltb_spec (k * n) (k * p)), (Nat.ltb_spec n p); try reflexivity; nia.
Qed.

Section WithExt.
Context {E : @Ext RNum}.
Lemma ridge_shape a b t n dim m f g lambda icpt x tr dist : vals a t n dim f -> vals b t n m g ->
  ridge_regression a b lambda icpt = Ok (x, tr, dist) -> has x t (xdim dim icpt) m.
Proof.
  intros Ha Hb. pose proof (vals_pos _ _ _ _ _ Ha) as (Hn & Hdim). pose proof (vals_pos _ _ _ _ _ Hb) as (_ & Hm).
  assert (Hx : 0 < xdim dim icpt) by (unfold xdim; destruct icpt; lia).
  unfold ridge_regression.
  rewrite same_type_same by (rewrite (vals_type _ _ _ _ _ Ha), (vals_type _ _ _ _ _ Hb); reflexivity).
  unfold assert_same_nr.
  assert (EN : Nat.eqb (m_nr a) (m_nr b) = true) by (rewrite (vals_nr _ _ _ _ _ Ha), (vals_nr _ _ _ _ _ Hb); apply Nat.eqb_refl).
  rewrite EN. cbn [check bind].
  destruct (pad_vals a t n dim f icpt Ha) as (a' & -> & Va). cbn [bind]. rewrite (vals_type _ _ _ _ _ Ha), (vals_nc _ _ _ _ _ Ha).
  assert (HL : exists l', (if icpt then let* p := padd_matrix (m_scal lambda (m_identity t dim)) 0 f0 in padd_matrix p 1 f0 else Ok (m_scal lambda (m_identity t dim))) = Ok l'
     /\ has l' t (xdim dim icpt) (xdim dim icpt)).
  { pose proof (vals_scal lambda _ t dim dim _ (vals_identity t dim Hdim)) as Vi. unfold xdim. destruct icpt.
    - destruct (padd0_vals _ t dim dim _ f0 Vi) as (p & -> & Vp). cbn [bind].
      destruct (padd1_vals p t (dim + 1) dim _ f0 Vp) as (q & -> & Vq). exists q. split; [reflexivity|exact (vals_has _ _ _ _ _ Vq)].
    - exists (m_scal lambda (m_identity t dim)). split; [reflexivity|exact (vals_has _ _ _ _ _ Vi)]. }
  destruct HL as (l' & -> & Vl). cbn [bind].
  pose proof (vals_transpose a' t n _ _ Va) as Vt.
  destruct (vals_mul _ a' t _ n _ _ _ Vt Va) as (ata & -> & Vata). cbn [bind].
  destruct (vals_add ata l' t _ _ _ _ Vata (vals_of _ _ _ _ Vl)) as (reg & -> & Vreg). cbn [bind].
  intros H. apply bind_ok in H. destruct H as (tmp & Et & H).
  assert (Htmp : has tmp t (xdim dim icpt) (xdim dim icpt)).
  { destruct (linalg_pinv reg) as [p|e] eqn:Ep.
    - injection Et as <-. exact (linalg_pinv_has reg p t _ _ (vals_has _ _ _ _ _ Vreg) Ep).
    - destruct e; try discriminate. injection Et as <-.
      assert (Enr : m_nr l' = xdim dim icpt) by exact (vals_nr _ _ _ _ _ (vals_of _ _ _ _ Vl)).
      rewrite Enr. exact (vals_has _ _ _ _ _ (vals_identity t _ Hx)). }
  destruct (vals_mul tmp _ t _ _ n _ _ (vals_of _ _ _ _ Htmp) Vt) as (tr' & Etr & Vtr). rewrite Etr in H. cbn [bind] in H.
  destruct (vals_mul tr' b t _ n m _ _ Vtr Hb) as (X & EX & VX). rewrite EX in H. cbn [bind] in H.
  apply bind_ok in H. destruct H as (y1 & _ & H). apply bind_ok in H. destruct H as (y2 & _ & H). apply bind_ok in H. destruct H as (y3 & _ & H).
  injection H as <- _ _. exact (vals_has _ _ _ _ _ VX).
Qed.

(** shape and type of what a learner returns *)
Lemma learner_shape L a b t n dim m f g X : vals a t n dim f -> vals b t n m g -> learner_train L a b = Ok X ->
  has X t (xdim dim (has_intercept L)) m.
Proof.
  intros Va Vb H. destruct L as [i|i [|] rg p]; cbn [learner_train has_intercept] in *.
  - unfold lstsq_regression in H.
    apply bind_ok in H. destruct H as (y0 & _ & H). apply bind_ok in H. destruct H as (y1 & _ & H).
    destruct (pad_vals a t n dim f i Va) as (a' & E1 & Va'). rewrite E1 in H. cbn [bind] in H.
    destruct a' as [d|c].
    + apply bind_ok in H. destruct H as (x & Hx & H). injection H as <-.
      pose proof (vals_type _ _ _ _ _ Va') as Ht. cbn in Ht. subst t.
      pose proof (vals_nc _ _ _ _ _ Va') as Dc. cbn [m_nc] in Dc.
      pose proof (vals_pos _ _ _ _ _ Va') as (Hn & Hd). pose proof (vals_pos _ _ _ _ _ Vb) as (_ & Hm).
      rewrite Dc, (vals_nc _ _ _ _ _ Vb). exact (vals_has _ _ _ _ _ (vals_of_dense TDense (xdim dim i) m x Hd Hm)).
    + apply bind_ok in H. destruct H as ([[x tr] dist] & Hr & H). injection H as <-. cbn [fst].
      exact (ridge_shape _ b t n (xdim dim i) m _ g f0 false x tr dist Va' Vb Hr).
  - apply bind_ok in H. destruct H as (q & _ & H). apply bind_ok in H. destruct H as ([[x tr] dist] & Hr & H). injection H as <-. cbn [fst].
    exact (ridge_shape a b t n dim m f g q i x tr dist Va Vb Hr).
  - destruct p as [p|]; [|apply bind_ok in H; destruct H as (? & _ & H); apply bind_ok in H; destruct H as (? & _ & H); discriminate].
    apply bind_ok in H. destruct H as ([[x tr] dist] & Hr & H). injection H as <-. cbn [fst].
    exact (ridge_shape a b t n dim m f g _ i x tr dist Va Vb Hr).
Qed.
End WithExt.
