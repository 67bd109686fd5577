(** Prop_Recover.v -- property C82: training on phrases that the model can express reproduces them, and recovers the
    parameters when the examples determine them. *)
From Coq Require Import Reals Lra Psatz.
From Verif Require Import Base PyList Dict Num SpecReal Dense Sparse Matrix PSparse PMatrix PMatOps PShape PVals PReal PPos Scaling Linalg
  PLsq Learner Operation Similarity Space Peripheral SpecSpace PDictList PSpace Prop_Periph Composition SpecComp PComp Prop_Ridge Prop_Train Prop_Comp Prop_Fadd
  Utils Prop_Utils LexFun PLexFun Prop_LexFun Prop_TrainOrder.
#[local] Existing Instance RNum.
Open Scope string_scope.
Open Scope list_scope.
Open Scope R_scope.
Open Scope nat_scope.

(** ** specification *)
(** [f u v] is the vector of the phrase, for every example *)
Definition expresses (s1 s2 sp : space) (l : list tuple3) (f : (nat -> R) -> (nat -> R) -> nat -> R) : Prop :=
  forall w1 w2 ph j, In (w1, w2, ph) l -> j < m_nc (s_mat sp) -> f (vec s1 w1) (vec s2 w2) j = vec sp ph j.
(** the three families of functions *)
Definition weighted_sum (al be : R) (u v : nat -> R) (j : nat) : R := (al * u j + be * v j)%R.
Definition dilated (n : nat) (la : R) (u v : nat -> R) (j : nat) : R := (dot n u u * v j + (la - 1) * dot n u v * u j)%R.
(** a learner that minimises the plain squared error *)
Definition unregularised (L : learner) : Prop :=
  match L with
  | LLstsq _ => True
  | LRidge _ false _ (Some p) => p = 0%R
  | _ => False
  end.
(** every occurrence of the composed space's row i is the vector f gives *)
Definition composes_to (s1 s2 : space) (data : list tuple3) (s : space) (n : nat) (f : (nat -> R) -> (nat -> R) -> nat -> R) : Prop :=
  m_nc (s_mat s) = n /\ forall i w1 w2 ph j, nth_error (filter (usable2 s1 s2) data) i = Some (w1, w2, ph) -> j < n ->
    ment (s_mat s) i j = f (vec s1 w1) (vec s2 w2) j.
(** a composed phrase that is also an example of [l] gets the vector of that example's phrase *)
Definition reproduces (s1 s2 sp : space) (l data : list tuple3) (s : space) : Prop :=
  m_nc (s_mat s) = m_nc (s_mat sp) /\ forall i w1 w2 ph ph' j, nth_error (filter (usable2 s1 s2) data) i = Some (w1, w2, ph) -> In (w1, w2, ph') l -> j < m_nc (s_mat sp) ->
    ment (s_mat s) i j = vec sp ph' j.

Lemma lsum_all_zero {A} (f : A -> R) l : (forall x, In x l -> f x = 0%R) -> lsum f l = 0%R.
Proof. intros H. unfold lsum. induction l as [|x l IH]; cbn [map fold_right]; [reflexivity|]. rewrite (H x (or_introl eq_refl)), IH; [lra|]. intros y Hy. apply H. right. exact Hy. Qed.
Lemma sqdist_same n u v : (forall j, j < n -> u j = v j) -> sqdist n u v = 0%R.
Proof. intros H. unfold sqdist. apply rsum_zero. intros j Hj. rewrite (H j Hj). ring. Qed.
Lemma expresses_zero s1 s2 sp l f : expresses s1 s2 sp l f ->
  lsum (fun '(w1, w2, ph) => sqdist (m_nc (s_mat sp)) (f (vec s1 w1) (vec s2 w2)) (vec sp ph)) l = 0%R.
Proof. intros H. apply lsum_all_zero. intros [[w1 w2] ph] Hi. apply sqdist_same. intros j Hj. exact (H w1 w2 ph j Hi Hj). Qed.
Lemma zero_expresses s1 s2 sp l f :
  (lsum (fun '(w1, w2, ph) => sqdist (m_nc (s_mat sp)) (f (vec s1 w1) (vec s2 w2)) (vec sp ph)) l <= 0)%R -> expresses s1 s2 sp l f.
Proof.
  intros H w1 w2 ph j Hi Hj.
  assert (N : forall x, In x l -> (0 <= (fun '(w1, w2, ph) => sqdist (m_nc (s_mat sp)) (f (vec s1 w1) (vec s2 w2)) (vec sp ph)) x)%R) by (intros [[a b] c] _; apply sqdist_nonneg).
  pose proof (lsum_zero _ l N (Rle_antisym _ _ H (lsum_nonneg _ l N)) _ Hi) as Z. cbn beta iota in Z. exact (sqdist_zero _ _ _ Z j Hj).
Qed.
Lemma reproduce_of s1 s2 sp l data s n f : n = m_nc (s_mat sp) -> composes_to s1 s2 data s n f -> expresses s1 s2 sp l f -> reproduces s1 s2 sp l data s.
Proof.
  intros -> (Hc & He) Hx. split; [exact Hc|]. intros i w1 w2 ph ph' j Hi Hl Hj. rewrite (He i w1 w2 ph j Hi Hj). exact (Hx w1 w2 ph' j Hl Hj).
Qed.

Section WithExt.
Context {E : @Ext RNum}.

(** ** WeightedAdditive: the examples are the ones its training looks at ([covered], property C36) *)
Theorem C82_weighted_additive : forall m al0 be0 data a s1 s2 sp m' x y, pinv_correct -> consistent s1 -> consistent s2 -> consistent sp -> args_of a s1 s2 ->
  m_nc (s_mat s1) = m_nc (s_mat sp) -> m_nc (s_mat s2) = m_nc (s_mat sp) -> cm_kind m = WAdd al0 be0 ->
  train m data a sp = (m', Ok tt) ->
  let l := covered sp (filter (usable3 s1 s2 sp) data) in
  expresses s1 s2 sp l (weighted_sum x y) ->
  exists al be, cm_kind m' = WAdd al be /\ expresses s1 s2 sp l (weighted_sum al be) /\
    (forall data2 m'' s, compose m' data2 a = (m'', Ok s) -> reproduces s1 s2 sp l data2 s) /\
    ((forall p q, expresses s1 s2 sp l (weighted_sum p q) -> p = x /\ q = y) ->
       al = x /\ be = y /\ forall data2 m'' s, compose m' data2 a = (m'', Ok s) -> composes_to s1 s2 data2 s (m_nc (s_mat sp)) (weighted_sum x y)).
Proof.
  intros m al0 be0 data a s1 s2 sp m' x y HP C1 C2 C3 Ha H1 H2 Hk H l Hx.
  destruct (C36_covered_partial m al0 be0 data a s1 s2 sp m' HP C1 C2 C3 Ha H1 H2 Hk H) as (al & be & Hm & Ho). exists al, be. split; [exact Hm|].
  fold l in Ho. assert (Hl : expresses s1 s2 sp l (weighted_sum al be)).
  { apply zero_expresses. eapply Rle_trans; [exact (Ho x y)|]. apply Req_le. exact (expresses_zero _ _ _ _ _ Hx). }
  assert (Hc : forall data2 m'' s, compose m' data2 a = (m'', Ok s) -> composes_to s1 s2 data2 s (m_nc (s_mat sp)) (weighted_sum al be)).
  { intros data2 m'' s Hs. destruct (C35_weighted_additive m' al be data2 a s1 s2 m'' s Hm C1 C2 Ha (eq_trans H1 (eq_sym H2)) Hs) as (Hw & He). rewrite H1 in Hw, He. split; [exact Hw|]. exact He. }
  split; [exact Hl|]. split; [intros; eapply reproduce_of; [reflexivity|eapply Hc; eassumption|exact Hl]|].
  intros Hu. destruct (Hu al be Hl) as (-> & ->). split; [reflexivity|]. split; [reflexivity|exact Hc].
Qed.

(** ** Dilation: all usable examples *)
Theorem C82_dilation : forall m la0 data a s1 s2 sp m' x, consistent s1 -> consistent s2 -> consistent sp -> args_of a s1 s2 ->
  m_nc (s_mat s1) = m_nc (s_mat sp) -> m_nc (s_mat s2) = m_nc (s_mat sp) -> cm_kind m = Dil la0 ->
  train m data a sp = (m', Ok tt) ->
  let n := m_nc (s_mat sp) in let l := filter (usable3 s1 s2 sp) data in
  expresses s1 s2 sp l (dilated n x) ->
  exists la, cm_kind m' = Dil la /\ expresses s1 s2 sp l (dilated n la) /\
    (forall data2 m'' s, compose m' data2 a = (m'', Ok s) -> reproduces s1 s2 sp l data2 s) /\
    ((forall p, expresses s1 s2 sp l (dilated n p) -> p = x) ->
       la = x /\ forall data2 m'' s, compose m' data2 a = (m'', Ok s) -> composes_to s1 s2 data2 s n (dilated n x)).
Proof.
  intros m la0 data a s1 s2 sp m' x C1 C2 C3 Ha H1 H2 Hk H n l Hx.
  destruct (C37_optimal m la0 data a s1 s2 sp m' C1 C2 C3 Ha H1 H2 Hk H) as (la & Hm & Ho). exists la. split; [exact Hm|].
  fold l in Ho. assert (Hl : expresses s1 s2 sp l (dilated n la)).
  { apply zero_expresses. eapply Rle_trans; [exact (Ho x)|]. apply Req_le. exact (expresses_zero _ _ _ _ _ Hx). }
  assert (Hc : forall data2 m'' s, compose m' data2 a = (m'', Ok s) -> composes_to s1 s2 data2 s n (dilated n la)).
  { intros data2 m'' s Hs. destruct (C35_dilation m' la data2 a s1 s2 m'' s Hm C1 C2 Ha (eq_trans H1 (eq_sym H2)) Hs) as (Hw & He). rewrite H1 in Hw, He. split; [exact Hw|]. exact He. }
  split; [exact Hl|]. split; [intros; eapply reproduce_of; [reflexivity|eapply Hc; eassumption|exact Hl]|].
  intros Hu. pose proof (Hu la Hl) as ->. split; [reflexivity|exact Hc].
Qed.

(** one example whose two words are not orthogonal determines the dilation *)
Theorem C82_dilation_determined : forall s1 s2 sp l x w1 w2 ph, let n := m_nc (s_mat sp) in
  expresses s1 s2 sp l (dilated n x) -> In (w1, w2, ph) l -> dot n (vec s1 w1) (vec s2 w2) <> 0%R ->
  forall p, expresses s1 s2 sp l (dilated n p) -> p = x.
Proof.
  intros s1 s2 sp l x w1 w2 ph n Hx Hi Hd p Hp.
  destruct (Req_dec p x) as [K|K]; [exact K|]. exfalso. apply Hd. unfold dot. apply rsum_zero. intros j Hj.
  pose proof (Hx w1 w2 ph j Hi Hj) as A. pose proof (Hp w1 w2 ph j Hi Hj) as B. unfold dilated in A, B.
  assert (D : ((p - x) * (dot n (vec s1 w1) (vec s2 w2) * vec s1 w1 j) = 0)%R) by lra.
  apply Rmult_integral in D. destruct D as [D|D]; [exfalso; apply K; lra|]. apply Rmult_integral in D. destruct D as [D|D]; [contradiction|rewrite D; ring].
Qed.

(** ** FullAdditive with a learner without regularisation *)
Lemma unreg_lambda L lambda : unregularised L -> uses_lambda L lambda -> lambda = 0%R.
Proof. destruct L as [i|i [|] rg [p|]]; cbn; intros H K; try contradiction; congruence. Qed.
Lemma unreg_nonneg L : unregularised L -> nonneg_params L.
Proof. destruct L as [i|i [|] rg [p|]]; cbn; intros H; try contradiction; trivial. rewrite H. lra. Qed.

Theorem C82_full_additive : forall m ab i0 L data a s1 s2 sp m' A B, pinv_correct -> pinv_converges -> lstsq_correct -> unregularised L ->
  consistent s1 -> consistent s2 -> consistent sp -> args_of a s1 s2 -> cm_kind m = FAdd ab i0 (Some L) ->
  train m data a sp = (m', Ok tt) ->
  let n1 := m_nc (s_mat s1) in let n2 := m_nc (s_mat s2) in let l := filter (usable3 s1 s2 sp) data in let icpt := has_intercept L in
  expresses s1 s2 sp l (fadd_vec n1 n2 icpt A B) ->
  exists At Bt, cm_kind m' = FAdd (Some (At, Bt)) icpt (Some L) /\ m_nr At = n1 /\ m_nr Bt = (if icpt then n2 + 1 else n2) /\
    m_nc At = m_nc (s_mat sp) /\ m_nc Bt = m_nc (s_mat sp) /\
    expresses s1 s2 sp l (fadd_vec n1 n2 icpt (ment At) (ment Bt)) /\
    (forall data2 m'' s, compose m' data2 a = (m'', Ok s) -> reproduces s1 s2 sp l data2 s) /\
    ((forall P Q, expresses s1 s2 sp l (fadd_vec n1 n2 icpt P Q) ->
        (forall k j, k < n1 -> j < m_nc (s_mat sp) -> P k j = A k j) /\ (forall k j, k < (if icpt then n2 + 1 else n2) -> j < m_nc (s_mat sp) -> Q k j = B k j)) ->
      (forall k j, k < n1 -> j < m_nc (s_mat sp) -> ment At k j = A k j) /\ (forall k j, k < (if icpt then n2 + 1 else n2) -> j < m_nc (s_mat sp) -> ment Bt k j = B k j) /\
      forall data2 m'' s, compose m' data2 a = (m'', Ok s) -> composes_to s1 s2 data2 s (m_nc (s_mat sp)) (fadd_vec n1 n2 icpt A B)).
Proof.
  intros m ab i0 L data a s1 s2 sp m' A B HP HC HL HU C1 C2 C3 Ha Hk H n1 n2 l icpt Hx.
  destruct (C39_optimal m ab i0 L data a s1 s2 sp m' HP HC HL (unreg_nonneg L HU) C1 C2 C3 Ha Hk H) as (At & Bt & lambda & Hm & Hla & Hf & Hn & Ho).
  pose proof (unreg_lambda L lambda HU Hla) as ->. exists At, Bt. split; [exact Hm|]. pose proof Hf as Hf'. rewrite Hm in Hf'. cbn [fits] in Hf'. destruct Hf' as (_ & _ & F1 & F2 & F3).
  split; [exact F1|]. split; [exact F2|]. split; [exact Hn|]. split; [congruence|].
  fold l icpt in Ho. assert (Hl : expresses s1 s2 sp l (fadd_vec n1 n2 icpt (ment At) (ment Bt))).
  { apply zero_expresses. specialize (Ho A B). unfold fadd_error in Ho. cbv zeta in Ho. fold n1 n2 in Ho. rewrite !Rmult_0_l, !Rplus_0_r in Ho.
    eapply Rle_trans; [exact Ho|]. apply Req_le. exact (expresses_zero _ _ _ _ _ Hx). }
  assert (Hc : forall data2 m'' s, compose m' data2 a = (m'', Ok s) -> composes_to s1 s2 data2 s (m_nc (s_mat sp)) (fadd_vec n1 n2 icpt (ment At) (ment Bt))).
  { intros data2 m'' s Hs. destruct (C35_full_additive m' At Bt icpt (Some L) data2 a s1 s2 m'' s Hm C1 C2 Ha Hf Hs) as (Hw & He). rewrite Hn in Hw, He. split; [exact Hw|]. exact He. }
  split; [exact Hl|]. split; [intros; eapply reproduce_of; [reflexivity|eapply Hc; eassumption|exact Hl]|].
  intros Hu. destruct (Hu _ _ Hl) as (UA & UB). split; [exact UA|]. split; [exact UB|].
  intros data2 m'' s Hs. destruct (Hc data2 m'' s Hs) as (Hw & He). split; [exact Hw|]. intros i w1 w2 ph j Hi Hj. rewrite (He i w1 w2 ph j Hi Hj). unfold fadd_vec.
  f_equal; [f_equal|].
  - apply rsum_ext. intros k Hk'. rewrite (UA k j Hk' Hj). reflexivity.
  - apply rsum_ext. intros k Hk'. rewrite (UB k j); [reflexivity|destruct icpt; lia|exact Hj].
  - destruct icpt; [apply UB; [lia|exact Hj]|reflexivity].
Qed.

(** ** LexicalFunction with a learner without regularisation: each function word on its own samples *)
(** U is the function of every sample of [ss] *)
Definition lf_expresses (arg phr : space) (ss : list tuple3) (icpt : bool) (U : nat -> nat -> R) : Prop :=
  forall f w ph r, In (f, w, ph) ss -> r < m_nc (s_mat phr) -> apply_fun (m_nc (s_mat arg)) icpt U (vec arg w) r = vec phr ph r.

Theorem C82_lexical_function : forall m data arg phr m' fs f U, pinv_correct -> pinv_converges -> lstsq_correct -> unregularised (lf_learner m) ->
  consistent arg -> consistent phr ->
  let L := lf_learner m in let n := m_nc (s_mat arg) in let icpt := has_intercept L in let n' := domain n icpt in let p := m_nc (s_mat phr) in
  (Z.of_nat p * Z.of_nat n' < 2 ^ 63)%Z ->
  lf_train m data arg phr = (m', Ok tt) -> lf_fs m' = Some fs -> In f (s_id2row fs) ->
  let ss := samples arg phr data f in
  lf_expresses arg phr ss icpt U ->
  lf_expresses arg phr ss icpt (fmatrix fs f n') /\
  (in_range fs -> forall data2 s, lf_compose m' data2 arg = Ok s -> s_eshape s = s_eshape phr /\
     forall i w ph ph' r, nth_error (filter (usable2 fs arg) data2) i = Some (f, w, ph) -> In (f, w, ph') ss -> r < p -> ment (s_mat s) i r = vec phr ph' r) /\
  ((forall V, lf_expresses arg phr ss icpt V -> forall r j, r < p -> j < n' -> V r j = U r j) ->
     forall r j, r < p -> j < n' -> fmatrix fs f n' r j = U r j).
Proof.
  intros m data arg phr m' fs f U HP HC HL HU C1 C2 L n icpt n' p HZ H Hfs Hf ss Hx.
  assert (Hl : lf_expresses arg phr ss icpt (fmatrix fs f n')).
  { destruct (C40_optimal m data arg phr m' fs HP HC HL (unreg_nonneg _ HU) C1 C2 HZ H Hfs f Hf) as (lambda & Hla & Ho).
    pose proof (unreg_lambda _ lambda HU Hla) as ->. specialize (Ho U). fold L icpt n n' ss in Ho. unfold lf_cost in Ho. cbv zeta in Ho. fold n p in Ho. rewrite !Rmult_0_l, !Rplus_0_r in Ho.
    set (g := fun V (t : tuple3) => rsum p (fun r => (apply_fun n icpt V (vec arg (t2 t)) r - vec phr (t3 t) r) * (apply_fun n icpt V (vec arg (t2 t)) r - vec phr (t3 t) r))%R).
    change (lsum (g (fmatrix fs f n')) ss <= lsum (g U) ss)%R in Ho.
    assert (Z : lsum (g U) ss = 0%R).
    { apply lsum_all_zero. intros [[f0 w] ph] Hi. unfold g. cbn [t2 t3 fst snd]. apply rsum_zero. intros r Hr. pose proof (Hx f0 w ph r Hi Hr) as K. fold n in K. rewrite K. ring. }
    rewrite Z in Ho.
    assert (N : forall t, In t ss -> (0 <= g (fmatrix fs f n') t)%R) by (intros t _; apply rsum_nonneg; intros; apply Rle_0_sqr).
    intros f0 w ph r Hi Hr. pose proof (lsum_zero _ ss N (Rle_antisym _ _ Ho (lsum_nonneg _ ss N)) _ Hi) as G. unfold g in G. cbn [t2 t3 fst snd] in G.
    pose proof (rsum_nonneg_zero p _ (fun i _ => Rle_0_sqr _) G r Hr) as D. cbn beta in D. apply Rsqr_0_uniq in D. fold n. lra. }
  split; [exact Hl|]. split.
  - intros HR data2 s Hs. destruct (C40_train m data arg phr m' C1 C2 HZ H) as (fs' & Hm' & Cf & Hsh & _ & _ & _). assert (EF : fs' = fs) by (rewrite Hm' in Hfs; cbn in Hfs; congruence). subst fs'.
    assert (Hi' : lf_icpt m' = icpt) by (rewrite Hm'; reflexivity).
    destruct (C41_compose m' fs data2 arg s Cf C1 HR Hfs Hs) as (_ & Hsh2 & _ & _ & _ & He). rewrite Hi' in Hsh2, He. fold L n icpt n' in Hsh. fold n n' in Hsh2, He.
    rewrite Hsh in Hsh2. apply app_inj_tail in Hsh2. destruct Hsh2 as (Hsh2 & _). split; [auto|].
    intros i w ph ph' r Hi Hin Hr. rewrite <- Hsh2 in He. rewrite (He i f w ph r Hi); [exact (Hl f w ph' r Hin Hr)|].
    rewrite <- size_prod. destruct C2 as (_&_&_&_&_&_&_&Hp&_). rewrite Hp. exact Hr.
  - intros Hu. exact (Hu _ Hl).
Qed.
End WithExt.

(** ** examples: the hypotheses hold, and the parameters are determined *)
Ltac tuples H := cbn [In] in H; repeat match type of H with _ \/ _ => destruct H as [H|H] end; try contradiction H; injection H as <- <- <-.
Ltac coords j Hj := destruct j as [|[|j]]; [| |exfalso; cbn in Hj; lia].
Lemma ex_usable : filter (usable3 ex_arg ex_arg ex_phr) ex_data = [("a", "b", "ab"); ("b", "a", "ba")].
Proof. reflexivity. Qed.
(** "ab" is 2 a + 3 b and "ba" is 2 b + 3 a: training learns 2 and 3 *)
Example C82_weighted_additive_example : exists m', @train RNum Epi (mk_wadd None None) ex_data (One ex_arg) ex_phr = (m', Ok tt) /\ cm_kind m' = WAdd 2%R 3%R.
Proof.
  destruct C36_example as (m' & HP & C1 & C3 & Ha & Hn & _ & _ & H). exists m'. split; [exact H|].
  assert (EC : covered ex_phr (filter (usable3 ex_arg ex_arg ex_phr) ex_data) = [("a", "b", "ab"); ("b", "a", "ba")]) by reflexivity.
  destruct (@C82_weighted_additive Epi (mk_wadd None None) (1/2)%R (1/2)%R ex_data (One ex_arg) ex_arg ex_arg ex_phr m' 2%R 3%R HP C1 C1 C3 Ha Hn Hn eq_refl H) as (al & be & Hm & _ & _ & Hu).
  - rewrite EC. intros w1 w2 ph j Hi Hj. change (m_nc (s_mat ex_phr)) with 2 in Hj. tuples Hi; coords j Hj; cbv - [Rplus Rmult]; try (f_equal; ring); ring.
  - destruct Hu as (-> & -> & _); [|exact Hm]. rewrite EC. intros p q Hpq.
    pose proof (Hpq "a" "b" "ab" 0 (or_introl eq_refl) ltac:(cbn; lia)) as P0. pose proof (Hpq "a" "b" "ab" 1 (or_introl eq_refl) ltac:(cbn; lia)) as P1.
    cbv - [Rplus Rmult IZR] in P0, P1. change (@F RNum) with R in *. lra.
Qed.
Definition ex_phr_dil : space := tsp ["aa"; "ab"] 2 [[5; 0]; [0; 1]]%R.
Lemma ex_phr_dil_consistent : consistent ex_phr_dil.
Proof. apply tsp_consistent; [nodup|discriminate|lia|reflexivity|repeat constructor]. Qed.
Example C82_dilation_example : exists m', @train RNum Epi (mk_dil None) [("a", "a", "aa"); ("a", "zz", "ab"); ("a", "b", "ab")] (One ex_arg) ex_phr_dil = (m', Ok tt) /\ cm_kind m' = Dil 5%R.
Proof.
  set (data := [("a", "a", "aa"); ("a", "zz", "ab"); ("a", "b", "ab")]).
  assert (Ha : args_of (One ex_arg) ex_arg ex_arg) by (left; auto).
  destruct (@C37_total Epi (mk_dil None) 2%R data (One ex_arg) ex_arg ex_arg ex_phr_dil ex_arg_consistent ex_arg_consistent ex_phr_dil_consistent Ha eq_refl eq_refl eq_refl eq_refl) as (m' & H); [discriminate|].
  exists m'. split; [exact H|].
  assert (EU : filter (usable3 ex_arg ex_arg ex_phr_dil) data = [("a", "a", "aa"); ("a", "b", "ab")]) by reflexivity.
  assert (HX : expresses ex_arg ex_arg ex_phr_dil (filter (usable3 ex_arg ex_arg ex_phr_dil) data) (dilated (m_nc (s_mat ex_phr_dil)) 5%R)).
  { rewrite EU. intros w1 w2 ph j Hi Hj. change (m_nc (s_mat ex_phr_dil)) with 2 in *. tuples Hi; coords j Hj; cbv - [Rplus Rmult Rminus IZR]; change (@F RNum) with R; lra. }
  destruct (@C82_dilation Epi (mk_dil None) 2%R data (One ex_arg) ex_arg ex_arg ex_phr_dil m' 5%R ex_arg_consistent ex_arg_consistent ex_phr_dil_consistent Ha eq_refl eq_refl eq_refl H HX) as (la & Hm & _ & _ & Hu).
  destruct Hu as (-> & _); [|exact Hm].
  apply (C82_dilation_determined ex_arg ex_arg ex_phr_dil _ 5%R "a" "a" "aa" HX); [rewrite EU; left; reflexivity|]. cbv - [Rplus Rmult IZR]. change (@F RNum) with R. lra.
Qed.
(** FullAdditive on one-dimensional words and two-dimensional phrases, with LstsqRegressionLearner *)
Example C82_full_additive_example : exists m' At Bt, @train RNum Els (mk_fadd None (Some (LLstsq false))) ex_data (One ex_arg1) ex_phr1 = (m', Ok tt) /\
  cm_kind m' = FAdd (Some (At, Bt)) false (Some (LLstsq false)) /\
  ment At 0 0 = (4/3)%R /\ ment Bt 0 0 = (1/3)%R /\ ment At 0 1 = (1/3)%R /\ ment Bt 0 1 = (4/3)%R.
Proof.
  assert (Ha : args_of (One ex_arg1) ex_arg1 ex_arg1) by (left; auto).
  destruct (@C39_total Els (mk_fadd None (Some (LLstsq false))) None false (LLstsq false) ex_data (One ex_arg1) ex_arg1 ex_arg1 ex_phr1) as (m' & H).
  - intros d _ Hr Hc. cbn in Hr, Hc. cbn [e_pinv Els]. unfold pinv_small. rewrite Hr, Hc. eauto.
  - intros a b Wa Wb Hc Hr. cbn in Hc. cbn [e_lstsq Els]. unfold lstsq_small. rewrite Hc. unfold pinv_small. cbn [d_nr d_nc tab]. cbn [bind]. eauto.
  - exact ex_arg1_consistent.
  - exact ex_arg1_consistent.
  - exact ex_phr1_consistent.
  - exact Ha.
  - reflexivity.
  - reflexivity.
  - discriminate.
  - assert (EU : filter (usable3 ex_arg1 ex_arg1 ex_phr1) ex_data = [("a", "b", "ab"); ("b", "a", "ba")]) by reflexivity.
    destruct (@C82_full_additive Els (mk_fadd None (Some (LLstsq false))) None false (LLstsq false) ex_data (One ex_arg1) ex_arg1 ex_arg1 ex_phr1 m'
      (fun _ j => if Nat.eqb j 0 then (4/3)%R else (1/3)%R) (fun _ j => if Nat.eqb j 0 then (1/3)%R else (4/3)%R)
      Els_pinv Els_converges Els_lstsq I ex_arg1_consistent ex_arg1_consistent ex_phr1_consistent Ha eq_refl H) as (At & Bt & Hm & _ & _ & _ & _ & Hx & _ & _).
    + rewrite EU. intros w1 w2 ph j Hi Hj. change (m_nc (s_mat ex_phr1)) with 2 in Hj.
      tuples Hi; coords j Hj; cbv - [Rplus Rmult Rdiv IZR]; change (@F RNum) with R; field.
    + exists m', At, Bt. split; [exact H|]. split; [exact Hm|]. rewrite EU in Hx.
      revert Hx. generalize (ment At) (ment Bt). intros f g Hx.
      pose proof (Hx "a" "b" "ab" 0 (or_introl eq_refl) ltac:(cbn; lia)) as P0. pose proof (Hx "a" "b" "ab" 1 (or_introl eq_refl) ltac:(cbn; lia)) as P1.
      pose proof (Hx "b" "a" "ba" 0 (or_intror (or_introl eq_refl)) ltac:(cbn; lia)) as P2. pose proof (Hx "b" "a" "ba" 1 (or_intror (or_introl eq_refl)) ltac:(cbn; lia)) as P3.
      cbv - [Rplus Rmult IZR] in P0, P1, P2, P3. change (@F RNum) with R in *. repeat split; lra.
Qed.
(** LexicalFunction with an intercept: "old" maps 1 to (2, 3) and 2 to (3, 2), so its matrix is ((1, 1), (-1, 4)) *)
Definition ex_lf0 : lexfun := LF None false (LLstsq true) [] 2.
Example C82_lexical_function_example : exists m' fs, @lf_train RNum Els ex_lf0 ex_lf_data ex_arg1 ex_phr1 = (m', Ok tt) /\ lf_fs m' = Some fs /\
  In "old" (s_id2row fs) /\ fmatrix fs "old" 2 0 0 = 1%R /\ fmatrix fs "old" 2 0 1 = 1%R /\ fmatrix fs "old" 2 1 0 = (-1)%R /\ fmatrix fs "old" 2 1 1 = 4%R.
Proof.
  assert (HZ : (Z.of_nat (m_nc (s_mat ex_phr1)) * Z.of_nat (domain (m_nc (s_mat ex_arg1)) (has_intercept (lf_learner ex_lf0))) < 2 ^ 63)%Z) by (cbn; lia).
  destruct (@C40_total Els ex_lf0 ex_lf_data ex_arg1 ex_phr1 "old" ex_arg1_consistent ex_phr1_consistent HZ) as (m' & H).
  - intros d _ Hr Hc. cbn in Hr, Hc. cbn [e_pinv Els]. unfold pinv_small. rewrite Hr, Hc. eauto.
  - intros a b Wa Wb Hc Hr. cbn in Hc. cbn [e_lstsq Els]. unfold lstsq_small. rewrite Hc. unfold pinv_small. cbn [d_nr d_nc tab]. cbn [bind]. eauto.
  - reflexivity.
  - discriminate.
  - cbn. lia.
  - destruct (@C40_train Els ex_lf0 ex_lf_data ex_arg1 ex_phr1 m' ex_arg1_consistent ex_phr1_consistent HZ H) as (fs & Hf & _ & Hs & Hnd & Hin & _).
    assert (Hfs : lf_fs m' = Some fs) by (rewrite Hf; reflexivity).
    assert (Ho : In "old" (s_id2row fs)) by (apply Hin; cbn; lia).
    exists m', fs. split; [exact H|]. split; [exact Hfs|]. split; [exact Ho|].
    assert (ES : samples ex_arg1 ex_phr1 ex_lf_data "old" = [("old", "b", "ba"); ("old", "a", "ab")]) by reflexivity.
    destruct (@C82_lexical_function Els ex_lf0 ex_lf_data ex_arg1 ex_phr1 m' fs "old" (fun r j => match r, j with 1, 0 => (-1)%R | 1, _ => 4%R | _, _ => 1%R end)
      Els_pinv Els_converges Els_lstsq I ex_arg1_consistent ex_phr1_consistent HZ H Hfs Ho) as (_ & _ & Hu).
    + rewrite ES. intros f w ph r Hi Hr. change (m_nc (s_mat ex_phr1)) with 2 in Hr. tuples Hi; coords r Hr; cbv - [Rplus Rmult IZR]; change (@F RNum) with R; lra.
    + cbv zeta in Hu. change (m_nc (s_mat ex_phr1)) with 2 in Hu. change (domain (m_nc (s_mat ex_arg1)) (has_intercept (lf_learner ex_lf0))) with 2 in Hu.
      assert (K : forall r j, r < 2 -> j < 2 -> fmatrix fs "old" 2 r j = match r, j with 1, 0 => (-1)%R | 1, _ => 4%R | _, _ => 1%R end).
      { apply Hu. rewrite ES. intros V HV.
        pose proof (HV "old" "b" "ba" 0 (or_introl eq_refl) ltac:(cbn; lia)) as P0. pose proof (HV "old" "b" "ba" 1 (or_introl eq_refl) ltac:(cbn; lia)) as P1.
        pose proof (HV "old" "a" "ab" 0 (or_intror (or_introl eq_refl)) ltac:(cbn; lia)) as P2. pose proof (HV "old" "a" "ab" 1 (or_intror (or_introl eq_refl)) ltac:(cbn; lia)) as P3.
        cbv - [Rplus Rmult IZR] in P0, P1, P2, P3. change (@F RNum) with R in *. intros r j Hr Hj. coords r Hr; coords j Hj; lra. }
      repeat split; rewrite K by lia; reflexivity.
Qed.
