(** Prop_Tensor.v -- C101: lexical functions of two arguments, learnt and applied one argument at a time (src/examples/ex19.py). *)
From Coq Require Import Reals Lra Psatz.
From Verif Require Import Base PyList Dict Num SpecReal Dense Sparse Matrix PSparse PMatrix PMatOps PShape PVals PReal PPos Scaling Linalg
  PLsq Learner Operation Similarity Space Peripheral SpecSpace PDictList PSpace Prop_Periph Composition SpecComp PComp Prop_Ridge Prop_Train Prop_Comp Prop_Fadd
  Utils Prop_Utils LexFun PLexFun Prop_LexFun Prop_TrainOrder Prop_Recover.
#[local] Existing Instance RNum.
Open Scope string_scope.
Open Scope list_scope.
Open Scope R_scope.
Open Scope nat_scope.

(** ** specification *)
(** vector [v] of [n] coordinates followed by a 1 *)
Definition padded (n : nat) (v : nat -> R) (j : nat) : R := if Nat.ltb j n then v j else 1%R.
(** sum over j and k of  T i j k s_j o_k;  with an intercept the argument has one more coordinate, which is 1 *)
Definition contract (n1 : nat) (i1 : bool) (n2 : nat) (i2 : bool) (T : nat -> nat -> nat -> R) (s o : nat -> R) (i : nat) : R :=
  rsum (domain n1 i1) (fun j => rsum (domain n2 i2) (fun k => T i j k * padded n1 s j * padded n2 o k))%R.
(** the three-dimensional array stored, row after row, in the vector of function word [w]; the last dimensions are [a] and [b] *)
Definition tensor (fs : space) (w : string) (a b : nat) (i j k : nat) : R := vec fs w ((i * a + j) * b + k).
(** the arguments of the samples determine a linear (affine) function: no non-zero one vanishes on all of them *)
Definition determining (arg : space) (icpt : bool) (ss : list tuple3) : Prop :=
  forall c : nat -> R, (forall f w ph, In (f, w, ph) ss -> rsum (domain (m_nc (s_mat arg)) icpt) (fun j => c j * padded (m_nc (s_mat arg)) (vec arg w) j)%R = 0%R) ->
  forall j, j < domain (m_nc (s_mat arg)) icpt -> c j = 0%R.

Lemma size_app a b : size (a ++ b) = size a * size b.
Proof.
  induction a as [|x a IH]; [change (size b = 1 * size b); lia|]. change (x * size (a ++ b) = x * size a * size b). rewrite IH. lia.
Qed.
Lemma size_one x : size [x] = x.
Proof. unfold size. cbn. lia. Qed.
Lemma consistent_size s : consistent s -> m_nc (s_mat s) = size (s_eshape s).
Proof. intros (_&_&_&_&_&_&_&Hp&_). rewrite <- Hp. apply size_prod. Qed.
Lemma row_unique s w i j : consistent s -> nth_error (s_id2row s) i = Some w -> nth_error (s_id2row s) j = Some w -> i = j.
Proof. intros (_&_&_&(Hn&_)&_) A B. apply (proj1 (NoDup_nth_error (s_id2row s)) Hn); [apply nth_error_Some; congruence|congruence]. Qed.
Lemma vec_row s w p j : consistent s -> nth_error (s_id2row s) p = Some w -> vec s w j = ment (s_mat s) p j.
Proof.
  intros C H. unfold vec. destruct (pos_of_In _ w (nth_error_In _ _ H)) as (q & Hq). rewrite Hq.
  rewrite (row_unique s w q p C (pos_of_some _ _ _ Hq) H). reflexivity.
Qed.

Section WithExt.
Context {E : @Ext RNum}.

Lemma compose_vec m fs data arg s w1 w2 ph r : consistent fs -> consistent arg -> in_range fs -> lf_fs m = Some fs -> lf_compose m data arg = Ok s ->
  In (w1, w2, ph) (filter (usable2 fs arg) data) -> r < size (s_eshape s) ->
  let n := m_nc (s_mat arg) in vec s ph r = apply_fun n (lf_icpt m) (fmatrix fs w1 (domain n (lf_icpt m))) (vec arg w2) r.
Proof.
  intros C1 C2 HZ Hf H Hi Hr n. destruct (C41_compose m fs data arg s C1 C2 HZ Hf H) as (Cs & _ & _ & Hrow & _ & He).
  apply In_nth_error in Hi. destruct Hi as (i & Hi). refine (eq_trans _ (He i w1 w2 ph r Hi Hr)). apply vec_row; [exact Cs|].
  rewrite Hrow. apply (map_nth_error t3 _ _ Hi).
Qed.

(** ** applying both arguments *)
Theorem C101_compose : forall m fs data objs vo icpt m1 data1 subjs svo, consistent fs -> consistent objs -> consistent subjs -> in_range fs ->
  0 < domain (m_nc (s_mat objs)) (lf_icpt m) -> lf_fs m = Some fs ->
  lf_compose m data objs = Ok vo -> mk_lexfun (Some vo) (Some icpt) None = Ok m1 -> lf_compose m1 data1 subjs = Ok svo ->
  let n1 := m_nc (s_mat subjs) in let n2 := m_nc (s_mat objs) in let a := domain n1 icpt in let b := domain n2 (lf_icpt m) in
  consistent svo /\ s_eshape fs = s_eshape svo ++ [a; b] /\ m_nc (s_mat svo) = size (s_eshape svo) /\
  s_id2row svo = map t3 (filter (usable2 vo subjs) data1) /\ s_id2col svo = [] /\
  (forall w, known vo w = true <-> exists verb obj, In (verb, obj, w) (filter (usable2 fs objs) data)) /\
  forall i w subj ph verb obj r, nth_error (filter (usable2 vo subjs) data1) i = Some (w, subj, ph) ->
    In (verb, obj, w) (filter (usable2 fs objs) data) -> r < size (s_eshape svo) ->
    ment (s_mat svo) i r = contract n1 icpt n2 (lf_icpt m) (tensor fs verb a b) (vec subjs subj) (vec objs obj) r.
Proof.
  intros m fs data objs vo icpt m1 data1 subjs svo Cf Co Cs HZ Hb Hf H1 Hm H2 n1 n2 a b. fold n2 b in Hb.
  destruct (C41_compose m fs data objs vo Cf Co HZ Hf H1) as (Cv & Hsh & Hnc & Hrow & Hcol & _). fold n2 b in Hsh.
  assert (Em : m1 = LF (Some vo) icpt (mk_lstsq None) [] 1) by (cbn in Hm; congruence).
  assert (HZ1 : in_range vo).
  { unfold in_range in *. rewrite (consistent_size fs Cf), Hsh, size_app in HZ. rewrite size_one in HZ. rewrite Hnc. nia. }
  assert (Hf1 : lf_fs m1 = Some vo) by (rewrite Em; reflexivity). assert (Hi1 : lf_icpt m1 = icpt) by (rewrite Em; reflexivity).
  assert (Hc1 : lf_cols m1 = []) by (rewrite Em; reflexivity).
  destruct (C41_compose m1 vo data1 subjs svo Cv Cs HZ1 Hf1 H2) as (Cw & Hsh1 & Hnc1 & Hrow1 & Hcol1 & He1). rewrite Hi1 in Hsh1, He1. fold n1 a in Hsh1, He1.
  split; [exact Cw|]. split; [rewrite Hsh, Hsh1, <- app_assoc; reflexivity|]. split; [exact Hnc1|]. split; [exact Hrow1|]. split; [congruence|]. split.
  { intros w. rewrite known_In, Hrow, in_map_iff. split.
    - intros ([[v o] w'] & Ew & Hi). cbn [t3 snd] in Ew. subst w'. eauto.
    - intros (v & o & Hi). exists (v, o, w). auto. }
  intros i w subj ph verb obj r Hi Hin Hr. rewrite (He1 i w subj ph r Hi Hr). rewrite <- apply_pad. unfold contract. apply rsum_ext. intros j Hj.
  assert (Hq : r * a + j < size (s_eshape vo)) by (rewrite Hsh1, size_app; rewrite size_one; fold a in Hj; nia).
  unfold fmatrix at 1. rewrite (compose_vec m fs data objs vo verb obj w (r * a + j) Cf Co HZ Hf H1 Hin Hq). fold n2 b.
  rewrite <- apply_pad. fold b. rewrite <- rsum_scal_r. apply rsum_ext. intros k Hk. unfold fmatrix, tensor, padded. change (@F RNum) with R. ring.
Qed.

(** with the intercept flag of other functions than those the first step leaves, the second step raises *)
Theorem C101_wrong_intercept : forall m fs data objs vo m1 data1 subjs icpt sh i, consistent fs -> consistent objs -> consistent subjs -> in_range fs ->
  lf_fs m = Some fs -> 0 < domain (m_nc (s_mat objs)) (lf_icpt m) ->
  s_eshape fs = sh ++ [domain (m_nc (s_mat subjs)) i; domain (m_nc (s_mat objs)) (lf_icpt m)] ->
  lf_compose m data objs = Ok vo -> mk_lexfun (Some vo) (Some icpt) None = Ok m1 -> icpt <> i -> data1 <> [] -> lf_compose m1 data1 subjs = Err ValueError.
Proof.
  intros m fs data objs vo m1 data1 subjs icpt sh i Cf Co Cs HZ Hf Hb Hsh H1 Hm Hi Hd.
  destruct (C41_compose m fs data objs vo Cf Co HZ Hf H1) as (Cv & Hsh1 & Hnc & _).
  assert (Em : m1 = LF (Some vo) icpt (mk_lstsq None) [] 1) by (cbn in Hm; congruence).
  assert (HZ1 : in_range vo).
  { unfold in_range in *. rewrite (consistent_size fs Cf), Hsh1, size_app in HZ. rewrite size_one in HZ. rewrite Hnc. nia. }
  assert (Hv : s_eshape vo = sh ++ [domain (m_nc (s_mat subjs)) i]).
  { rewrite Hsh in Hsh1. change [domain (m_nc (s_mat subjs)) i; domain (m_nc (s_mat objs)) (lf_icpt m)] with ([domain (m_nc (s_mat subjs)) i] ++ [domain (m_nc (s_mat objs)) (lf_icpt m)]) in Hsh1.
    rewrite app_assoc in Hsh1. apply app_inj_tail in Hsh1. destruct Hsh1 as (K & _). auto. }
  apply (C41_dimension_mismatch m1 vo data1 subjs sh _ Cv Cs HZ1 ltac:(rewrite Em; reflexivity) Hv); [|exact Hd].
  rewrite Em. cbn [lf_icpt]. unfold domain. destruct icpt, i; try congruence; lia.
Qed.

(** both steps succeed when the shapes fit and the phrases named are distinct *)
Theorem C101_total : forall m fs data objs icpt data1 subjs sh, consistent fs -> consistent objs -> consistent subjs -> in_range fs ->
  lf_fs m = Some fs -> lf_cols m = [] -> 0 < domain (m_nc (s_mat objs)) (lf_icpt m) -> sh <> [] ->
  s_eshape fs = sh ++ [domain (m_nc (s_mat subjs)) icpt; domain (m_nc (s_mat objs)) (lf_icpt m)] ->
  filter (usable2 fs objs) data <> [] -> NoDup (map t3 (filter (usable2 fs objs) data)) ->
  (exists w subj ph verb obj, In (w, subj, ph) data1 /\ known subjs subj = true /\ In (verb, obj, w) (filter (usable2 fs objs) data)) -> NoDup (map t3 data1) ->
  exists vo m1 svo, lf_compose m data objs = Ok vo /\ mk_lexfun (Some vo) (Some icpt) None = Ok m1 /\ lf_compose m1 data1 subjs = Ok svo.
Proof.
  intros m fs data objs icpt data1 subjs sh Cf Co Cs HZ Hf Hc Hb Hne Hsh Hd Hnd Hd1 Hnd1.
  assert (Hsh' : s_eshape fs = (sh ++ [domain (m_nc (s_mat subjs)) icpt]) ++ [domain (m_nc (s_mat objs)) (lf_icpt m)]) by (rewrite <- app_assoc; exact Hsh).
  destruct (C41_total m fs data objs _ Cf Co HZ Hf Hsh') as (vo & H1).
  - left. intros K. apply (f_equal (@length _)) in K. rewrite app_length in K. cbn in K. lia.
  - exact Hd.
  - exact Hnd.
  - rewrite Hc. constructor.
  - left. exact Hc.
  - destruct (C41_compose m fs data objs vo Cf Co HZ Hf H1) as (Cv & Hsh1 & Hnc & Hrow & _).
    rewrite Hsh' in Hsh1. apply app_inj_tail in Hsh1. destruct Hsh1 as (Hv & _).
    assert (HZ1 : in_range vo).
    { unfold in_range in *. rewrite (consistent_size fs Cf), Hsh', size_app in HZ. rewrite size_one in HZ. rewrite Hnc, <- Hv. nia. }
    exists vo, (LF (Some vo) icpt (mk_lstsq None) [] 1).
    destruct (C41_total (LF (Some vo) icpt (mk_lstsq None) [] 1) vo data1 subjs sh Cv Cs HZ1 eq_refl (eq_sym Hv)) as (svo & H2).
    + left. exact Hne.
    + destruct Hd1 as (w & subj & ph & verb & obj & Hi & Hk & Ho). intros K.
      assert (X : In (w, subj, ph) (filter (usable2 vo subjs) data1)).
      { apply filter_In. split; [exact Hi|]. unfold usable2. rewrite Hk, andb_true_r. apply known_In. rewrite Hrow. exact (in_map t3 _ _ Ho). }
      rewrite K in X. exact X.
    + clear - Hnd1. induction data1 as [|t l IH]; [constructor|]. cbn [map] in Hnd1. inversion Hnd1 as [|? ? N1 N2]; subst. cbn [filter].
      destruct (usable2 vo subjs t); [|exact (IH N2)]. cbn [map]. constructor; [|exact (IH N2)].
      intros K. apply N1. apply in_map_iff in K. destruct K as (u & <- & Hu). apply filter_In in Hu. apply in_map, (proj1 Hu).
    + constructor.
    + left. reflexivity.
    + exists svo. auto.
Qed.

(** ** learning both arguments *)
(** samples that determine a function determine its matrix *)
Lemma determining_unique arg phr icpt ss U V : determining arg icpt ss -> lf_expresses arg phr ss icpt U -> lf_expresses arg phr ss icpt V ->
  forall r j, r < m_nc (s_mat phr) -> j < domain (m_nc (s_mat arg)) icpt -> V r j = U r j.
Proof.
  intros D HU HV r j Hr Hj. enough (K : (V r j - U r j = 0)%R) by lra.
  apply (D (fun j => (V r j - U r j)%R)); [|exact Hj]. intros f w ph Hi.
  pose proof (HU f w ph r Hi Hr) as A. pose proof (HV f w ph r Hi Hr) as B. rewrite <- apply_pad in A, B.
  assert (EQ : rsum (domain (m_nc (s_mat arg)) icpt) (fun j => (V r j - U r j) * padded (m_nc (s_mat arg)) (vec arg w) j)%R =
    (rsum (domain (m_nc (s_mat arg)) icpt) (fun j => V r j * (if Nat.ltb j (m_nc (s_mat arg)) then vec arg w j else 1)) - rsum (domain (m_nc (s_mat arg)) icpt) (fun j => U r j * (if Nat.ltb j (m_nc (s_mat arg)) then vec arg w j else 1)))%R).
  { rewrite <- rsum_minus. apply rsum_ext. intros k _. unfold padded. change (@F RNum) with R. ring. }
  rewrite EQ. change (@F RNum) with R in *. lra.
Qed.

(** the sentences of the samples of [verb]'s phrases are those tensor [T] gives *)
Definition generated_by (T : nat -> nat -> nat -> R) (i1 i2 : bool) (subjs objs vps sents : space) (d1 d2 : list tuple3) (verb : string) : Prop :=
  forall o vo s ph r, In (verb, o, vo) (samples objs vps d2 verb) -> In (vo, s, ph) (samples subjs sents d1 vo) -> r < m_nc (s_mat sents) ->
    vec sents ph r = contract (m_nc (s_mat subjs)) i1 (m_nc (s_mat objs)) i2 T (vec subjs s) (vec objs o) r.

Theorem C101_learn : forall mp d1 subjs sents mp' fs1 mv d2 objs mv' fs2 verb T, pinv_correct -> pinv_converges -> lstsq_correct ->
  unregularised (lf_learner mp) -> unregularised (lf_learner mv) -> consistent subjs -> consistent objs -> consistent sents ->
  let i1 := has_intercept (lf_learner mp) in let i2 := has_intercept (lf_learner mv) in
  let n1 := m_nc (s_mat subjs) in let n2 := m_nc (s_mat objs) in let p := m_nc (s_mat sents) in let a := domain n1 i1 in let b := domain n2 i2 in
  (Z.of_nat p * Z.of_nat a * Z.of_nat b < 2 ^ 63)%Z -> 0 < b ->
  lf_train mp d1 subjs sents = (mp', Ok tt) -> lf_fs mp' = Some fs1 ->
  lf_train mv d2 objs fs1 = (mv', Ok tt) -> lf_fs mv' = Some fs2 -> In verb (s_id2row fs2) ->
  generated_by T i1 i2 subjs objs fs1 sents d1 d2 verb ->
  (forall o vo, In (verb, o, vo) (samples objs fs1 d2 verb) -> determining subjs i1 (samples subjs sents d1 vo)) ->
  determining objs i2 (samples objs fs1 d2 verb) ->
  consistent fs2 /\ lf_icpt mv' = i2 /\ lf_cols mv' = [] /\ in_range fs2 /\ s_eshape fs2 = s_eshape sents ++ [a; b] /\
  forall r j k, r < p -> j < a -> k < b -> tensor fs2 verb a b r j k = T r j k.
Proof.
  intros mp d1 subjs sents mp' fs1 mv d2 objs mv' fs2 verb T HP HC HL U1 U2 Cs Co Cp i1 i2 n1 n2 p a b HZ Hb Ht1 Hf1 Ht2 Hf2 Hv HT D1 D2.
  assert (HZ1 : (Z.of_nat p * Z.of_nat a < 2 ^ 63)%Z) by nia.
  destruct (C40_train mp d1 subjs sents mp' Cs Cp HZ1 Ht1) as (fs1' & Em1 & C1 & Sh1 & _ & Hin1 & _).
  assert (EF : fs1' = fs1) by (rewrite Em1 in Hf1; cbn in Hf1; congruence). subst fs1'. fold i1 n1 a in Sh1.
  assert (Hn : m_nc (s_mat fs1) = p * a).
  { rewrite (consistent_size fs1 C1), Sh1, size_app. rewrite size_one. rewrite <- (consistent_size sents Cp). fold p. lia. }
  assert (HZ2 : (Z.of_nat (m_nc (s_mat fs1)) * Z.of_nat b < 2 ^ 63)%Z) by (rewrite Hn; nia).
  destruct (C40_train mv d2 objs fs1 mv' Co C1 HZ2 Ht2) as (fs2' & Em2 & C2 & Sh2 & _ & Hin2 & _).
  assert (EF : fs2' = fs2) by (rewrite Em2 in Hf2; cbn in Hf2; congruence). subst fs2'. fold i2 n2 b in Sh2.
  split; [exact C2|]. split; [rewrite Em2; reflexivity|]. split.
  { rewrite Em2. cbn [lf_cols]. unfold lf_train in Ht1. destruct (lf_train_space _ _ d1 subjs sents) as [z|e] eqn:HS; [|congruence].
    assert (Ez : z = fs1). { assert (Q : mp' = LF (Some z) (has_intercept (lf_learner mp)) (lf_learner mp) (s_id2col sents) (lf_min mp)) by congruence. rewrite Q in Hf1. cbn in Hf1. congruence. }
    subst z. clear - HS. unfold lf_train_space in HS. apply bind_ok in HS. destruct HS as ([[l1 l2] l3] & _ & HS). apply bind_ok in HS. destruct HS as ([keys ranges] & _ & HS).
    apply bind_ok in HS. destruct HS as (u1 & _ & HS). apply bind_ok in HS. destruct HS as (u2 & _ & HS). apply bind_ok in HS. destruct HS as (rs & _ & HS). apply bind_ok in HS. destruct HS as (mat & _ & HS).
    destruct (mk_space_ok _ _ _ None None _ _ _ Logic.I Logic.I HS) as (dr & dc & e & -> & _). reflexivity. }
  split.
  { unfold in_range. rewrite (consistent_size fs2 C2), Sh2, size_app, <- (consistent_size fs1 C1). rewrite size_one. nia. }
  split; [rewrite Sh2, Sh1, <- app_assoc; reflexivity|].
  (* every phrase of the verb's samples is the contraction of T with its object *)
  assert (HV : forall o vo, In (verb, o, vo) (samples objs fs1 d2 verb) -> forall r j, r < p -> j < a ->
     fmatrix fs1 vo a r j = rsum b (fun k => T r j k * padded n2 (vec objs o) k)%R).
  { intros o vo Ho. assert (Kv : In vo (s_id2row fs1)).
    { unfold samples in Ho. apply filter_In in Ho. destruct Ho as (_ & Ho). rewrite !andb_true_iff in Ho. apply known_In, (proj2 Ho). }
    set (U := fun r j => rsum b (fun k => T r j k * padded n2 (vec objs o) k)%R).
    assert (HU : lf_expresses subjs sents (samples subjs sents d1 vo) i1 U).
    { intros f w ph r Hi Hr. assert (Ef : f = vo). { unfold samples in Hi. apply filter_In in Hi. destruct Hi as (_ & Hi). rewrite !andb_true_iff in Hi. symmetry. apply String.eqb_eq, (proj1 (proj1 Hi)). }
      subst f. rewrite (HT o vo w ph r Ho Hi Hr). rewrite <- apply_pad. unfold contract, U. fold n1 a n2 b. apply rsum_ext. intros j Hj. rewrite <- rsum_scal_r. apply rsum_ext. intros k Hk.
      unfold padded. change (@F RNum) with R. ring. }
    destruct (C82_lexical_function mp d1 subjs sents mp' fs1 vo U HP HC HL U1 Cs Cp HZ1 Ht1 Hf1 Kv HU) as (_ & _ & Hu). fold i1 n1 a p in Hu.
    apply Hu. intros V HV'. exact (determining_unique subjs sents i1 _ U V (D1 o vo Ho) HU HV'). }
  assert (HU2 : lf_expresses objs fs1 (samples objs fs1 d2 verb) i2 (fun q k => T (q / a) (q mod a) k)).
  { intros f w ph q Hi Hq. assert (Ef : f = verb). { unfold samples in Hi. apply filter_In in Hi. destruct Hi as (_ & Hi). rewrite !andb_true_iff in Hi. symmetry. apply String.eqb_eq, (proj1 (proj1 Hi)). }
    subst f. rewrite Hn in Hq. assert (Ha : 0 < a) by (destruct a; lia). pose proof (Nat.mod_upper_bound q a ltac:(lia)) as Hm.
    assert (Hd : q / a < p) by (apply Nat.div_lt_upper_bound; lia).
    pose proof (HV w ph Hi (q / a) (q mod a) Hd Hm) as K. unfold fmatrix in K. replace (q / a * a + q mod a) with q in K by (pose proof (Nat.div_mod_eq q a); lia).
    rewrite K, <- apply_pad. reflexivity. }
  destruct (C82_lexical_function mv d2 objs fs1 mv' fs2 verb _ HP HC HL U2 Co C1 HZ2 Ht2 Hf2 Hv HU2) as (_ & _ & Hu). fold i2 n2 b in Hu.
  intros r j k Hr Hj Hk. unfold tensor.
  pose proof (Hu (fun V HV' => determining_unique objs fs1 i2 _ _ V D2 HU2 HV') (r * a + j) k ltac:(rewrite Hn; nia) Hk) as K. unfold fmatrix in K. rewrite K.
  replace ((r * a + j) / a) with r by (apply (Nat.div_unique _ a r j Hj); lia). replace ((r * a + j) mod a) with j by (apply (Nat.mod_unique _ a r j Hj); lia). reflexivity.
Qed.

(** so the sentences composed with the learnt verb are those of the tensor, for all subjects and objects *)
Theorem C101_sentences : forall mp d1 subjs sents mp' fs1 mv d2 objs mv' fs2 verb T data vo m1 data1 svo, pinv_correct -> pinv_converges -> lstsq_correct ->
  unregularised (lf_learner mp) -> unregularised (lf_learner mv) -> consistent subjs -> consistent objs -> consistent sents ->
  let i1 := has_intercept (lf_learner mp) in let i2 := has_intercept (lf_learner mv) in
  let n1 := m_nc (s_mat subjs) in let n2 := m_nc (s_mat objs) in let p := m_nc (s_mat sents) in let a := domain n1 i1 in let b := domain n2 i2 in
  (Z.of_nat p * Z.of_nat a * Z.of_nat b < 2 ^ 63)%Z -> 0 < b ->
  lf_train mp d1 subjs sents = (mp', Ok tt) -> lf_fs mp' = Some fs1 ->
  lf_train mv d2 objs fs1 = (mv', Ok tt) -> lf_fs mv' = Some fs2 -> In verb (s_id2row fs2) ->
  generated_by T i1 i2 subjs objs fs1 sents d1 d2 verb ->
  (forall o w, In (verb, o, w) (samples objs fs1 d2 verb) -> determining subjs i1 (samples subjs sents d1 w)) ->
  determining objs i2 (samples objs fs1 d2 verb) ->
  lf_compose mv' data objs = Ok vo -> mk_lexfun (Some vo) (Some (lf_icpt mp')) None = Ok m1 -> lf_compose m1 data1 subjs = Ok svo ->
  s_eshape svo = s_eshape sents /\
  forall i w subj ph obj r, nth_error (filter (usable2 vo subjs) data1) i = Some (w, subj, ph) -> In (verb, obj, w) (filter (usable2 fs2 objs) data) -> r < p ->
    ment (s_mat svo) i r = contract n1 i1 n2 i2 T (vec subjs subj) (vec objs obj) r.
Proof.
  intros mp d1 subjs sents mp' fs1 mv d2 objs mv' fs2 verb T data vo m1 data1 svo HP HC HL U1 U2 Cs Co Cp i1 i2 n1 n2 p a b HZ Hb Ht1 Hf1 Ht2 Hf2 Hv HT D1 D2 H1 Hm H2.
  destruct (C101_learn mp d1 subjs sents mp' fs1 mv d2 objs mv' fs2 verb T HP HC HL U1 U2 Cs Co Cp HZ Hb Ht1 Hf1 Ht2 Hf2 Hv HT D1 D2) as (C2 & Hi2 & _ & HR & Hsh & Hte).
  fold i1 i2 n1 n2 p a b in Hi2, Hsh, Hte.
  assert (Hi1 : lf_icpt mp' = i1).
  { destruct (C40_train mp d1 subjs sents mp' Cs Cp ltac:(cbv zeta; fold n1 i1 a p; nia) Ht1) as (z & -> & _). reflexivity. }
  rewrite Hi1 in Hm.
  destruct (C101_compose mv' fs2 data objs vo i1 m1 data1 subjs svo C2 Co Cs HR ltac:(rewrite Hi2; exact Hb) Hf2 H1 Hm H2) as (_ & Hsh2 & _ & _ & _ & _ & He).
  rewrite Hi2 in Hsh2, He. fold n1 n2 a b in Hsh2, He.
  assert (ES : s_eshape svo = s_eshape sents).
  { rewrite Hsh in Hsh2. apply app_inv_tail in Hsh2. auto. }
  split; [exact ES|]. intros i w subj ph obj r Hi Hin Hr.
  rewrite (He i w subj ph verb obj r Hi Hin) by (rewrite ES, <- (consistent_size sents Cp); exact Hr).
  unfold contract. fold a b. apply rsum_ext. intros j Hj. apply rsum_ext. intros k Hk. rewrite (Hte r j k Hr Hj Hk). reflexivity.
Qed.
End WithExt.

(** ** example: "hate" is learnt from four sentences, and composed with a subject and an object it was not trained on.  The
    sentences are  (s o, s o + 1)  for nouns a = 1, b = 2, c = 3; both learners have an intercept. *)
Definition ex_n : space := tsp ["a"; "b"; "c"] 1 [[1]; [2]; [3]]%R.
Definition ex_svo : space := tsp ["a h a"; "b h a"; "a h b"; "b h b"] 2 [[1; 2]; [2; 3]; [2; 3]; [4; 5]]%R.
Lemma ex_n_consistent : consistent ex_n.
Proof. apply tsp_consistent; [nodup|discriminate|lia|reflexivity|repeat constructor]. Qed.
Lemma ex_svo_consistent : consistent ex_svo.
Proof. apply tsp_consistent; [nodup|discriminate|lia|reflexivity|repeat constructor]. Qed.
Definition ex_d1 : list tuple3 := [("h a", "a", "a h a"); ("h b", "a", "a h b"); ("h a", "b", "b h a"); ("h a", "zz", "b h a"); ("h b", "b", "b h b")].
Definition ex_d2 : list tuple3 := [("h", "a", "h a"); ("h", "b", "h b")].
Definition ex_T (r j k : nat) : R := match r, j, k with 0, 0, 0 => 1 | 1, 0, 0 => 1 | 1, 1, 1 => 1 | _, _, _ => 0 end%R.
Lemma Els_pinv_returns2 : @pinv_returns Els 2.
Proof. intros d _ Hr Hc. cbn in Hr, Hc. cbn [e_pinv Els]. unfold pinv_small. rewrite Hr, Hc. eauto. Qed.
Lemma Els_usable2 : @learner_usable Els 2 (LLstsq true).
Proof. intros a b Wa Wb Hc Hr. cbn in Hc. cbn [e_lstsq Els]. unfold lstsq_small. rewrite Hc. unfold pinv_small. cbn [d_nr d_nc tab]. cbn [bind]. eauto. Qed.
Definition ex_m : lexfun := LF None false (LLstsq true) [] 1.
Example C101_example : exists mp' fs1 mv' fs2 vo m1 svo,
  @lf_train RNum Els ex_m ex_d1 ex_n ex_svo = (mp', Ok tt) /\ lf_fs mp' = Some fs1 /\
  @lf_train RNum Els ex_m ex_d2 ex_n fs1 = (mv', Ok tt) /\ lf_fs mv' = Some fs2 /\
  lf_compose mv' [("h", "c", "h c"); ("h", "a", "h a")] ex_n = Ok vo /\ mk_lexfun (Some vo) (Some (lf_icpt mp')) None = Ok m1 /\
  lf_compose m1 [("h c", "c", "c h c"); ("h a", "c", "c h a")] ex_n = Ok svo /\
  s_eshape fs2 = [2; 2; 2] /\ s_id2row svo = ["c h c"; "c h a"] /\
  ment (s_mat svo) 0 0 = 9%R /\ ment (s_mat svo) 0 1 = 10%R /\ ment (s_mat svo) 1 1 = 4%R.
Proof.
  assert (HZ1 : (Z.of_nat (m_nc (s_mat ex_svo)) * Z.of_nat (domain (m_nc (s_mat ex_n)) (has_intercept (lf_learner ex_m))) < 2 ^ 63)%Z) by (cbn; lia).
  destruct (@C40_total Els ex_m ex_d1 ex_n ex_svo "h a" ex_n_consistent ex_svo_consistent HZ1 Els_pinv_returns2 Els_usable2 eq_refl) as (mp' & Ht1); [discriminate|cbn; lia|].
  destruct (@C40_train Els ex_m ex_d1 ex_n ex_svo mp' ex_n_consistent ex_svo_consistent HZ1 Ht1) as (fs1 & Em1 & Cf1 & Sh1 & Nd1 & In1 & _).
  assert (Hf1 : lf_fs mp' = Some fs1) by (rewrite Em1; reflexivity).
  assert (Ka : In "h a" (s_id2row fs1)) by (apply In1; cbn; lia). assert (Kb : In "h b" (s_id2row fs1)) by (apply In1; cbn; lia).
  change (s_eshape ex_svo ++ [domain (m_nc (s_mat ex_n)) (has_intercept (lf_learner ex_m))]) with [2; 2] in Sh1.
  assert (Hn1 : m_nc (s_mat fs1) = 4) by (rewrite (consistent_size fs1 Cf1), Sh1; reflexivity).
  assert (HZ2 : (Z.of_nat (m_nc (s_mat fs1)) * Z.of_nat (domain (m_nc (s_mat ex_n)) (has_intercept (lf_learner ex_m))) < 2 ^ 63)%Z) by (rewrite Hn1; cbn; lia).
  assert (ES : samples ex_n fs1 ex_d2 "h" = ex_d2).
  { apply known_In in Ka, Kb. unfold samples, ex_d2. cbn [filter]. rewrite Ka, Kb. reflexivity. }
  destruct (@C40_total Els ex_m ex_d2 ex_n fs1 "h" ex_n_consistent Cf1 HZ2 Els_pinv_returns2 Els_usable2 eq_refl) as (mv' & Ht2); [rewrite ES; discriminate|rewrite ES; cbn; lia|].
  destruct (@C40_train Els ex_m ex_d2 ex_n fs1 mv' ex_n_consistent Cf1 HZ2 Ht2) as (fs2 & Em2 & Cf2 & Sh2 & Nd2 & In2 & _).
  assert (Hf2 : lf_fs mv' = Some fs2) by (rewrite Em2; reflexivity).
  assert (Kh : In "h" (s_id2row fs2)) by (apply In2; rewrite ES; cbn; lia).
  assert (SA : samples ex_n ex_svo ex_d1 "h a" = [("h a", "a", "a h a"); ("h a", "b", "b h a")]) by reflexivity.
  assert (SB : samples ex_n ex_svo ex_d1 "h b" = [("h b", "a", "a h b"); ("h b", "b", "b h b")]) by reflexivity.
  assert (DE : forall ss, (exists f1 p1 f2 p2, In (f1, "a", p1) ss /\ In (f2, "b", p2) ss) -> determining ex_n true ss).
  { intros ss (f1 & p1 & f2 & p2 & H1 & H2) c Hc. pose proof (Hc _ _ _ H1) as P. pose proof (Hc _ _ _ H2) as Q.
    cbv - [Rplus Rmult IZR] in P, Q. intros j Hj. change (domain (m_nc (s_mat ex_n)) true) with 2 in Hj. change (@F RNum) with R in *. coords j Hj; lra. }
  assert (D2 : determining ex_n true (samples ex_n fs1 ex_d2 "h")) by (apply DE; rewrite ES; unfold ex_d2; do 4 eexists; split; [left|right; left]; reflexivity).
  assert (D1 : forall o w, In ("h", o, w) (samples ex_n fs1 ex_d2 "h") -> determining ex_n true (samples ex_n ex_svo ex_d1 w)).
  { intros o w Hi. apply DE. rewrite ES in Hi. unfold ex_d2 in Hi. cbn [In] in Hi. destruct Hi as [Hi|[Hi|[]]]; injection Hi as <- <-; [rewrite SA|rewrite SB]; do 4 eexists; split; [left|right; left|left|right; left]; reflexivity. }
  assert (HG : generated_by ex_T true true ex_n ex_n fs1 ex_svo ex_d1 ex_d2 "h").
  { intros o w s ph r Hi Hj Hr. rewrite ES in Hi. unfold ex_d2 in Hi. cbn [In] in Hi. change (m_nc (s_mat ex_svo)) with 2 in Hr.
    destruct Hi as [Hi|[Hi|[]]]; injection Hi as <- <-; [rewrite SA in Hj|rewrite SB in Hj]; cbn [In] in Hj; destruct Hj as [Hj|[Hj|[]]]; injection Hj as <- <-;
      coords r Hr; cbv - [Rplus Rmult IZR]; change (@F RNum) with R; lra. }
  assert (HZ3 : (Z.of_nat (m_nc (s_mat ex_svo)) * Z.of_nat (domain (m_nc (s_mat ex_n)) true) * Z.of_nat (domain (m_nc (s_mat ex_n)) true) < 2 ^ 63)%Z) by (cbn; lia).
  assert (B0 : 0 < domain (m_nc (s_mat ex_n)) true) by (cbn; lia).
  destruct (@C101_learn Els ex_m ex_d1 ex_n ex_svo mp' fs1 ex_m ex_d2 ex_n mv' fs2 "h" ex_T Els_pinv Els_converges Els_lstsq Logic.I Logic.I ex_n_consistent ex_n_consistent ex_svo_consistent
    HZ3 B0 Ht1 Hf1 Ht2 Hf2 Kh HG D1 D2) as (_ & Hi2 & Hc2 & HR2 & Hsh2 & _).
  change (has_intercept (lf_learner ex_m)) with true in Hi2, Hsh2.
  assert (Hu2 : known fs2 "h" = true) by (apply known_In; exact Kh).
  assert (EU : filter (usable2 fs2 ex_n) [("h", "c", "h c"); ("h", "a", "h a")] = [("h", "c", "h c"); ("h", "a", "h a")]) by (cbn [filter usable2]; rewrite Hu2; reflexivity).
  destruct (@C101_total mv' fs2 [("h", "c", "h c"); ("h", "a", "h a")] ex_n true [("h c", "c", "c h c"); ("h a", "c", "c h a")] ex_n [2]) as (vo & m1 & svo & H1 & Hm & H2).
  - exact Cf2.
  - exact ex_n_consistent.
  - exact ex_n_consistent.
  - exact HR2.
  - exact Hf2.
  - exact Hc2.
  - rewrite Hi2. exact B0.
  - discriminate.
  - rewrite Hi2. exact Hsh2.
  - rewrite EU. discriminate.
  - rewrite EU. cbn. nodup.
  - exists "h c", "c", "c h c", "h", "c". rewrite EU. cbn. auto.
  - cbn. nodup.
  - assert (Hi1 : lf_icpt mp' = true) by (rewrite Em1; reflexivity). rewrite <- Hi1 in Hm.
    destruct (@C101_sentences Els ex_m ex_d1 ex_n ex_svo mp' fs1 ex_m ex_d2 ex_n mv' fs2 "h" ex_T _ vo m1 _ svo Els_pinv Els_converges Els_lstsq Logic.I Logic.I ex_n_consistent ex_n_consistent ex_svo_consistent
      HZ3 B0 Ht1 Hf1 Ht2 Hf2 Kh HG D1 D2 H1 Hm H2) as (_ & He). rewrite EU in He. change (m_nc (s_mat ex_svo)) with 2 in He.
    pose proof Hm as Hm'. rewrite Hi1 in Hm'.
    destruct (C101_compose mv' fs2 _ ex_n vo true m1 _ ex_n svo Cf2 ex_n_consistent ex_n_consistent HR2 ltac:(rewrite Hi2; exact B0) Hf2 H1 Hm' H2) as (_ & _ & _ & Hrow & _ & Hk & _).
    assert (K1 : known vo "h c" = true) by (apply Hk; exists "h", "c"; rewrite EU; cbn; auto).
    assert (K2 : known vo "h a" = true) by (apply Hk; exists "h", "a"; rewrite EU; cbn; auto).
    assert (EV : filter (usable2 vo ex_n) [("h c", "c", "c h c"); ("h a", "c", "c h a")] = [("h c", "c", "c h c"); ("h a", "c", "c h a")]) by (cbn [filter usable2]; rewrite K1, K2; reflexivity).
    rewrite EV in He, Hrow.
    exists mp', fs1, mv', fs2, vo, m1, svo. do 7 (split; [assumption|]). split; [exact Hsh2|]. split; [exact Hrow|].
    rewrite (He 0 "h c" "c" "c h c" "c" 0 eq_refl (or_introl eq_refl) ltac:(lia)), (He 0 "h c" "c" "c h c" "c" 1 eq_refl (or_introl eq_refl) ltac:(lia)).
    rewrite (He 1 "h a" "c" "c h a" "a" 1 eq_refl (or_intror (or_introl eq_refl)) ltac:(lia)).
    cbv - [Rplus Rmult IZR]. change (@F RNum) with R. split; [lra|split; lra].
Qed.
