(** Prop_ZeroTrain.v -- property C106, continued: training the models with scalar parameters. *)
From Coq Require Import Reals Lra Psatz Permutation Sorted.
From Verif Require Import Base PyList Dict Num SpecReal Dense Sparse Matrix PSparse PMatrix PMatOps PShape PVals PReal PPos PSort Scaling Linalg PLsq Operation
  Similarity Space Peripheral SpecSpace PDictList PSpace Prop_Space Prop_Scaling Prop_Periph PCols Learner Composition SpecComp PComp Prop_Comp Prop_Order Prop_Counts PMoved Prop_Transpose Prop_ColOrder Prop_ColOrder2 Prop_Zeros Prop_Zeros2 Prop_ZeroComp
  Prop_Ridge Prop_Axes Prop_Train.
#[local] Existing Instance RNum.
Local Open Scope R_scope.
Local Open Scope string_scope.
Local Open Scope list_scope.
Local Open Scope nat_scope.

Section Train.
Context {E : @Ext RNum}.
(** training reads nothing but dot products of the vectors of the usable tuples -- and, for WeightedAdditive, the number of rows of the phrase space *)
Lemma train_by_dots n n' m m1 data a a' s1 s2 sp s1' s2' sp' m2 :
  consistent s1 -> consistent s2 -> consistent sp -> consistent s1' -> consistent s2' -> consistent sp' ->
  m_nc (s_mat s1) = n -> m_nc (s_mat s2) = n -> m_nc (s_mat sp) = n -> m_nc (s_mat s1') = n' -> m_nc (s_mat s2') = n' -> m_nc (s_mat sp') = n' ->
  s_id2col s1' = s_id2col s2' -> filter (usable3 s1' s2' sp') data = filter (usable3 s1 s2 sp) data ->
  (forall t, In t (filter (usable3 s1 s2 sp) data) ->
     let u := vec s1 (t1 t) in let v := vec s2 (t2 t) in let p := vec sp (t3 t) in let u' := vec s1' (t1 t) in let v' := vec s2' (t2 t) in let p' := vec sp' (t3 t) in
     dot n u u = dot n' u' u' /\ dot n v v = dot n' v' v' /\ dot n u v = dot n' u' v' /\ dot n u p = dot n' u' p' /\ dot n v p = dot n' v' p') ->
  scalar_model m -> cm_kind m1 = cm_kind m -> (exists la, cm_kind m = Dil la) \/ m_nr (s_mat sp') = m_nr (s_mat sp) -> args_of a s1 s2 -> args_of a' s1' s2' ->
  train m data a sp = (m2, Ok tt) -> exists m3, train m1 data a' sp' = (m3, Ok tt) /\ cm_kind m3 = cm_kind m2.
Proof.
  intros C1 C2 C3 C1' C2' C3' N1 N2 N3 N1' N2' N3' Lc EU HD Hm Hk HR Ha Ha' Ht. unfold train in Ht.
  destruct (train_lists data a sp) as [r|e] eqn:ET; [|destruct (cm_kind m); discriminate Ht].
  destruct (train_lists_ok data a s1 s2 sp C1 C2 C3 Ha r ET) as (Hne & ->). 
  unfold train. unfold train_lists. rewrite (args_extract a' s1' s2' Ha'), (proj2 (strings_eqb_eq _ _) Lc). cbn [bind].
  rewrite (valid_data_ok data _ _ _ _ (valid_eq3 s1' s2' sp' C1' C2' C3')) by (rewrite EU; exact Hne). rewrite EU.
  set (D := filter (usable3 s1 s2 sp) data) in *. cbn [bind] in Ht |- *.
  assert (U : forall t, In t D -> usable3 s1 s2 sp t = true) by (intros t K; exact (usable_filter s1 s2 sp data t K)).
  assert (U' : forall t, In t D -> usable3 s1' s2' sp' t = true) by (intros t K; rewrite <- EU in K; exact (usable_filter s1' s2' sp' data t K)).
  destruct Hm as [(al & be & Km)|(la & Km)]; rewrite Hk, Km; rewrite Km in Ht.
  - assert (NR : m_nr (s_mat sp') = m_nr (s_mat sp)) by (destruct HR as [(la & K)|K]; [congruence|exact K]).
    unfold wadd_xxx in Ht |- *. rewrite !map_length in *. rewrite NR. set (cs := chunk_size (m_nr (s_mat sp))) in *. assert (Hcs : 0 < cs) by (unfold cs, chunk_size; lia).
    assert (Hle : length D / cs * cs <= length D) by (rewrite Nat.mul_comm; apply Nat.mul_div_le; lia).
    rewrite (wadd_chunks s1 s2 sp D cs C1 C2 C3 U ltac:(congruence) ltac:(congruence) Hcs (length D / cs) Hle) in Ht.
    rewrite (wadd_chunks s1' s2' sp' D cs C1' C2' C3' U' ltac:(congruence) ltac:(congruence) Hcs (length D / cs) Hle).
    assert (ED : dots s1' s2' sp' (firstn (length D / cs * cs) D) = dots s1 s2 sp (firstn (length D / cs * cs) D)).
    { assert (K4 : forall t, In t (firstn (length D / cs * cs) D) -> In t D) by (intros t K; rewrite <- (firstn_skipn (length D / cs * cs) D); apply in_app_iff; left; exact K).
      unfold dots. cbv zeta. rewrite N3, N3'.
      assert (LE : forall f g : tuple3 -> R, (forall t, In t D -> f t = g t) -> lsum f (firstn (length D / cs * cs) D) = lsum g (firstn (length D / cs * cs) D)).
      { intros f g K. apply Prop_Train.lsum_ext. intros t Q. apply K, K4, Q. }
      f_equal; [f_equal; [f_equal; [f_equal|]|]|]; apply LE; intros t K; destruct (HD t K) as (Q1 & Q2 & Q3 & Q4 & Q5); symmetry; assumption. }
    rewrite ED. cbn [bind] in Ht |- *. destruct (dots s1 s2 sp _) as [[[[d1 d2] d3] d4] d5]. destruct (wadd_train2 d1 d2 d3 d4 d5) as [[x y]|e]; [|discriminate Ht].
    injection Ht as <-. eexists. split; reflexivity.
  - destruct (rows3 s1 s2 sp D C1 C2 C3 Hne U) as (u & v & p & t & Eg & Vu & Vv & Vp). rewrite Eg in Ht. cbn [bind] in Ht.
    destruct (rows3 s1' s2' sp' D C1' C2' C3' Hne U') as (u' & v' & p' & t' & Eg' & Vu' & Vv' & Vp'). rewrite Eg'. cbn [bind].
    rewrite (dil_train_vals s1 s2 sp D u v p t ltac:(congruence) ltac:(congruence) Vu Vv Vp) in Ht.
    rewrite (dil_train_vals s1' s2' sp' D u' v' p' t' ltac:(congruence) ltac:(congruence) Vu' Vv' Vp'). cbv zeta in Ht |- *. rewrite N3 in Ht. rewrite N3'.
    assert (Dm : forall n0 x y z c, dot n0 x (fun j => c * y j - z j)%R = (c * dot n0 x y - dot n0 x z)%R).
    { clear. intros. unfold dot. induction n0 as [|k IH]; [cbn; ring|]. cbn [rsum]. rewrite IH. ring. }
    match type of Ht with context [lsum ?f D] => set (f1 := f) in Ht end.
    match goal with |- context [lsum ?f D] => set (f1' := f) end.
    assert (E1 : lsum f1' D = lsum f1 D).
    { apply Prop_Train.lsum_ext. intros x K. destruct (HD x K) as (Q1 & Q2 & Q3 & Q4 & Q5). unfold f1, f1'. rewrite Q1, Q3. reflexivity. }
    rewrite E1.
    match type of Ht with context [(lsum ?f D / lsum f1 D)%R] => set (f2 := f) in Ht end.
    match goal with |- context [(lsum ?f D / lsum f1 D)%R] => set (f2' := f) end.
    assert (E2 : lsum f2' D = lsum f2 D).
    { apply Prop_Train.lsum_ext. intros x K. destruct (HD x K) as (Q1 & Q2 & Q3 & Q4 & Q5). unfold f2, f2'. rewrite !Dm, Q1, Q3, Q4. reflexivity. }
    rewrite E2. injection Ht as <-. eexists. split; reflexivity.
Qed.
(** dot products are sums over labels *)
Lemma dot_labels sa sb w v : consistent sa -> consistent sb -> s_id2col sa <> [] -> s_id2col sb = s_id2col sa -> In w (s_id2row sa) -> In v (s_id2row sb) ->
  dot (m_nc (s_mat sa)) (vec sa w) (vec sb v) = Prop_Zeros.lsum (s_id2col sa) (fun x => value sa w x * value sb v x)%R.
Proof.
  intros Ca Cb Ne L Iw Iv. unfold dot. rewrite (labelled_width _ Ca Ne). apply rsum_labels. intros q x Hx. rewrite (vec_value sa w q x), (vec_value sb v q x); try assumption; [reflexivity|rewrite L; exact Hx].
Qed.
Lemma dot_counts sa sb sa' sb' w v : same_counts sa sa' -> same_counts sb sb' -> s_id2col sb = s_id2col sa -> s_id2col sb' = s_id2col sa' ->
  In w (s_id2row sa) -> In v (s_id2row sb) -> In w (s_id2row sa') -> In v (s_id2row sb') -> dot (m_nc (s_mat sa)) (vec sa w) (vec sb v) = dot (m_nc (s_mat sa')) (vec sa' w) (vec sb' v).
Proof.
  intros Ha Hb L L' I1 I2 I1' I2'. destruct (counts_nodup _ _ Ha) as ((_ & N1) & (_ & N2)).
  rewrite (dot_labels sa sb), (dot_labels sa' sb'); try assumption; try apply Ha; try apply Hb.
  rewrite (Prop_Zeros.lsum_ext (s_id2col sa') _ (fun x => value sa w x * value sb v x)%R) by (intros x _; rewrite (sc_value _ _ Ha), (sc_value _ _ Hb); reflexivity).
  apply Prop_Zeros.lsum_same; try assumption; intros x Hx.
  - rewrite (value_no_label sa) by exact Hx. ring.
  - rewrite <- (sc_value _ _ Ha), (value_no_label sa') by exact Hx. ring.
Qed.
(** training again with zeros added or taken away, rows and columns in any order: the same parameters are learnt.  The usable tuples must be the same;
    for WeightedAdditive also the number of phrases, as it decides how many tuples are left out (C36). *)
Theorem C106_train : forall m m1 data a a' s1 s2 sp s1' s2' sp' m2, same_counts s1 s1' -> same_counts s2 s2' -> same_counts sp sp' ->
  s_id2col sp = s_id2col s1 -> s_id2col sp' = s_id2col s1' -> s_id2col s2' = s_id2col s1' -> scalar_model m -> cm_kind m1 = cm_kind m ->
  filter (usable3 s1' s2' sp') data = filter (usable3 s1 s2 sp) data -> (exists la, cm_kind m = Dil la) \/ length (s_id2row sp') = length (s_id2row sp) ->
  args_of a s1 s2 -> args_of a' s1' s2' -> train m data a sp = (m2, Ok tt) ->
  exists m3, train m1 data a' sp' = (m3, Ok tt) /\ cm_kind m3 = cm_kind m2.
Proof.
  intros m m1 data a a' s1 s2 sp s1' s2' sp' m2 H1 H2 H3 L3 L3' L2' Hm Hk EU HR Ha Ha' Ht.
  pose proof (sc_ok1 _ _ H1) as C1. pose proof (sc_ok2 _ _ H1) as C1'. pose proof (sc_ok1 _ _ H2) as C2. pose proof (sc_ok2 _ _ H2) as C2'. pose proof (sc_ok1 _ _ H3) as C3. pose proof (sc_ok2 _ _ H3) as C3'.
  assert (L2 : s_id2col s2 = s_id2col s1).
  { unfold train, train_lists in Ht. rewrite (args_extract a s1 s2 Ha) in Ht. destruct (strings_eqb (s_id2col s1) (s_id2col s2)) eqn:Q; [|cbn [bind] in Ht; destruct (cm_kind m); discriminate Ht].
    symmetry. apply strings_eqb_eq, Q. }
  pose proof (sc_lab1 _ _ H1) as Ne. pose proof (sc_lab2 _ _ H1) as Ne'.
  assert (W : forall s, consistent s -> s_id2col s = s_id2col s1 -> m_nc (s_mat s) = m_nc (s_mat s1)) by (intros s C L; rewrite (labelled_width _ C1 Ne), (labelled_width _ C), L by (rewrite L; exact Ne); reflexivity).
  assert (W' : forall s, consistent s -> s_id2col s = s_id2col s1' -> m_nc (s_mat s) = m_nc (s_mat s1')) by (intros s C L; rewrite (labelled_width _ C1' Ne'), (labelled_width _ C), L by (rewrite L; exact Ne'); reflexivity).
  refine (train_by_dots (m_nc (s_mat s1)) (m_nc (s_mat s1')) m m1 data a a' s1 s2 sp s1' s2' sp' m2 C1 C2 C3 C1' C2' C3' eq_refl (W _ C2 L2) (W _ C3 L3) eq_refl (W' _ C2' L2') (W' _ C3' L3') (eq_sym L2') EU _ Hm Hk _ Ha Ha' Ht).
  - intros t K u v p u' v' p'. pose proof K as K'. rewrite <- EU in K'. apply usable_filter in K, K'. destruct t as [[x y] q]. cbn in K, K'.
    apply andb_prop in K. destruct K as (K & Kp). apply andb_prop in K. destruct K as (K1 & K2). apply andb_prop in K'. destruct K' as (K' & Kp'). apply andb_prop in K'. destruct K' as (K1' & K2').
    rewrite known_In in K1, K2, Kp, K1', K2', Kp'. cbn [t1 t2 t3] in u, v, p, u', v', p'.
    split; [apply dot_counts; auto|]. split; [rewrite <- (W _ C2 L2), <- (W' _ C2' L2'); apply dot_counts; auto|]. split; [apply dot_counts; auto|]. split; [apply dot_counts; auto|].
    rewrite <- (W _ C2 L2), <- (W' _ C2' L2'). apply dot_counts; auto; congruence.
  - destruct HR as [HR|HR]; [left; exact HR|right]. destruct C3 as (_ & Q & _), C3' as (_ & Q' & _). congruence.
Qed.
End Train.

(** ** concrete cases *)
Definition zph1 : @matrix RNum := MD (@DM RNum 1 3 [[1; 0; 3]])%R.
Definition zph3 : @matrix RNum := MD (@DM RNum 2 4 [[0; 0; 0; 0]; [3; 0; 1; 0]])%R.
Definition sp_zph1 : space := SP zph1 ["car_dog"] ["x"; "y"; "z"] [("car_dog", 0%Z)] [("x", 0%Z); ("y", 1%Z); ("z", 2%Z)] [] [3].
Definition sp_zph3 : space := SP zph3 ["none"; "car_dog"] ["z"; "q"; "x"; "y"] [("none", 0%Z); ("car_dog", 1%Z)] [("z", 0%Z); ("q", 1%Z); ("x", 2%Z); ("y", 3%Z)] [] [4].
Lemma sp_zph1_ok : consistent sp_zph1.
Proof.
  assert (W : mwf zph1) by (repeat split; cbn; try lia; repeat constructor).
  apply (mk_space_consistent zph1 ["car_dog"] ["x"; "y"; "z"] None None [] None); [exact W|constructor|exact Logic.I|exact Logic.I|reflexivity].
Qed.
Lemma sp_zph3_ok : consistent sp_zph3.
Proof.
  assert (W : mwf zph3) by (repeat split; cbn; try lia; repeat constructor).
  apply (mk_space_consistent zph3 ["none"; "car_dog"] ["z"; "q"; "x"; "y"] None None [] None); [exact W|constructor|exact Logic.I|exact Logic.I|reflexivity].
Qed.
Lemma zph_counts : same_counts sp_zph1 sp_zph3.
Proof.
  constructor; [exact sp_zph1_ok|exact sp_zph3_ok|discriminate|discriminate|reflexivity|]. intros w c. unfold value.
  cbn [s_id2row s_id2col s_mat sp_zph1 sp_zph3].
  destruct (string_dec w "car_dog") as [-> |Nw].
  - destruct (string_dec c "x") as [-> |]; [reflexivity|]. destruct (string_dec c "y") as [-> |]; [reflexivity|]. destruct (string_dec c "z") as [-> |]; [reflexivity|]. destruct (string_dec c "q") as [-> |]; [reflexivity|].
    destruct (in_dec string_dec c ["z"; "q"; "x"; "y"]) as [K|K]; [cbn in K; intuition congruence|]. destruct (in_dec string_dec c ["x"; "y"; "z"]) as [K'|K']; [cbn in K'; intuition congruence|].
    repeat (destruct (in_dec string_dec _ _); [|]); reflexivity.
  - destruct (in_dec string_dec w ["car_dog"]) as [K|_]; [cbn in K; intuition congruence|].
    destruct (string_dec w "none") as [-> |Nn]; [|destruct (in_dec string_dec w ["none"; "car_dog"]) as [K|_]; [cbn in K; intuition congruence|reflexivity]].
    destruct (string_dec c "x") as [-> |]; [reflexivity|]. destruct (string_dec c "y") as [-> |]; [reflexivity|]. destruct (string_dec c "z") as [-> |]; [reflexivity|]. destruct (string_dec c "q") as [-> |]; [reflexivity|].
    destruct (in_dec string_dec c ["z"; "q"; "x"; "y"]) as [K|K]; [cbn in K; intuition congruence|]. repeat (destruct (in_dec string_dec _ _); [|]); reflexivity.
Qed.
Definition zero_triples : list tuple3 := [("car", "dog", "car_dog"); ("bus", "dog", "bus_dog")].
Example C106_train_example : exists m2 m3, same_counts sp_tab1 sp_tab3 /\ same_counts sp_zph1 sp_zph3 /\ s_id2col sp_tab3 <> s_id2col sp_tab1 /\ length (s_id2row sp_zph3) <> length (s_id2row sp_zph1) /\
  filter (usable3 sp_tab3 sp_tab3 sp_zph3) zero_triples = [("car", "dog", "car_dog")] /\ scalar_model (mk_dil None) /\
  @train RNum Epi (mk_dil None) zero_triples (One sp_tab1) sp_zph1 = (m2, Ok tt) /\ @train RNum Epi (mk_dil None) zero_triples (One sp_tab3) sp_zph3 = (m3, Ok tt) /\ cm_kind m3 = cm_kind m2.
Proof.
  destruct (@C37_total Epi (mk_dil None) 2%R zero_triples (One sp_tab1) sp_tab1 sp_tab1 sp_zph1 tab1_ok tab1_ok sp_zph1_ok (or_introl (conj eq_refl eq_refl)) eq_refl eq_refl eq_refl eq_refl) as (m2 & H2); [discriminate|].
  assert (Sm : scalar_model (mk_dil None)) by (right; eexists; reflexivity).
  destruct (@C106_train Epi (mk_dil None) (mk_dil None) zero_triples (One sp_tab1) (One sp_tab3) sp_tab1 sp_tab1 sp_zph1 sp_tab3 sp_tab3 sp_zph3 m2 tab13_counts tab13_counts zph_counts eq_refl eq_refl eq_refl Sm eq_refl eq_refl
    (or_introl (ex_intro _ 2%R eq_refl)) (or_introl (conj eq_refl eq_refl)) (or_introl (conj eq_refl eq_refl)) H2) as (m3 & H3 & K).
  exists m2, m3. split; [exact tab13_counts|]. split; [exact zph_counts|]. split; [discriminate|]. split; [discriminate|]. split; [reflexivity|]. split; [exact Sm|]. split; [exact H2|]. split; [exact H3|exact K].
Qed.

(** the exception: fourteen phrases that never occur (rows of zeros) keep WeightedAdditive from learning anything *)
Definition many_words : list string := ["car_dog"; "p1"; "p2"; "p3"; "p4"; "p5"; "p6"; "p7"; "p8"; "p9"; "p10"; "p11"; "p12"; "p13"; "p14"].
Definition zphN : @matrix RNum := MD (@DM RNum 15 3 ([1; 0; 3] :: repeat [0; 0; 0] 14))%R.
Definition sp_zphN : space := SP zphN many_words ["x"; "y"; "z"] (numbered many_words) [("x", 0%Z); ("y", 1%Z); ("z", 2%Z)] [] [3].
Lemma sp_zphN_ok : consistent sp_zphN.
Proof.
  assert (W : mwf zphN) by (repeat split; cbn; try lia; repeat constructor).
  apply (mk_space_consistent zphN many_words ["x"; "y"; "z"] None None [] None); [exact W|constructor|exact Logic.I|exact Logic.I|reflexivity].
Qed.
Lemma zphN_counts : same_counts sp_zph1 sp_zphN.
Proof.
  constructor; [exact sp_zph1_ok|exact sp_zphN_ok|discriminate|discriminate|reflexivity|]. intros w c. unfold value. cbn [s_id2row s_id2col s_mat sp_zph1 sp_zphN].
  destruct (in_dec string_dec w many_words) as [I|I].
  2:{ destruct (in_dec string_dec w ["car_dog"]) as [K|_]; [|reflexivity]. exfalso. apply I. destruct K as [<-|[]]. left. reflexivity. }
  destruct (string_dec w "car_dog") as [-> |Nw]; [reflexivity|]. destruct (in_dec string_dec w ["car_dog"]) as [K|_]; [cbn in K; intuition congruence|].
  destruct (in_dec string_dec c ["x"; "y"; "z"]) as [J|J]; [|reflexivity].
  destruct I as [I|I]; [congruence|]. cbn [In] in I, J. repeat (destruct I as [<-|I]; [destruct J as [<-|[<-|[<-|[]]]]; reflexivity|]). destruct I.
Qed.
Theorem C106_unseen_phrases : exists m2 m3, @pinv_correct Epi /\ same_counts sp_tab1 sp_tab1 /\ same_counts sp_zph1 sp_zphN /\
  filter (usable3 sp_tab1 sp_tab1 sp_zphN) [("car", "dog", "car_dog")] = filter (usable3 sp_tab1 sp_tab1 sp_zph1) [("car", "dog", "car_dog")] /\
  @train RNum Epi (mk_wadd None None) [("car", "dog", "car_dog")] (One sp_tab1) sp_zph1 = (m2, Ok tt) /\
  @train RNum Epi (mk_wadd None None) [("car", "dog", "car_dog")] (One sp_tab1) sp_zphN = (m3, Ok tt) /\ cm_kind m3 <> cm_kind m2.
Proof.
  set (D := [("car", "dog", "car_dog")]).
  destruct (@C36_total Epi (mk_wadd None None) (1/2)%R (1/2)%R D (One sp_tab1) sp_tab1 sp_tab1 sp_zph1 Epi_2x2 tab1_ok tab1_ok sp_zph1_ok (or_introl (conj eq_refl eq_refl)) eq_refl eq_refl eq_refl eq_refl) as (m2 & H2); [discriminate|].
  destruct (Epi_2x2 [[0; 0]; [0; 0]]%R) as (P & HP).
  destruct (@C36_nothing_learnt_refuted Epi (mk_wadd None None) (1/2)%R (1/2)%R D (One sp_tab1) sp_tab1 sp_tab1 sp_zphN P tab1_ok tab1_ok sp_zphN_ok (or_introl (conj eq_refl eq_refl)) eq_refl eq_refl HP) as (m3 & H3 & K3).
  { change (0 < 1 < 2). lia. }
  destruct (@C36_whole_partial Epi (mk_wadd None None) (1/2)%R (1/2)%R D (One sp_tab1) sp_tab1 sp_tab1 sp_zph1 m2 Epi_correct tab1_ok tab1_ok sp_zph1_ok (or_introl (conj eq_refl eq_refl)) eq_refl eq_refl eq_refl) as (al & be & K2 & Best).
  { left. change (1 < 15). lia. }
  { exact H2. }
  exists m2, m3. split; [exact Epi_correct|]. split; [constructor; try exact tab1_ok; try discriminate; reflexivity|]. split; [exact zphN_counts|]. split; [reflexivity|]. split; [exact H2|]. split; [exact H3|].
  rewrite K2, K3. intros Q. injection Q as <- <-. specialize (Best 1 0)%R. revert Best.
  change (filter (usable3 sp_tab1 sp_tab1 sp_zph1) D) with D. unfold D, wadd_error, Prop_Train.lsum, sqdist. cbn [map fold_right]. change (m_nc (s_mat sp_zph1)) with 3. cbn [rsum].
  change (vec sp_tab1 "car" 0) with 1%R. change (vec sp_tab1 "car" 1) with 0%R. change (vec sp_tab1 "car" 2) with 3%R.
  change (vec sp_zph1 "car_dog" 0) with 1%R. change (vec sp_zph1 "car_dog" 1) with 0%R. change (vec sp_zph1 "car_dog" 2) with 3%R.
  intros B. ring_simplify in B. lra.
Qed.
