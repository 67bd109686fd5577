(** Prop_Lines.v -- property C75: the order of the lines of a data file does not matter. *)
From Coq Require Import Reals Lra Psatz Permutation Sorted Ascii.
From Verif Require Import Base PyList Dict Num SpecReal Dense Sparse Matrix PSparse PMatrix PMatOps PShape PVals PReal PPos PSort Scaling Linalg Operation
  Similarity Space Peripheral SpecSpace PDictList PSpace Prop_Space Prop_Scaling Prop_Sim Prop_Neigh PMoved Prop_Periph PCols Prop_Order
  Learner Composition Utils LexFun Str PStr IO SpecIO PIO Prop_IO.
#[local] Existing Instance RNum.
Local Open Scope R_scope.
Local Open Scope string_scope.
Local Open Scope list_scope.
Local Open Scope nat_scope.
Section Lines.
Context {E : @Ext RNum} {FI : @FloatIO RNum}.

Lemma suml_cons (x : R) l : @suml RNum (x :: l) = (x + @suml RNum l)%R.
Proof.
  unfold suml. cbn [fold_left]. change (@fadd RNum) with Rplus. change (@f0 RNum) with 0%R. rewrite Rplus_0_l.
  assert (G : forall l a, fold_left Rplus l a = (a + fold_left Rplus l 0)%R).
  { clear. induction l as [|y l IH]; intros a; cbn [fold_left]; [lra|]. rewrite IH, (IH (0 + y)%R). lra. }
  apply G.
Qed.
Lemma suml_perm (l1 l2 : list R) : Permutation l1 l2 -> @suml RNum l1 = @suml RNum l2.
Proof. induction 1; [reflexivity|rewrite !suml_cons; congruence|rewrite !suml_cons; lra|congruence]. Qed.
Lemma perm_filter {A} (f : A -> bool) l1 l2 : Permutation l1 l2 -> Permutation (filter f l1) (filter f l2).
Proof.
  induction 1; cbn; [constructor|destruct (f x); [constructor|]; assumption|destruct (f x), (f y); try (constructor; apply Permutation_refl); apply Permutation_refl|].
  eapply Permutation_trans; eassumption.
Qed.
Lemma vocabulary_words t1 t2 : Permutation (records t1) (records t2) -> forall w, In w (vocabulary t1) <-> In w (vocabulary t2).
Proof.
  intros H w. unfold vocabulary. rewrite !distinct_In. pose proof (Permutation_map (field 0) H) as K.
  split; [apply Permutation_in, K|apply Permutation_in, Permutation_sym, K].
Qed.
Lemma counts_perm t1 t2 w1 w2 : Permutation (records t1) (records t2) -> Permutation (counts t1 w1 w2) (counts t2 w1 w2).
Proof. intros H. unfold counts. apply Permutation_map, perm_filter, H. Qed.
Lemma words_nil (l1 l2 : list string) : (forall w, In w l1 <-> In w l2) -> l1 = [] -> l2 = [].
Proof. intros H ->. destruct l2 as [|x l]; [reflexivity|]. destruct (proj2 (H x) (or_introl eq_refl)). Qed.
Lemma sm_ok_words R1 R2 C r : (forall w, In w R1 <-> In w R2) -> sm_ok R1 C r -> sm_ok R2 C r.
Proof. intros H (K1 & K2). split; [exact K1|]. intros I1. apply K2, H, I1. Qed.
Lemma is_num_dec s : is_num s \/ ~ is_num s.
Proof. unfold is_num. destruct (fparse s) as [x|] eqn:E0; [left; eauto|right; intros (x & K); discriminate]. Qed.
Lemma sm_ok_dec R C r : sm_ok R C r \/ ~ sm_ok R C r.
Proof.
  unfold sm_ok. destruct (le_dec 3 (length r)); [|right; tauto]. destruct (in_dec string_dec (field 0 r) R); [|left; tauto]. destruct (in_dec string_dec (field 1 r) C); [|left; tauto].
  destruct (is_num_dec (field 2 r)); [left|right]; tauto.
Qed.
Lemma forall_dec {A} (P : A -> Prop) l : (forall x, P x \/ ~ P x) -> Forall P l \/ ~ Forall P l.
Proof. intros D. induction l as [|x l IH]; [left; constructor|]. destruct (D x), IH; [left; constructor; assumption|right; intros K; inversion K; contradiction..]. Qed.

Lemma mk_space_eshape m r c r2i c2i ops s : @mk_space RNum m r c r2i c2i ops None = Ok s -> s_eshape s = [m_nc (s_mat s)].
Proof.
  unfold mk_space. intros H. apply bind_ok in H. destruct H as (dr & _ & H). apply bind_ok in H. destruct H as (dc & _ & H).
  apply bind_ok in H. destruct H as (u & _ & H). apply bind_ok in H. destruct H as (e & H4 & H). injection H as <-. cbn in *. congruence.
Qed.
Lemma build_sm_eshape fs data dt rows rt cols ct s : text_at fs data dt -> opt_text fs rows dt rt -> text_at fs cols ct ->
  build fs (Some data) (Some "sm") rows (Some cols) = Ok s -> s_eshape s = [m_nc (s_mat s)].
Proof.
  intros Hd Hr Hc H. rewrite (build_sm fs data dt rows rt cols ct Hd Hr Hc) in H. cbv zeta in H. destruct (negb _); [discriminate|].
  apply bind_ok in H. destruct H as (m & _ & H). apply bind_ok in H. destruct H as (u & _ & H). exact (mk_space_eshape _ _ _ _ _ _ _ H).
Qed.

(** the row words come from a file of their own or from the data file; in both cases the second text has the records of the
    first in another order *)
Theorem C75_sparse : forall fs1 fs2 data1 data2 rows1 rows2 cols1 cols2 dt1 dt2 rt1 rt2 ct1 ct2,
  text_at fs1 data1 dt1 -> text_at fs2 data2 dt2 -> Permutation (records dt1) (records dt2) ->
  opt_text fs1 rows1 dt1 rt1 -> opt_text fs2 rows2 dt2 rt2 -> Permutation (records rt1) (records rt2) ->
  text_at fs1 cols1 ct1 -> text_at fs2 cols2 ct2 -> vocabulary ct2 = vocabulary ct1 ->
  same_outcome (build fs1 (Some data1) (Some "sm") rows1 (Some cols1)) (build fs2 (Some data2) (Some "sm") rows2 (Some cols2)).
Proof.
  intros fs1 fs2 data1 data2 rows1 rows2 cols1 cols2 dt1 dt2 rt1 rt2 ct1 ct2 D1 D2 PD R1 R2 PR C1 C2 EC.
  pose proof (vocabulary_words _ _ PR) as W.
  assert (Bad : forall (P : Prop), (vocabulary rt1 = [] \/ vocabulary ct1 = [] \/ ~ Forall (sm_ok (vocabulary rt1) (vocabulary ct1)) (records dt1)) ->
     same_outcome (build fs1 (Some data1) (Some "sm") rows1 (Some cols1)) (build fs2 (Some data2) (Some "sm") rows2 (Some cols2))).
  { intros _ H. rewrite (C45_invalid fs1 data1 dt1 rows1 rt1 cols1 ct1 D1 R1 C1 H). rewrite (C45_invalid fs2 data2 dt2 rows2 rt2 cols2 ct2 D2 R2 C2); [reflexivity|].
    rewrite EC. destruct H as [H|[H|H]]; [left; exact (words_nil _ _ W H)|right; left; exact H|]. right; right. intros K. apply H.
    rewrite Forall_forall in *. intros r Hr. apply (sm_ok_words (vocabulary rt2)); [intros w; symmetry; apply W|]. apply K. apply (Permutation_in _ PD), Hr. }
  destruct (forall_dec _ (records dt1) (sm_ok_dec (vocabulary rt1) (vocabulary ct1))) as [Hok|Hok]; [|apply (Bad True); auto].
  assert (D0 : vocabulary rt1 = [] \/ vocabulary rt1 <> []) by (destruct (vocabulary rt1); [left; reflexivity|right; discriminate]).
  destruct D0 as [D0|NR]; [apply (Bad True); auto|].
  assert (D0 : vocabulary ct1 = [] \/ vocabulary ct1 <> []) by (destruct (vocabulary ct1); [left; reflexivity|right; discriminate]).
  destruct D0 as [D0|NC]; [apply (Bad True); auto|]. clear Bad.
  assert (NR2 : vocabulary rt2 <> []) by (intros K; apply NR; apply (words_nil (vocabulary rt2)); [intros w; symmetry; apply W|exact K]).
  assert (Hok2 : Forall (sm_ok (vocabulary rt2) (vocabulary ct2)) (records dt2)).
  { rewrite EC. rewrite Forall_forall in *. intros r Hr. apply (sm_ok_words (vocabulary rt1)); [exact W|]. apply Hok. apply (Permutation_in _ (Permutation_sym PD)), Hr. }
  destruct (C45_build fs1 data1 dt1 rows1 rt1 cols1 ct1 D1 R1 C1 NR NC Hok) as (s1 & B1 & K1 & _ & Er1 & Ec1 & _ & _ & O1 & V1).
  destruct (C45_build fs2 data2 dt2 rows2 rt2 cols2 ct2 D2 R2 C2 NR2 ltac:(congruence) Hok2) as (s2 & B2 & K2 & _ & Er2 & Ec2 & _ & _ & O2 & V2).
  rewrite B1, B2. cbn [same_outcome]. pose proof K1 as (_&_&Q1&_&_&_&_&S1&_). pose proof K2 as (_&_&Q2&_&_&_&_&S2&_).
  assert (N1 : m_nc (s_mat s1) = length (vocabulary ct1)) by (rewrite Ec1 in Q1; destruct Q1 as [Q1|Q1]; [contradiction|symmetry; exact Q1]).
  assert (N2 : m_nc (s_mat s2) = length (vocabulary ct1)) by (rewrite Ec2, EC in Q2; destruct Q2 as [Q2|Q2]; [contradiction|symmetry; exact Q2]).
  split; try assumption; try congruence; [rewrite Er1, Er2; exact W| |].
  - rewrite (build_sm_eshape fs1 data1 dt1 rows1 rt1 cols1 ct1 s1 D1 R1 C1 B1), (build_sm_eshape fs2 data2 dt2 rows2 rt2 cols2 ct2 s2 D2 R2 C2 B2). congruence.
  - intros w p q j Hp Hq Hj. rewrite N1 in Hj. destruct (nth_error (vocabulary ct1) j) as [w2|] eqn:Ej; [|apply nth_error_None in Ej; lia].
    rewrite (V1 p j w w2 Hp ltac:(rewrite Ec1; exact Ej)), (V2 q j w w2 Hq ltac:(rewrite Ec2, EC; exact Ej)).
    symmetry. apply suml_perm, Permutation_map, counts_perm, PD.
Qed.

(** dense files: the same, if no word has two lines (of two lines with the same word the first is used, C46) and the first line
    is a record in both orders *)
Lemma find_perm (l1 l2 : list (list string)) w : Permutation l1 l2 -> NoDup (map (field 0) l1) -> first_record l2 w = first_record l1 w.
Proof.
  intros P. unfold first_record. induction P as [|x l1 l2 P IH|x y l|l1 l2 l3 P1 IH1 P2 IH2]; intros Nd; cbn [find].
  - reflexivity.
  - inversion Nd; subst. rewrite IH by assumption. reflexivity.
  - inversion Nd as [|? ? H1 H2]; subst. cbn [map] in H1. destruct (String.eqb_spec (field 0 x) w) as [Ex|Ex], (String.eqb_spec (field 0 y) w) as [Ey|Ey]; try reflexivity.
    exfalso. apply H1. left. congruence.
  - rewrite IH2, IH1; [reflexivity|assumption|]. eapply Permutation_NoDup; [apply Permutation_map, P1|exact Nd].
Qed.
Lemma build_dm_eshape fs data dt rows rt cols ct s : text_at fs data dt -> opt_text fs rows dt rt -> opt_cols fs cols ct ->
  (forall t, ct = Some t -> vocabulary t <> []) -> vocabulary rt <> [] ->
  build fs (Some data) (Some "dm") rows cols = Ok s -> s_eshape s = [m_nc (s_mat s)].
Proof.
  intros Hd Hr Hc NC NR H. rewrite (build_dm fs data dt rows rt cols ct Hd Hr Hc NC NR) in H. cbv zeta in H.
  apply bind_ok in H. destruct H as (m & _ & H). apply bind_ok in H. destruct H as (u & _ & H). exact (mk_space_eshape _ _ _ _ _ _ _ H).
Qed.
Lemma dm_ok_perm R1 R2 n l1 l2 : (forall w, In w R1 <-> In w R2) -> Permutation l1 l2 -> NoDup (map (field 0) l1) -> dm_ok R1 n l1 -> dm_ok R2 n l2.
Proof.
  intros W P Nd (K1 & K2). split.
  - rewrite Forall_forall in *. intros r Hr. apply K1, (Permutation_in _ (Permutation_sym P)), Hr.
  - intros w r Hw Hr. rewrite (find_perm _ _ w P Nd) in Hr. apply (K2 w); [apply W, Hw|exact Hr].
Qed.
Lemma dm_ok_dec R n rs : dm_ok R n rs \/ ~ dm_ok R n rs.
Proof.
  unfold dm_ok. destruct (forall_dec (fun r => length r = n + 1) rs) as [A|A]; [intros r; destruct (Nat.eq_dec (length r) (n + 1)); tauto| |tauto].
  destruct (forall_dec (fun w => forall r, first_record rs w = Some r -> Forall is_num (tl r)) R) as [B|B].
  - intros w. destruct (first_record rs w) as [r|]; [|left; discriminate]. destruct (forall_dec is_num (tl r) is_num_dec) as [B|B]; [left; intros r' K; congruence|right; intros K; apply B, K; reflexivity].
  - left. split; [exact A|]. rewrite Forall_forall in B. intros w r Hw. apply B, Hw.
  - right. intros (_ & K). apply B. apply Forall_forall. intros w Hw r. apply K, Hw.
Qed.
Theorem C75_dense : forall fs1 fs2 data1 data2 rows1 rows2 cols1 cols2 dt1 dt2 rt1 rt2 ct1 ct2 n,
  text_at fs1 data1 dt1 -> text_at fs2 data2 dt2 -> Permutation (records dt1) (records dt2) -> NoDup (map (field 0) (records dt1)) ->
  first_line_fields dt1 = Some n -> first_line_fields dt2 = Some n ->
  opt_text fs1 rows1 dt1 rt1 -> opt_text fs2 rows2 dt2 rt2 -> Permutation (records rt1) (records rt2) ->
  opt_cols fs1 cols1 ct1 -> opt_cols fs2 cols2 ct2 -> option_map vocabulary ct2 = option_map vocabulary ct1 ->
  same_outcome (build fs1 (Some data1) (Some "dm") rows1 cols1) (build fs2 (Some data2) (Some "dm") rows2 cols2).
Proof.
  intros fs1 fs2 data1 data2 rows1 rows2 cols1 cols2 dt1 dt2 rt1 rt2 ct1 ct2 n D1 D2 PD Nd F1 F2 R1 R2 PR C1 C2 EC.
  pose proof (vocabulary_words _ _ PR) as W. assert (W' : forall w, In w (vocabulary rt2) <-> In w (vocabulary rt1)) by (intros w; symmetry; apply W).
  assert (Nd2 : NoDup (map (field 0) (records dt2))) by (eapply Permutation_NoDup; [apply Permutation_map, PD|exact Nd]).
  assert (Bad : (vocabulary rt1 = [] \/ (exists t, ct1 = Some t /\ length (vocabulary t) <> n - 1) \/ ~ (2 <= n /\ dm_ok (vocabulary rt1) (n - 1) (records dt1))) ->
     same_outcome (build fs1 (Some data1) (Some "dm") rows1 cols1) (build fs2 (Some data2) (Some "dm") rows2 cols2)).
  { intros H. rewrite (C46_invalid fs1 data1 dt1 rows1 rt1 cols1 ct1 n D1 R1 C1 F1 H). rewrite (C46_invalid fs2 data2 dt2 rows2 rt2 cols2 ct2 n D2 R2 C2 F2); [reflexivity|].
    destruct H as [H|[(t & -> & H)|H]]; [left; exact (words_nil _ _ W H)| |].
    - right; left. cbn in EC. destruct ct2 as [t2|]; [|discriminate]. exists t2. split; [reflexivity|]. cbn in EC. injection EC as EC. rewrite EC. exact H.
    - right; right. intros (K1 & K2). apply H. split; [exact K1|]. exact (dm_ok_perm _ _ _ _ _ W' (Permutation_sym PD) Nd2 K2). }
  destruct (le_dec 2 n) as [Hn|Hn]; [|apply Bad; right; right; tauto].
  destruct (dm_ok_dec (vocabulary rt1) (n - 1) (records dt1)) as [Hok|Hok]; [|apply Bad; right; right; tauto].
  assert (D0 : vocabulary rt1 = [] \/ vocabulary rt1 <> []) by (destruct (vocabulary rt1); [left; reflexivity|right; discriminate]).
  destruct D0 as [D0|NR]; [apply Bad; auto|].
  assert (D0 : (exists t, ct1 = Some t /\ length (vocabulary t) <> n - 1) \/ (forall t, ct1 = Some t -> length (vocabulary t) = n - 1)).
  { destruct ct1 as [t|]; [|right; discriminate]. destruct (Nat.eq_dec (length (vocabulary t)) (n - 1)) as [K|K]; [right; intros t' Q; injection Q as <-; exact K|left; eauto]. }
  destruct D0 as [D0|HL]; [apply Bad; auto|]. clear Bad. destruct n as [|n]; [lia|]. cbn [Nat.sub] in *. rewrite Nat.sub_0_r in *.
  assert (NR2 : vocabulary rt2 <> []) by (intros K; apply NR; exact (words_nil _ _ W' K)).
  pose proof (dm_ok_perm _ _ _ _ _ W PD Nd Hok) as Hok2.
  assert (HL2 : forall t, ct2 = Some t -> length (vocabulary t) = n).
  { intros t ->. cbn in EC. destruct ct1 as [t1|]; [|discriminate]. cbn in EC. injection EC as EC. rewrite EC. apply HL. reflexivity. }
  assert (NC1 : forall t, ct1 = Some t -> vocabulary t <> []) by (intros t K Q; specialize (HL t K); rewrite Q in HL; cbn in HL; lia).
  assert (NC2 : forall t, ct2 = Some t -> vocabulary t <> []) by (intros t K Q; specialize (HL2 t K); rewrite Q in HL2; cbn in HL2; lia).
  destruct (C46_build fs1 data1 dt1 rows1 rt1 cols1 ct1 n D1 R1 C1 NR F1 ltac:(lia) Hok HL) as (s1 & B1 & K1 & _ & Er1 & Ec1 & _ & _ & O1 & N1 & V1).
  destruct (C46_build fs2 data2 dt2 rows2 rt2 cols2 ct2 n D2 R2 C2 NR2 F2 ltac:(lia) Hok2 HL2) as (s2 & B2 & K2 & _ & Er2 & Ec2 & _ & _ & O2 & N2 & V2).
  rewrite B1, B2. cbn [same_outcome].
  assert (Ecv : cols_vocabulary ct2 = cols_vocabulary ct1) by (destruct ct1, ct2; cbn in *; congruence).
  split; try assumption; try congruence; [rewrite Er1, Er2; exact W| |].
  - rewrite (build_dm_eshape fs1 data1 dt1 rows1 rt1 cols1 ct1 s1 D1 R1 C1 NC1 NR B1), (build_dm_eshape fs2 data2 dt2 rows2 rt2 cols2 ct2 s2 D2 R2 C2 NC2 NR2 B2). congruence.
  - intros w p q j Hp Hq Hj. rewrite N1 in Hj. rewrite (V1 p j w Hp Hj), (V2 q j w Hq Hj), (find_perm _ _ w PD Nd). reflexivity.
Qed.

(** what follows for the user: the similarities computed from the reordered file, after any chain of scalings and selections *)
Theorem C75_similarities : forall ts x y a b w1 w2 sim, same_outcome x y -> Forall tr_ok ts -> Forall column_free ts ->
  (let* s := x in apply_all s ts) = Ok a -> (let* s := y in apply_all s ts) = Ok b -> get_sim b w1 w2 sim None = get_sim a w1 w2 sim None.
Proof.
  intros ts x y a b w1 w2 sim H Ht Hf Ha Hb. destruct x as [s1|], y as [s2|]; try discriminate; try contradiction. cbn [bind same_outcome] in *.
  pose proof (C72_apply_all ts s1 s2 H Ht Hf) as K. rewrite Ha, Hb in K. apply (C72_get_sim a b None None w1 w2 sim K I).
Qed.

Definition lines_1 : string := "car red 5" ++ nl ++ "dog blue 2" ++ nl ++ "car red 1".
Definition lines_2 : string := "car red 1" ++ nl ++ nl ++ "dog blue 2" ++ nl ++ "car red 5".
Example C75_example : Permutation (records lines_1) (records lines_2) /\ vocabulary lines_1 = ["car"; "dog"] /\ vocabulary lines_2 = ["car"; "dog"] /\
  records "dog 1 2" = [["dog"; "1"; "2"]] /\ NoDup (map (field 0) (records ("car 3 4" ++ nl ++ "dog 1 2"))) /\
  Permutation (records ("car 3 4" ++ nl ++ "dog 1 2")) (records ("dog 1 2" ++ nl ++ "car 3 4")) /\
  vocabulary ("car 3 4" ++ nl ++ "dog 1 2") = ["car"; "dog"] /\ vocabulary ("dog 1 2" ++ nl ++ "car 3 4") = ["dog"; "car"] /\
  first_line_fields ("car 3 4" ++ nl ++ "dog 1 2") = Some 3 /\ first_line_fields ("dog 1 2" ++ nl ++ "car 3 4") = Some 3.
Proof.
  split; [|split; [reflexivity|split; [reflexivity|split; [reflexivity|split; [|split; [|repeat split]]]]]].
  - change (Permutation [["car"; "red"; "5"]; ["dog"; "blue"; "2"]; ["car"; "red"; "1"]] [["car"; "red"; "1"]; ["dog"; "blue"; "2"]; ["car"; "red"; "5"]]).
    apply Permutation_trans with [["dog"; "blue"; "2"]; ["car"; "red"; "1"]; ["car"; "red"; "5"]]; [|constructor].
    apply Permutation_trans with [["dog"; "blue"; "2"]; ["car"; "red"; "5"]; ["car"; "red"; "1"]]; [constructor|]. apply perm_skip. constructor.
  - change (NoDup ["car"; "dog"]). repeat constructor; cbn; intuition discriminate.
  - change (Permutation [["car"; "3"; "4"]; ["dog"; "1"; "2"]] [["dog"; "1"; "2"]; ["car"; "3"; "4"]]). constructor.
Qed.
End Lines.
