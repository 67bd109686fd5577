(** Prop_Zeros2.v -- property C106, continued: reading files, concrete cases, and what is excluded. *)
From Coq Require Import Reals Lra Psatz Permutation Sorted Ascii.
From Verif Require Import Base PyList Dict Num SpecReal Dense Sparse Matrix PSparse PMatrix PMatOps PShape PVals PReal PPos PSort Scaling Linalg Operation
  Similarity Space Peripheral SpecSpace PDictList PSpace Prop_Space Prop_Scaling Prop_Sim Prop_Neigh PMoved Prop_Periph PCols Prop_Order Prop_Counts Prop_Transpose Prop_Unit
  Learner Composition SpecComp PComp Prop_Comp Utils LexFun Str PStr IO SpecIO PIO Prop_IO Prop_Lines Prop_ColOrder Prop_ColOrder2 Prop_Zeros.
#[local] Existing Instance RNum.
Local Open Scope R_scope.
Local Open Scope string_scope.
Local Open Scope list_scope.
Local Open Scope nat_scope.

Section Files.
Context {E : @Ext RNum} {FI : @FloatIO RNum}.
(** the record counts for these rows and columns *)
Definition kept (Rw Cl : list string) (r : list string) : Prop := In (field 0 r) Rw /\ In (field 1 r) Cl.
Lemma sm_ok_kept R1 C1 R2 C2 r : (kept R1 C1 r <-> kept R2 C2 r) -> sm_ok R1 C1 r -> sm_ok R2 C2 r.
Proof. intros H (K1 & K2). split; [exact K1|]. intros I1 I2. destruct (proj2 H (conj I1 I2)). apply K2; assumption. Qed.
Lemma counts_none dt w c : (forall r, In r (records dt) -> field 0 r = w -> field 1 r = c -> False) -> counts dt w c = [].
Proof.
  intros H. unfold counts. destruct (filter _ (records dt)) as [|r l] eqn:K; [reflexivity|]. exfalso. assert (I0 : In r (filter (fun r => String.eqb (field 0 r) w && String.eqb (field 1 r) c) (records dt))) by (rewrite K; left; reflexivity).
  apply filter_In in I0. destruct I0 as (I0 & Q). apply andb_prop in Q. destruct Q as (Q1 & Q2). apply String.eqb_eq in Q1, Q2. exact (H r I0 Q1 Q2).
Qed.
(** row and column files with other lines, in any order, that keep the same records of the data *)
Theorem C106_build : forall fs1 fs2 data1 data2 rows1 rows2 cols1 cols2 dt1 dt2 rt1 rt2 ct1 ct2,
  text_at fs1 data1 dt1 -> text_at fs2 data2 dt2 -> Permutation (records dt1) (records dt2) ->
  opt_text fs1 rows1 dt1 rt1 -> opt_text fs2 rows2 dt2 rt2 -> text_at fs1 cols1 ct1 -> text_at fs2 cols2 ct2 ->
  vocabulary rt1 <> [] -> vocabulary rt2 <> [] -> vocabulary ct1 <> [] -> vocabulary ct2 <> [] ->
  (forall r, In r (records dt1) -> kept (vocabulary rt1) (vocabulary ct1) r <-> kept (vocabulary rt2) (vocabulary ct2) r) ->
  same_results (build fs1 (Some data1) (Some "sm") rows1 (Some cols1)) (build fs2 (Some data2) (Some "sm") rows2 (Some cols2)).
Proof.
  intros fs1 fs2 data1 data2 rows1 rows2 cols1 cols2 dt1 dt2 rt1 rt2 ct1 ct2 D1 D2 PD R1 R2 C1 C2 NR1 NR2 NC1 NC2 HK.
  assert (Ok12 : Forall (sm_ok (vocabulary rt1) (vocabulary ct1)) (records dt1) <-> Forall (sm_ok (vocabulary rt2) (vocabulary ct2)) (records dt2)).
  { rewrite !Forall_forall. split; intros K r Hr.
    - apply (Permutation_in _ (Permutation_sym PD)) in Hr. exact (sm_ok_kept _ _ _ _ r (HK r Hr) (K r Hr)).
    - pose proof (Permutation_in _ PD Hr) as Hr2. exact (sm_ok_kept _ _ _ _ r (iff_sym (HK r Hr)) (K r Hr2)). }
  destruct (forall_dec _ (records dt1) (sm_ok_dec (vocabulary rt1) (vocabulary ct1))) as [Hok|Hok].
  2: { rewrite (C45_invalid fs1 data1 dt1 rows1 rt1 cols1 ct1 D1 R1 C1) by auto. rewrite (C45_invalid fs2 data2 dt2 rows2 rt2 cols2 ct2 D2 R2 C2); [reflexivity|]. right; right. intros K. apply Hok, Ok12, K. }
  pose proof (proj1 Ok12 Hok) as Hok2.
  destruct (C45_build fs1 data1 dt1 rows1 rt1 cols1 ct1 D1 R1 C1 NR1 NC1 Hok) as (s1 & B1 & K1 & _ & Er1 & Ec1 & _ & _ & _ & V1).
  destruct (C45_build fs2 data2 dt2 rows2 rt2 cols2 ct2 D2 R2 C2 NR2 NC2 Hok2) as (s2 & B2 & K2 & _ & Er2 & Ec2 & _ & _ & _ & V2).
  rewrite B1, B2. cbn [same_results].
  constructor; try assumption; [congruence|congruence|rewrite (build_sm_eshape fs1 data1 dt1 rows1 rt1 cols1 ct1 s1 D1 R1 C1 B1), (build_sm_eshape fs2 data2 dt2 rows2 rt2 cols2 ct2 s2 D2 R2 C2 B2); reflexivity|].
  intros w c. assert (Eq : suml (map num (counts dt2 w c)) = suml (map num (counts dt1 w c))) by (symmetry; apply suml_perm, Permutation_map, counts_perm, PD).
  destruct (value_cases s1 w c) as [Z1|(i & j & Hi & Hj)]; destruct (value_cases s2 w c) as [Z2|(i' & j' & Hi' & Hj')].
  - congruence.
  - rewrite (value_at s2 i' j' w c K2 Hi' Hj'), (V2 i' j' w c Hi' Hj'), Eq, Z1. destruct (in_dec string_dec w (s_id2row s1)) as [I1|I1]; [destruct (in_dec string_dec c (s_id2col s1)) as [I2|I2]|].
    + apply In_nth_error in I1, I2. destruct I1 as (i & Hi), I2 as (j & Hj). rewrite (value_at s1 i j w c K1 Hi Hj), (V1 i j w c Hi Hj) in Z1. exact Z1.
    + rewrite counts_none; [reflexivity|]. intros r Hr Q1 Q2. apply I2. rewrite Ec1, <- Q2. apply (HK r Hr). split; [rewrite Q1, <- Er2; exact (nth_error_In _ _ Hi')|rewrite Q2, <- Ec2; exact (nth_error_In _ _ Hj')].
    + rewrite counts_none; [reflexivity|]. intros r Hr Q1 Q2. apply I1. rewrite Er1, <- Q1. apply (HK r Hr). split; [rewrite Q1, <- Er2; exact (nth_error_In _ _ Hi')|rewrite Q2, <- Ec2; exact (nth_error_In _ _ Hj')].
  - rewrite (value_at s1 i j w c K1 Hi Hj), (V1 i j w c Hi Hj), Z2. rewrite <- Eq. destruct (in_dec string_dec w (s_id2row s2)) as [I1|I1]; [destruct (in_dec string_dec c (s_id2col s2)) as [I2|I2]|].
    + apply In_nth_error in I1, I2. destruct I1 as (i' & Hi'), I2 as (j' & Hj'). rewrite (value_at s2 i' j' w c K2 Hi' Hj'), (V2 i' j' w c Hi' Hj') in Z2. symmetry. exact Z2.
    + rewrite counts_none; [reflexivity|]. intros r Hr Q1 Q2. apply (Permutation_in _ (Permutation_sym PD)) in Hr. apply I2. rewrite Ec2, <- Q2. apply (HK r Hr). split; [rewrite Q1, <- Er1; exact (nth_error_In _ _ Hi)|rewrite Q2, <- Ec1; exact (nth_error_In _ _ Hj)].
    + rewrite counts_none; [reflexivity|]. intros r Hr Q1 Q2. apply (Permutation_in _ (Permutation_sym PD)) in Hr. apply I1. rewrite Er2, <- Q1. apply (HK r Hr). split; [rewrite Q1, <- Er1; exact (nth_error_In _ _ Hi)|rewrite Q2, <- Ec1; exact (nth_error_In _ _ Hj)].
  - rewrite (value_at s1 i j w c K1 Hi Hj), (V1 i j w c Hi Hj), (value_at s2 i' j' w c K2 Hi' Hj'), (V2 i' j' w c Hi' Hj'). exact Eq.
Qed.
End Files.

(** ** concrete cases *)
Section Ex.
Context {E : @Ext RNum}.
(** [sp_tab1] with one more word, one more context, and everything in another order *)
Definition tab3 : @matrix RNum := MD (@DM RNum 3 4 [[0; 0; 0; 0]; [0; 0; 2; 1]; [3; 0; 1; 0]])%R.
Lemma tab3_wf : mwf tab3.  Proof. repeat split; cbn; try lia; repeat constructor. Qed.
Definition sp_tab3 : space := SP tab3 ["cow"; "dog"; "car"] ["z"; "q"; "x"; "y"] [("cow", 0%Z); ("dog", 1%Z); ("car", 2%Z)] [("z", 0%Z); ("q", 1%Z); ("x", 2%Z); ("y", 3%Z)] [] [4].
Lemma tab3_ok : consistent sp_tab3.
Proof. eapply (mk_space_consistent tab3 ["cow"; "dog"; "car"] ["z"; "q"; "x"; "y"] None None [] None); [apply tab3_wf|constructor|exact Logic.I|exact Logic.I|reflexivity]. Qed.
Lemma tab13_counts : same_counts sp_tab1 sp_tab3.
Proof.
  constructor; [exact tab1_ok|exact tab3_ok|discriminate|discriminate|reflexivity|]. intros w c.
  destruct (value_cases sp_tab3 w c) as [Z|(i & j & Hi & Hj)].
  - rewrite Z. symmetry. destruct (value_cases sp_tab1 w c) as [Z1|(i & j & Hi & Hj)]; [exact Z1|].
    assert (Iw : In w (s_id2row sp_tab3)) by (apply nth_error_In in Hi; cbn in *; tauto). assert (Ic : In c (s_id2col sp_tab3)) by (apply nth_error_In in Hj; cbn in *; tauto).
    apply In_nth_error in Iw, Ic. destruct Iw as (a & Ha), Ic as (b & Hb). rewrite (value_at sp_tab3 a b w c tab3_ok Ha Hb) in Z. rewrite (value_at sp_tab1 i j w c tab1_ok Hi Hj). rewrite <- Z. clear Z.
    pose proof (nth_error_lt _ _ _ Hi) as L1. pose proof (nth_error_lt _ _ _ Hj) as L2. pose proof (nth_error_lt _ _ _ Ha) as L3. pose proof (nth_error_lt _ _ _ Hb) as L4. cbn in L1, L2, L3, L4.
    destruct i as [|[|i]]; [| |lia]; (destruct j as [|[|[|j]]]; [| | |lia]); (destruct a as [|[|[|a]]]; [| | |lia]); (destruct b as [|[|[|[|b]]]]; [| | | |lia]); cbn in Hi, Hj, Ha, Hb; try congruence; reflexivity.
  - rewrite (value_at sp_tab3 i j w c tab3_ok Hi Hj). pose proof (nth_error_lt _ _ _ Hi) as L1. pose proof (nth_error_lt _ _ _ Hj) as L2. cbn in L1, L2.
    destruct i as [|[|[|i]]]; [| | |lia]; (destruct j as [|[|[|[|j]]]]; [| | | |lia]); cbn in Hi, Hj; injection Hi as <-; injection Hj as <-; reflexivity.
Qed.
Lemma clear_cut_0 c k m : clear_cut c k m -> clear_cut0 c k m.
Proof. intros H sel a b B Ha Hb Hn _. exact (H sel a b B Ha Hb Hn). Qed.
Lemma tab1_nonneg : non_negative tab1.
Proof. intros i j Hi Hj. change (i < 2) in Hi. change (j < 3) in Hj. destruct i as [|[|i]]; [| |lia]; (destruct j as [|[|[|j]]]; [| | |lia]); cbn; lra. Qed.
Example C106_example : same_counts sp_tab1 sp_tab3 /\ s_id2row sp_tab3 <> s_id2row sp_tab1 /\ same_counts_opt sp_tab1 sp_tab3 (Some sp_tab1) (Some sp_tab3) /\
  clear_cuts0 sp_tab1 [TFS CSum 2; TScale Ppmi; TScale (RowNorm CLength)] /\
  (exists r, (0 < r)%R /\ get_sim sp_tab1 "car" "dog" Cos None = Ok r) /\
  forall r, In r (records ("car red 2" ++ nl ++ "dog red 3" ++ nl ++ "dog blue 1")) ->
    kept (vocabulary ("car" ++ nl ++ "dog")) (vocabulary "red") r <-> kept (vocabulary ("pen" ++ nl ++ "dog" ++ nl ++ "car")) (vocabulary ("pink" ++ nl ++ "red")) r.
Proof.
  split; [exact tab13_counts|]. split; [discriminate|]. split; [split; [exact tab13_counts|split; reflexivity]|]. split; [|split].
  - split; [split; [right; exact tab1_nonneg|apply clear_cut_0; exact tab_cut]|]. intros s' _. split; [exact Logic.I|]. intros s'' _. split; [exact Logic.I|]. intros s3 _. exact Logic.I.
  - rewrite (get_sim_rows sp_tab1 None "car" "dog" 0 1 3 Cos tab1_ok tab1_ok eq_refl eq_refl eq_refl eq_refl). eexists. split; [|reflexivity]. cbn [sim_spec]. unfold cosine, norm.
    assert (D1 : SpecReal.dot 3 (ment tab1 0) (ment tab1 0) = 10%R) by (cbn; ring). assert (D2 : SpecReal.dot 3 (ment tab1 1) (ment tab1 1) = 5%R) by (cbn; ring). assert (D3 : SpecReal.dot 3 (ment tab1 0) (ment tab1 1) = 2%R) by (cbn; ring).
    change (s_mat (searched sp_tab1 None)) with tab1. change (s_mat sp_tab1) with tab1. rewrite D1, D2, D3. assert (P1 : (0 < sqrt 10)%R) by (apply sqrt_lt_R0; lra). assert (P2 : (0 < sqrt 5)%R) by (apply sqrt_lt_R0; lra).
    destruct (Req_EM_T (sqrt 10) 0); [lra|]. destruct (Req_EM_T (sqrt 5) 0); [lra|]. apply Rdiv_lt_0_compat; [lra|]. apply Rmult_lt_0_compat; assumption.
  - change (records ("car red 2" ++ nl ++ "dog red 3" ++ nl ++ "dog blue 1")) with [["car"; "red"; "2"]; ["dog"; "red"; "3"]; ["dog"; "blue"; "1"]].
    change (vocabulary ("car" ++ nl ++ "dog")) with ["car"; "dog"]. change (vocabulary ("pen" ++ nl ++ "dog" ++ nl ++ "car")) with ["pen"; "dog"; "car"]. change (vocabulary "red") with ["red"]. change (vocabulary ("pink" ++ nl ++ "red")) with ["pink"; "red"].
    intros r [<-|[<-|[<-|[]]]]; unfold kept; cbn; split; intros (K1 & K2); intuition discriminate.
Qed.
(** the Euclidean similarity is excluded for words that one of the spaces lacks: there a word that is not known scores 0, a vector of zeros does not *)
Theorem C106_euclid : ~ (forall s1 s2 w v, same_counts s1 s2 -> get_sim s2 w v Euclid None = get_sim s1 w v Euclid None).
Proof.
  intros H. specialize (H sp_tab1 sp_tab3 "cow" "dog" tab13_counts). rewrite (C10_get_sim_missing sp_tab1 "cow" "dog" Euclid None tab1_ok tab1_ok) in H; [|left; cbn; intuition discriminate].
  rewrite (get_sim_rows sp_tab3 None "cow" "dog" 0 1 4 Euclid tab3_ok tab3_ok eq_refl eq_refl eq_refl eq_refl) in H. injection H as H. cbn [sim_spec] in H. unfold euclid_score in H.
  pose proof (sqrt_pos (SpecReal.dot 4 (fun i => ment (s_mat sp_tab3) 0 i - ment (s_mat (searched sp_tab3 None)) 1 i)%R (fun i => ment (s_mat sp_tab3) 0 i - ment (s_mat (searched sp_tab3 None)) 1 i)%R)) as P.
  unfold norm in H. revert H. apply Rgt_not_eq. apply Rdiv_lt_0_compat; [lra|]. apply Rplus_lt_le_0_compat; [lra|exact P].
Qed.
(** columns with negative sums are excluded from the claim about selections: a context that never occurs is then preferred to them *)
Definition neg1 : @matrix RNum := MD (@DM RNum 1 1 [[-1]])%R.
Definition neg2 : @matrix RNum := MD (@DM RNum 1 2 [[-1; 0]])%R.
Lemma neg1_wf : mwf neg1.  Proof. repeat split; cbn; try lia; repeat constructor. Qed.
Lemma neg2_wf : mwf neg2.  Proof. repeat split; cbn; try lia; repeat constructor. Qed.
Definition sp_neg1 : space := SP neg1 ["car"] ["x"] [("car", 0%Z)] [("x", 0%Z)] [] [1].
Definition sp_neg2 : space := SP neg2 ["car"] ["x"; "q"] [("car", 0%Z)] [("x", 0%Z); ("q", 1%Z)] [] [2].
Lemma neg1_ok : consistent sp_neg1.
Proof. eapply (mk_space_consistent neg1 ["car"] ["x"] None None [] None); [apply neg1_wf|constructor|exact Logic.I|exact Logic.I|reflexivity]. Qed.
Lemma neg2_ok : consistent sp_neg2.
Proof. eapply (mk_space_consistent neg2 ["car"] ["x"; "q"] None None [] None); [apply neg2_wf|constructor|exact Logic.I|exact Logic.I|reflexivity]. Qed.
Lemma neg_counts : same_counts sp_neg1 sp_neg2.
Proof.
  constructor; [exact neg1_ok|exact neg2_ok|discriminate|discriminate|reflexivity|]. intros w c. unfold value. cbn [s_id2row s_id2col s_mat sp_neg1 sp_neg2].
  destruct (in_dec string_dec w ["car"]) as [I1|I1]; [|reflexivity]. destruct I1 as [<-|[]].
  destruct (in_dec string_dec c ["x"; "q"]) as [I2|I2], (in_dec string_dec c ["x"]) as [I3|I3]; try reflexivity.
  - destruct I3 as [<-|[]]. reflexivity.
  - destruct I2 as [<-|[<-|[]]]; [exfalso; apply I3; left; reflexivity|reflexivity].
  - exfalso. apply I2. destruct I3 as [<-|[]]. left. reflexivity.
Qed.
Theorem C106_negative : ~ (forall s1 s2 c k, same_counts s1 s2 -> 0 < k -> clear_cut0 c k (s_mat s1) -> same_results (space_apply s1 (TFS c k)) (space_apply s2 (TFS c k))).
Proof.
  intros H. assert (Cut : clear_cut0 CSum 1 neg1).
  { intros sel a b B Ha Hb Hn _. exfalso. change (m_nc neg1) with 1 in *. pose proof (bc_range _ _ _ _ B a Ha). assert (a = b) by lia. subst. exact (Hn Ha). }
  specialize (H sp_neg1 sp_neg2 CSum 1 neg_counts (le_n 1) Cut).
  destruct (selected_space sp_neg1 CSum 1 neg1_ok ltac:(discriminate) (le_n 1)) as [(e & A & _)|(_ & t1 & K1 & l1 & E1 & _ & _ & _ & _ & B1 & EK1 & _ & _ & _ & V1 & _)]; [discriminate A|].
  destruct (selected_space sp_neg2 CSum 1 neg2_ok ltac:(discriminate) (le_n 1)) as [(e & A & _)|(_ & t2 & K2 & l2 & E2 & _ & _ & _ & _ & B2 & EK2 & _ & _ & _ & V2 & _)]; [discriminate A|].
  rewrite E1, E2 in H. cbn [same_results] in H. pose proof (sc_value _ _ H "car" "x") as Q. rewrite V1, V2 in Q. change (m_nc (s_mat sp_neg1)) with 1 in B1. change (m_nc (s_mat sp_neg2)) with 2 in B2.
  assert (L1 : l1 = [0]). { pose proof (bc_length _ _ _ _ B1) as L. cbn in L. destruct l1 as [|a [|? ?]]; try discriminate L. pose proof (bc_range _ _ _ _ B1 a (or_introl eq_refl)). f_equal. lia. }
  assert (L2 : l2 = [1]).
  { pose proof (bc_length _ _ _ _ B2) as L. cbn in L. destruct l2 as [|a [|? ?]]; try discriminate L. pose proof (bc_range _ _ _ _ B2 a (or_introl eq_refl)) as Ra. f_equal. destruct a as [|[|a]]; [exfalso|reflexivity|lia].
    destruct (bc_dropped _ _ _ _ B2 1 0 ltac:(lia) ltac:(intros [J|[]]; discriminate) (or_introl eq_refl)) as (K & _). change (s_mat sp_neg2) with neg2 in K. cbn in K. lra. }
  subst l1 l2. cbn in EK1, EK2. subst K1 K2. destruct (in_dec string_dec "x" ["x"]) as [J1|J1]; [|apply J1; left; reflexivity]. destruct (in_dec string_dec "x" ["q"]) as [J2|J2]; [destruct J2 as [J2|[]]; discriminate J2|].
  rewrite (value_at sp_neg1 0 0 "car" "x" neg1_ok eq_refl eq_refl) in Q. cbn in Q. lra.
Qed.
End Ex.
