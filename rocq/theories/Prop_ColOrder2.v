(** Prop_ColOrder2.v -- property C104, continued: reading files, composition, and concrete cases. *)
From Coq Require Import Reals Lra Psatz Permutation Sorted Ascii.
From Verif Require Import Base PyList Dict Num SpecReal Dense Sparse Matrix PSparse PMatrix PMatOps PShape PVals PReal PPos PSort Scaling Linalg Operation
  Similarity Space Peripheral SpecSpace PDictList PSpace Prop_Space Prop_Scaling Prop_Sim Prop_Neigh PMoved Prop_Periph PCols Prop_Order Prop_Counts Prop_Transpose Prop_Unit
  Learner Composition SpecComp PComp Prop_Comp Utils LexFun Str PStr IO SpecIO PIO Prop_IO Prop_Lines Prop_ColOrder.
#[local] Existing Instance RNum.
Local Open Scope R_scope.
Local Open Scope string_scope.
Local Open Scope list_scope.
Local Open Scope nat_scope.

Section Files.
Context {E : @Ext RNum} {FI : @FloatIO RNum}.
Lemma sm_ok_cols Rr C1 C2 r : (forall w, In w C1 <-> In w C2) -> sm_ok Rr C1 r -> sm_ok Rr C2 r.
Proof. intros H (K1 & K2). split; [exact K1|]. intros I1 I2. apply K2; [exact I1|apply H, I2]. Qed.
(** a column file whose lines come in another order, and data whose lines come in another order *)
Theorem C104_build : forall fs1 fs2 data1 data2 rows1 rows2 cols1 cols2 dt1 dt2 rt1 rt2 ct1 ct2,
  text_at fs1 data1 dt1 -> text_at fs2 data2 dt2 -> Permutation (records dt1) (records dt2) ->
  opt_text fs1 rows1 dt1 rt1 -> opt_text fs2 rows2 dt2 rt2 -> vocabulary rt2 = vocabulary rt1 ->
  text_at fs1 cols1 ct1 -> text_at fs2 cols2 ct2 -> Permutation (records ct1) (records ct2) ->
  same_tables (build fs1 (Some data1) (Some "sm") rows1 (Some cols1)) (build fs2 (Some data2) (Some "sm") rows2 (Some cols2)).
Proof.
  intros fs1 fs2 data1 data2 rows1 rows2 cols1 cols2 dt1 dt2 rt1 rt2 ct1 ct2 D1 D2 PD R1 R2 ER C1 C2 PC.
  pose proof (vocabulary_words _ _ PC) as W.
  assert (Bad : forall (P : Prop), (vocabulary rt1 = [] \/ vocabulary ct1 = [] \/ ~ Forall (sm_ok (vocabulary rt1) (vocabulary ct1)) (records dt1)) ->
     same_tables (build fs1 (Some data1) (Some "sm") rows1 (Some cols1)) (build fs2 (Some data2) (Some "sm") rows2 (Some cols2))).
  { intros _ H. rewrite (C45_invalid fs1 data1 dt1 rows1 rt1 cols1 ct1 D1 R1 C1 H). rewrite (C45_invalid fs2 data2 dt2 rows2 rt2 cols2 ct2 D2 R2 C2); [reflexivity|].
    rewrite ER. destruct H as [H|[H|H]]; [left; exact H|right; left; exact (words_nil _ _ W H)|]. right; right. intros K. apply H.
    rewrite Forall_forall in *. intros r Hr. apply (sm_ok_cols _ (vocabulary ct2)); [intros w; symmetry; apply W|]. apply K. apply (Permutation_in _ PD), Hr. }
  destruct (forall_dec _ (records dt1) (sm_ok_dec (vocabulary rt1) (vocabulary ct1))) as [Hok|Hok]; [|apply (Bad True); auto].
  assert (D0 : vocabulary rt1 = [] \/ vocabulary rt1 <> []) by (destruct (vocabulary rt1); [left; reflexivity|right; discriminate]).
  destruct D0 as [D0|NR]; [apply (Bad True); auto|].
  assert (D0 : vocabulary ct1 = [] \/ vocabulary ct1 <> []) by (destruct (vocabulary ct1); [left; reflexivity|right; discriminate]).
  destruct D0 as [D0|NC]; [apply (Bad True); auto|]. clear Bad.
  assert (NC2 : vocabulary ct2 <> []) by (intros K; apply NC; apply (words_nil (vocabulary ct2)); [intros w; symmetry; apply W|exact K]).
  assert (Hok2 : Forall (sm_ok (vocabulary rt2) (vocabulary ct2)) (records dt2)).
  { rewrite ER. rewrite Forall_forall in *. intros r Hr. apply (sm_ok_cols _ (vocabulary ct1)); [exact W|]. apply Hok. apply (Permutation_in _ (Permutation_sym PD)), Hr. }
  destruct (C45_build fs1 data1 dt1 rows1 rt1 cols1 ct1 D1 R1 C1 NR NC Hok) as (s1 & B1 & K1 & _ & Er1 & Ec1 & _ & _ & O1 & V1).
  destruct (C45_build fs2 data2 dt2 rows2 rt2 cols2 ct2 D2 R2 C2 ltac:(congruence) NC2 Hok2) as (s2 & B2 & K2 & _ & Er2 & Ec2 & _ & _ & O2 & V2).
  rewrite B1, B2. cbn [same_tables].
  assert (N1 : m_nc (s_mat s1) = length (vocabulary ct1)) by (rewrite (labelled_width _ K1) by (rewrite Ec1; exact NC); rewrite Ec1; reflexivity).
  assert (N2 : m_nc (s_mat s2) = length (vocabulary ct2)) by (rewrite (labelled_width _ K2) by (rewrite Ec2; exact NC2); rewrite Ec2; reflexivity).
  pose proof K1 as (_&Q1&_&_&_&(Nd1&_)&_). pose proof K2 as (_&_&_&_&_&(Nd2&_)&_). rewrite Ec1 in Nd1. rewrite Ec2 in Nd2.
  split; try assumption; try congruence; [rewrite Ec1, Ec2; exact W| |].
  - rewrite (build_sm_eshape fs1 data1 dt1 rows1 rt1 cols1 ct1 s1 D1 R1 C1 B1), (build_sm_eshape fs2 data2 dt2 rows2 rt2 cols2 ct2 s2 D2 R2 C2 B2).
    rewrite N1, N2. f_equal. apply same_words_length; assumption.
  - intros i a b c Hi Ha Hb. destruct (nth_error (s_id2row s1) i) as [w|] eqn:Ew; [|apply nth_error_None in Ew; lia].
    rewrite (V1 i a w c Ew Ha), (V2 i b w c); [|rewrite Er2, ER, <- Er1; exact Ew|exact Hb]. symmetry. apply suml_perm, Permutation_map, counts_perm, PD.
Qed.
End Files.

(** ** composition with the models that have no matrices *)
Section Comp.
Context {E : @Ext RNum}.
(** a model that composes coordinate by coordinate or by dot products, and has not been trained or used *)
Definition fresh_scalar (m : cmodel) : Prop := cm_cols m = None /\ match cm_kind m with FAdd _ _ _ => False | _ => True end.
Lemma compose_cols m data a s1 s2 m' s : args_of a s1 s2 -> fresh_scalar m -> compose m data a = (m', Ok s) ->
  s_id2col s = s_id2col s1 /\ s_eshape s = [m_nc (s_mat s)] /\ s_id2col s1 = s_id2col s2.
Proof.
  intros Ha (Hm & Hk) Hs. unfold compose in Hs. destruct (compose_matrix (cm_kind m) data a) as [[[[c l3] x1] x2]|e] eqn:Ez; [|discriminate].
  assert (X : x1 = s1 /\ s_id2col s1 = s_id2col s2).
  { unfold compose_matrix in Ez. rewrite (args_extract a s1 s2 Ha) in Ez. destruct (strings_eqb (s_id2col s1) (s_id2col s2)) eqn:Es; [|discriminate]. apply strings_eqb_eq in Es. cbn [bind] in Ez.
    apply bind_ok in Ez. destruct Ez as ([[l1 l2] l4] & _ & Ez). apply bind_ok in Ez. destruct Ez as (y1 & _ & Ez). apply bind_ok in Ez. destruct Ez as (y2 & _ & Ez). apply bind_ok in Ez. destruct Ez as ([z1 z2] & _ & Ez). apply bind_ok in Ez. destruct Ez as (c' & _ & Ez).
    split; [congruence|exact Es]. }
  destruct X as (-> & X). rewrite Hm in Hs. assert (Eq : mk_space c l3 (build_id2column (cm_kind m) s1 x2) None None [] None = Ok s) by congruence.
  pose proof (mk_space_eshape _ _ _ _ _ _ _ Eq) as Sh. apply mk_space_fields in Eq. split; [|split; [exact Sh|exact X]]. destruct Eq as (_ & _ & Eq & _). rewrite Eq. destruct (cm_kind m); try reflexivity. contradiction.
Qed.
Lemma vec_turned s s' p w j : same_table s s' -> turned p (s_mat s) (s_mat s') -> In w (s_id2row s) -> j < m_nc (s_mat s) -> vec s' w (p j) = vec s w j.
Proof.
  intros H T Hw Hj. unfold vec. rewrite (st_rows _ _ H). destruct (pos_of_In (s_id2row s) w Hw) as (q & Hq). rewrite Hq. apply pos_of_some in Hq. pose proof (st_ok1 _ _ H) as (_&L&_). apply T; [apply nth_error_lt in Hq; lia|exact Hj].
Qed.
Theorem C104_compose : forall m m1 data a a' s1 s2 s1' s2' m2 s, same_table s1 s1' -> same_table s2 s2' -> s_id2col s1' = s_id2col s2' -> fresh_scalar m -> fresh_scalar m1 -> cm_kind m1 = cm_kind m ->
  args_of a s1 s2 -> args_of a' s1' s2' -> compose m data a = (m2, Ok s) -> exists m3 s', compose m1 data a' = (m3, Ok s') /\ same_table s s'.
Proof.
  intros m m1 data a a' s1 s2 s1' s2' m2 s H1 H2 Hl Hm Hm1 Hk Ha Ha' Hs.
  pose proof (st_ok1 _ _ H1) as C1. pose proof (st_ok2 _ _ H1) as C1'. pose proof (st_ok1 _ _ H2) as C2. pose proof (st_ok2 _ _ H2) as C2'.
  destruct (compose_cols m data a s1 s2 m2 s Ha Hm Hs) as (Lc & Sh & Eq). pose proof (table_back _ _ H1) as B1. pose proof (table_back _ _ H2) as B2.
  assert (N12 : m_nc (s_mat s1) = m_nc (s_mat s2)) by (rewrite (labelled_width _ C1 (st_labelled _ _ H1)), (labelled_width _ C2 (st_labelled _ _ H2)), Eq; reflexivity).
  assert (N12' : m_nc (s_mat s1') = m_nc (s_mat s2')) by (rewrite (labelled_width _ C1' (st_labelled _ _ B1)), (labelled_width _ C2' (st_labelled _ _ B2)), Hl; reflexivity).
  assert (Hf : fits (cm_kind m) (m_nc (s_mat s1)) (m_nc (s_mat s2))) by (destruct Hm as (_ & Km); destruct (cm_kind m); try exact N12; contradiction).
  assert (Hf' : fits (cm_kind m1) (m_nc (s_mat s1')) (m_nc (s_mat s2'))) by (rewrite Hk; destruct Hm as (_ & Km); destruct (cm_kind m); try exact N12'; contradiction).
  assert (EU : filter (usable2 s1' s2') data = filter (usable2 s1 s2) data).
  { apply filter_ext. intros [[x y] q]. cbn. unfold known. rewrite (st_rows _ _ H1), (st_rows _ _ H2). reflexivity. }
  destruct (C34_rows m data a s1 s2 m2 s C1 C2 Ha Hf Hs) as (C & Rw & _).
  assert (Dn : data <> []). { intros ->. unfold compose, compose_matrix in Hs. rewrite (args_extract a s1 s2 Ha) in Hs. destruct (strings_eqb _ _); discriminate Hs. }
  assert (Fn : filter (usable2 s1 s2) data <> []). { intros K. rewrite (proj2 (C33_compose_partial m data a s1 s2 C1 C2 Ha Dn) K) in Hs. discriminate. }
  assert (Nd : NoDup (map snd (filter (usable2 s1 s2) data))) by (rewrite <- Rw; apply C).
  destruct (proj1 (C34_total m1 data a' s1' s2' C1' C2' Ha' Hl Hf' ltac:(rewrite EU; exact Fn) ltac:(destruct Hm1 as (-> & _); exact I)) ltac:(rewrite EU; exact Nd)) as (s' & Hs').
  destruct (compose m1 data a') as [m3 r] eqn:Hc'. cbn [snd] in Hs'. subst r. exists m3, s'. split; [reflexivity|].
  destruct (C34_rows m1 data a' s1' s2' m3 s' C1' C2' Ha' Hf' Hc') as (C' & Rw' & _). rewrite EU in Rw'.
  destruct (compose_cols m1 data a' s1' s2' m3 s' Ha' Hm1 Hc') as (Lc' & Sh' & _).
  destruct (same_turned s1 s1' H1) as (p & T & K).
  assert (T2 : turned p (s_mat s2) (s_mat s2')).
  { constructor; [apply C2|apply C2'| | |rewrite <- N12; exact (tu_lt _ _ _ T)|rewrite <- N12; exact (tu_inj _ _ _ T)|].
    - pose proof C2 as (_&L&_). pose proof C2' as (_&L'&_). rewrite (st_rows _ _ H2) in L'. lia.
    - rewrite <- N12', <- N12. exact (tu_nc _ _ _ T).
    - intros i j Hi Hj. rewrite <- N12 in Hj. destruct (nth_error (s_id2col s1) j) as [c|] eqn:Ej; [|apply nth_error_None in Ej; rewrite (labelled_width _ C1 (st_labelled _ _ H1)) in Hj; lia].
      apply (st_entry _ _ H2 i j (p j) c Hi); [rewrite <- Eq; exact Ej|rewrite <- Hl, K by exact Hj; exact Ej]. }
  set (n := m_nc (s_mat s1)) in *. set (D := filter (usable2 s1 s2) data) in *.
  assert (Wd : m_nc (s_mat s) = n) by (rewrite (labelled_width _ C) by (rewrite Lc; apply H1); rewrite Lc; symmetry; apply labelled_width; [exact C1|apply H1]).
  assert (Wd' : m_nc (s_mat s') = n) by (rewrite (labelled_width _ C') by (rewrite Lc'; apply B1); rewrite Lc'; refine (eq_trans (eq_sym (labelled_width _ C1' (st_labelled _ _ B1))) _); exact (tu_nc _ _ _ T)).
  assert (Words : forall i w1 w2 ph, nth_error D i = Some (w1, w2, ph) -> In w1 (s_id2row s1) /\ In w2 (s_id2row s2)).
  { intros i w1 w2 ph Hi. apply nth_error_In in Hi. unfold D in Hi. apply filter_In in Hi. destruct Hi as (_ & Hi). cbn in Hi. apply andb_prop in Hi. destruct Hi as (I1 & I2). split; apply known_In; assumption. }
  assert (V1 : forall w j, In w (s_id2row s1) -> j < n -> vec s1' w (p j) = vec s1 w j) by (intros w j Hw Hj; apply vec_turned; assumption).
  assert (V2 : forall w j, In w (s_id2row s2) -> j < n -> vec s2' w (p j) = vec s2 w j) by (intros w j Hw Hj; apply vec_turned; try assumption; rewrite <- N12; exact Hj).
  assert (Ent : forall i j, i < length D -> j < n -> ment (s_mat s') i (p j) = ment (s_mat s) i j).
  { intros i j Hi Hj. destruct (nth_error D i) as [[[w1 w2] ph]|] eqn:Ei; [|apply nth_error_None in Ei; lia]. destruct (Words i w1 w2 ph Ei) as (I1 & I2). pose proof (tu_lt _ _ _ T j Hj) as Hpj.
    pose proof (tu_nc _ _ _ T) as Tn. fold n in Tn.
    destruct Hm as (_ & Km). destruct (cm_kind m) as [al be| |la|ab ic L] eqn:Ek; [| | |contradiction].
    - destruct (C35_weighted_additive m al be data a s1 s2 m2 s Ek C1 C2 Ha N12 Hs) as (_ & F). destruct (C35_weighted_additive m1 al be data a' s1' s2' m3 s' Hk C1' C2' Ha' N12' Hc') as (_ & F'). rewrite EU in F'.
      rewrite (F i w1 w2 ph j Ei Hj). refine (eq_trans (F' i w1 w2 ph (p j) Ei _) _); [rewrite Tn; exact Hpj|]. rewrite V1, V2 by assumption. reflexivity.
    - destruct (C35_multiplicative m data a s1 s2 m2 s Ek C1 C2 Ha N12 Hs) as (_ & F). destruct (C35_multiplicative m1 data a' s1' s2' m3 s' Hk C1' C2' Ha' N12' Hc') as (_ & F'). rewrite EU in F'.
      rewrite (F i w1 w2 ph j Ei Hj). refine (eq_trans (F' i w1 w2 ph (p j) Ei _) _); [rewrite Tn; exact Hpj|]. rewrite V1, V2 by assumption. reflexivity.
    - destruct (C35_dilation m la data a s1 s2 m2 s Ek C1 C2 Ha N12 Hs) as (_ & F). destruct (C35_dilation m1 la data a' s1' s2' m3 s' Hk C1' C2' Ha' N12' Hc') as (_ & F'). rewrite EU in F'.
      rewrite (F i w1 w2 ph j Ei Hj). refine (eq_trans (F' i w1 w2 ph (p j) Ei _) _); [rewrite Tn; exact Hpj|]. cbv zeta. rewrite Tn. fold n. rewrite V1, V2 by assumption.
      assert (Dd : forall u v u' v', (forall j, j < n -> u' (p j) = u j) -> (forall j, j < n -> v' (p j) = v j) -> SpecReal.dot n u' v' = SpecReal.dot n u v).
      { intros u v u' v' Hu Hv. exact (sim_turned Dot n p u v u' v' (tu_lt _ _ _ T) (tu_inj _ _ _ T) Hu Hv). }
      rewrite (Dd (vec s1 w1) (vec s1 w1) (vec s1' w1) (vec s1' w1)), (Dd (vec s1 w1) (vec s2 w2) (vec s1' w1) (vec s2' w2)) by (intros; first [apply V1|apply V2]; assumption). reflexivity. }
  assert (Nr : m_nr (s_mat s) = length D). { pose proof C as (_&L&_). rewrite <- L, Rw, map_length. reflexivity. }
  assert (Nr' : m_nr (s_mat s') = length D). { pose proof C' as (_&L&_). rewrite <- L, Rw', map_length. reflexivity. }
  apply (turned_same s s' p C C'); [congruence|rewrite Lc; apply H1|rewrite Lc'; apply B1|rewrite Sh, Sh'; congruence| |].
  - constructor; [apply C|apply C'|congruence|congruence|rewrite Wd; exact (tu_lt _ _ _ T)|rewrite Wd; exact (tu_inj _ _ _ T)|rewrite Wd, Nr; exact Ent].
  - rewrite Lc, Lc', Wd. exact K.
Qed.
End Comp.

(** ** concrete cases *)
Section Ex.
Context {E : @Ext RNum}.
Definition tab1 : @matrix RNum := MD (@DM RNum 2 3 [[1; 0; 3]; [2; 1; 0]])%R.
Definition tab2 : @matrix RNum := MD (@DM RNum 2 3 [[3; 1; 0]; [0; 2; 1]])%R.
Lemma tab1_wf : mwf tab1.  Proof. repeat split; cbn; try lia; repeat constructor. Qed.
Lemma tab2_wf : mwf tab2.  Proof. repeat split; cbn; try lia; repeat constructor. Qed.
Definition sp_tab1 : space := SP tab1 ["car"; "dog"] ["x"; "y"; "z"] [("car", 0%Z); ("dog", 1%Z)] [("x", 0%Z); ("y", 1%Z); ("z", 2%Z)] [] [3].
Definition sp_tab2 : space := SP tab2 ["car"; "dog"] ["z"; "x"; "y"] [("car", 0%Z); ("dog", 1%Z)] [("z", 0%Z); ("x", 1%Z); ("y", 2%Z)] [] [3].
Lemma tab1_ok : consistent sp_tab1.
Proof. eapply (mk_space_consistent tab1 ["car"; "dog"] ["x"; "y"; "z"] None None [] None); [apply tab1_wf|constructor|exact I|exact I|reflexivity]. Qed.
Lemma tab2_ok : consistent sp_tab2.
Proof. eapply (mk_space_consistent tab2 ["car"; "dog"] ["z"; "x"; "y"] None None [] None); [apply tab2_wf|constructor|exact I|exact I|reflexivity]. Qed.
Lemma tab_same : same_table sp_tab1 sp_tab2.
Proof.
  constructor; try reflexivity; [exact tab1_ok|exact tab2_ok|discriminate|intros c; cbn; tauto|].
  intros i a b c Hi Ha Hb. assert (Hi' : i < 2) by exact Hi. clear Hi. pose proof (nth_error_lt _ _ _ Ha) as La. pose proof (nth_error_lt _ _ _ Hb) as Lb. change (a < 3) in La. change (b < 3) in Lb.
  destruct i as [|[|i]]; [| |lia]; (destruct a as [|[|[|a]]]; [| | |lia]); (destruct b as [|[|[|b]]]; [| | |lia]); cbn in Ha, Hb; try congruence; reflexivity.
Qed.
Lemma tab_score1 j : j < 3 -> col_score CSum tab1 j = nth j [3; 1; 3]%R 0%R.
Proof. intros Hj. destruct j as [|[|[|j]]]; [| | |lia]; cbn; ring. Qed.
Lemma tab_score2 j : j < 3 -> col_score CSum tab2 j = nth j [3; 3; 1]%R 0%R.
Proof. intros Hj. destruct j as [|[|[|j]]]; [| | |lia]; cbn; ring. Qed.
Lemma tab_cut : clear_cut CSum 2 tab1.
Proof.
  intros sel a b B Ha Hb Hn Eq. change (m_nc tab1) with 3 in *. pose proof (bc_range _ _ _ _ B a Ha) as Ra. rewrite !tab_score1 in Eq by assumption.
  (* the two columns that score 3 are both kept *)
  assert (Hin : forall j, j < 3 -> j <> 1 -> In j sel).
  { intros j Hj Hj1. destruct (in_dec Nat.eq_dec j sel) as [I0|I0]; [exact I0|exfalso]. pose proof (bc_distinct _ _ _ _ B) as Nd. pose proof (bc_length _ _ _ _ B) as Ln. change (length sel = 2) in Ln.
    assert (I1 : In 1 sel).
    { destruct (in_dec Nat.eq_dec 1 sel) as [J|J]; [exact J|exfalso]. assert (Inc : incl sel [3 - 1 - j]).
      { intros x Hx. pose proof (bc_range _ _ _ _ B x Hx). left. assert (x <> j) by congruence. assert (x <> 1) by congruence. lia. }
      pose proof (NoDup_incl_length Nd Inc). cbn [length] in *. lia. }
    destruct (bc_dropped _ _ _ _ B j 1 Hj I0 I1) as (K & _). rewrite !tab_score1 in K by lia. destruct j as [|[|[|j]]]; [|lia| |lia]; cbn in K; lra. }
  destruct b as [|[|[|b]]]; [exact (Hn (Hin 0 ltac:(lia) ltac:(lia)))| |exact (Hn (Hin 2 ltac:(lia) ltac:(lia)))|lia].
  destruct a as [|[|[|a]]]; [cbn in Eq; lra|exact (Hn Ha)|cbn in Eq; lra|lia].
Qed.
Example C104_example : same_table sp_tab1 sp_tab2 /\ s_id2col sp_tab2 <> s_id2col sp_tab1 /\ clear_cuts sp_tab1 [TFS CSum 2; TScale Ppmi; TScale (RowNorm CLength)] /\
  same_tables_opt sp_tab1 sp_tab2 (Some sp_tab1) (Some sp_tab2) /\ fresh_scalar (mk_wadd None None) /\ fresh_scalar (mk_dil None) /\
  Permutation (records ("red" ++ nl ++ "blue")) (records ("blue" ++ nl ++ "red")) /\ vocabulary ("red" ++ nl ++ "blue") <> vocabulary ("blue" ++ nl ++ "red").
Proof.
  split; [exact tab_same|]. split; [discriminate|]. split; [|split; [split; [exact tab_same|split; reflexivity]|split; [split; [reflexivity|exact I]|split; [split; [reflexivity|exact I]|]]]].
  - split; [exact tab_cut|]. intros s' _. split; [exact I|]. intros s'' _. split; [exact I|]. intros s3 _. exact I.
  - split; [|vm_compute; discriminate]. change (Permutation [["red"]; ["blue"]] [["blue"]; ["red"]]). constructor.
Qed.
(** with a tie at the cut the order of the columns does decide: of two columns with equal scores the first is kept *)
Lemma one_best m s : m_nc m = 3 -> (forall j, j < 3 -> col_score CSum m j = nth j s 0%R) -> (nth 1 s 0 <= nth 0 s 0)%R -> (nth 2 s 0 <= nth 0 s 0)%R -> forall sel, best_columns (m_nc m) 1 (col_score CSum m) sel -> sel = [0].
Proof.
  intros Hn Hs L1 L2 sel B. pose proof (bc_length _ _ _ _ B) as Ln. rewrite Hn in *. change (length sel = 1) in Ln. destruct sel as [|a [|? ?]]; try discriminate. f_equal.
  pose proof (bc_range _ _ _ _ B a (or_introl eq_refl)) as Ra. destruct (Nat.eq_dec a 0) as [Z|Z]; [exact Z|exfalso].
  destruct (bc_dropped _ _ _ _ B 0 a ltac:(lia) ltac:(intros [Q|[]]; congruence) (or_introl eq_refl)) as (K & K2). rewrite !Hs in K, K2 by lia.
  destruct a as [|[|[|a]]]; [lia|specialize (K2 ltac:(lra)); lia|specialize (K2 ltac:(lra)); lia|lia].
Qed.
Theorem C104_tie : ~ (forall s1 s2 c k, same_table s1 s2 -> 0 < k -> same_tables (space_apply s1 (TFS c k)) (space_apply s2 (TFS c k))).
Proof.
  intros H. specialize (H sp_tab1 sp_tab2 CSum 1 tab_same (le_n 1)).
  destruct (C20_selection CSum 1 tab1 tab1_wf (le_n 1)) as (z1 & l1 & E1 & B1 & _). destruct (C20_selection CSum 1 tab2 tab2_wf (le_n 1)) as (z2 & l2 & E2 & B2 & _).
  assert (l1 = [0]) as -> by (apply (one_best tab1 [3; 1; 3]%R eq_refl tab_score1); [cbn; lra|cbn; lra|exact B1]).
  assert (l2 = [0]) as -> by (apply (one_best tab2 [3; 3; 1]%R eq_refl tab_score2); [cbn; lra|cbn; lra|exact B2]).
  pose proof (apply_fs sp_tab1 CSum 1 z1 [0] tab1_ok (le_n 1) E1) as A1. pose proof (apply_fs sp_tab2 CSum 1 z2 [0] tab2_ok (le_n 1) E2) as A2.
  change (fs_labels sp_tab1 [0]) with (@Ok (list string) ["x"]) in A1. change (fs_labels sp_tab2 [0]) with (@Ok (list string) ["z"]) in A2. cbv beta iota in A1, A2.
  destruct A1 as (s1 & Q1 & _ & _ & _ & L1 & _), A2 as (s2 & Q2 & _ & _ & _ & L2 & _). rewrite Q1, Q2 in H. cbn [same_tables] in H.
  pose proof (proj1 (st_labels _ _ H "x")) as K. rewrite L1, L2 in K. destruct (K (or_introl eq_refl)) as [K0|[]]. discriminate.
Qed.
End Ex.
