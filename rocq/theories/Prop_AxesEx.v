(** Prop_AxesEx.v -- a concrete case for C103: "car" = (3, 4, 0) and "dog" = (0, 0, 1) reduced to two dimensions. *)
From Coq Require Import Reals Lra Psatz.
From Verif Require Import Base PyList Dict Num SpecReal Dense Sparse Matrix PSparse PMatrix PMatOps PShape PVals PReal PPos PSort Scaling Linalg
  PLsq Learner Operation Similarity Space Peripheral SpecSpace PDictList PSpace Prop_Space Prop_Sim Prop_Neigh PMoved Prop_Svd PEckart Prop_SvdBest Prop_Periph PCols Prop_Order Prop_Counts Prop_Unit
  Composition SpecComp PComp Prop_Ridge Prop_Train Prop_Comp Prop_Axes Prop_AxesSvd.
#[local] Existing Instance RNum.
Open Scope string_scope.
Open Scope list_scope.
Open Scope R_scope.
Open Scope nat_scope.
Definition f51 (i j : nat) : R := match i, j with 0, 0 => 3%R | 0, 1 => 4%R | 1, 2 => 1%R | _, _ => 0%R end.
Definition s51 (a : nat) : R := match a with 0 => 5%R | _ => 1%R end.
Definition v51 (a j : nat) : R := match a, j with 0, 0 => (3/5)%R | 0, 1 => (4/5)%R | 1, 2 => 1%R | _, _ => 0%R end.
Definition is51 (f : nat -> nat -> R) : bool :=
  (Reqb (f 0 0) 3 && Reqb (f 0 1) 4 && Reqb (f 0 2) 0 && Reqb (f 1 0) 0 && Reqb (f 1 1) 0 && Reqb (f 1 2) 1)%bool.
Definition E51 : @Ext RNum := {|
  e_svd := fun d => if (Nat.eqb (d_nr d) 2 && Nat.eqb (d_nc d) 3 && is51 (dent d))%bool then Ok (delta, s51, v51) else Err LinAlgError;
  e_sparsesvd := fun c k => Err LinAlgError;
  e_pinv := fun _ => Err LinAlgError; e_lstsq := fun _ _ => Err LinAlgError;
  e_rndcol := fun _ _ => O; e_rndrow := fun _ _ => O; e_timeout := fun _ => false |}.
Lemma E51_svd : @numpy_svd_correct E51.
Proof.
  intros d u s vt W H. cbn [e_svd E51] in H. destruct (Nat.eqb_spec (d_nr d) 2) as [R2|]; [|discriminate]. destruct (Nat.eqb_spec (d_nc d) 3) as [C2|]; [|discriminate].
  destruct (is51 (dent d)) eqn:Q; [|discriminate]. cbn [andb] in H. injection H as <- <- <-. rewrite R2, C2. cbn [Nat.min].
  unfold is51 in Q. rewrite !andb_true_iff, !Reqb_eq in Q. destruct Q as (((((A & B) & C) & D) & G) & K).
  assert (T : forall i, i < 2 -> i = 0 \/ i = 1) by (intros; lia). assert (T3 : forall i, i < 3 -> i = 0 \/ i = 1 \/ i = 2) by (intros; lia).
  split; [|split; [|split]].
  - constructor.
    + intros i a Hi Ha; destruct (T i Hi) as [-> | ->], (T a Ha) as [-> | ->]; unfold delta; cbn; ring.
    + intros i a Hi Ha; destruct (T i Hi) as [-> | ->], (T a Ha) as [-> | ->]; unfold delta; cbn; field.
    + intros i a Hi Ha; destruct (T i Hi) as [-> | ->], (T a Ha) as [-> | ->]; unfold delta; cbn; rewrite ?A, ?B, ?C, ?D, ?G, ?K; field.
  - intros i j Hi Hj; destruct (T i Hi) as [-> | ->], (T3 j Hj) as [-> | [-> | ->]]; unfold delta; cbn; rewrite ?A, ?B, ?C, ?D, ?G, ?K; field.
  - intros a b Hab Hb. destruct (T b Hb) as [-> | ->]; destruct a as [|[|a]]; try lia; cbn; lra.
  - intros a Ha. destruct (T a Ha) as [-> | ->]; cbn; lra.
Qed.
Lemma E51_sparse : @sparsesvd_leading E51.
Proof. intros c k dim ut s vt W H. discriminate H. Qed.
Definition d51 : dmat := tab 2 3 f51.
Lemma d51_wf : mwf (MD d51).  Proof. apply tab_wf; lia. Qed.
Definition sp51 : space := SP (MD d51) ["car"; "dog"] [] [("car", 0%Z); ("dog", 1%Z)] [] [] [3].
Lemma sp51_consistent : consistent sp51.
Proof. eapply (mk_space_consistent (MD d51) ["car"; "dog"] [] None None [] None); [apply d51_wf|constructor|exact I|exact I|reflexivity]. Qed.
Lemma is51_d51 : is51 (dent d51) = true.
Proof. cbn; unfold is51, Reqb; cbn; repeat destruct (Req_EM_T _ _); try reflexivity; exfalso; lra. Qed.
Lemma rank51 : rank_at_most 2 (MD d51).
Proof.
  exists (fun i a => delta i a), f51. intros i j Hi Hj. change (i < 2) in Hi. change (j < 3) in Hj. change (ment (MD d51) i j) with (dent (tab 2 3 f51) i j). rewrite dent_tab by assumption.
  destruct i as [|[|i]]; [| |cbn in Hi; lia]; unfold delta; cbn [rsum Nat.eqb]; change (@F RNum) with R; ring.
Qed.
Lemma no_tiny51 : @no_tiny E51 (MD d51).
Proof.
  cbn [no_tiny]. intros u s vt a H Ha. cbn [e_svd E51] in H. rewrite is51_d51 in H. cbn in H. injection H as <- <- <-. right.
  unfold tolerance, s51. destruct a; lra.
Qed.
Lemma project_ok v k m2 : mwf v -> mwf m2 -> m_nc m2 = m_nr v -> exists r2, op_project (OpDim DSvd k (Some v)) m2 = Ok r2.
Proof.
  intros Wv W H. cbn [op_project]. unfold dim_project. cbn [bind].
  destruct (resolve2 m2 v (Some (type_of m2))) as [[m' tm']|e] eqn:R1.
  2:{ exfalso. unfold resolve2, resolve_type_conflict in R1. destruct (type_conflict [m2; v]); discriminate R1. }
  cbn [bind]. destruct (resolve2_ok _ _ _ _ _ W Wv R1) as (W' & Wt' & Tt & D1 & D2).
  assert (C1 : m_nc m' = m_nc m2) by (rewrite <- (to_dense_nc m'), <- (to_dense_nc m2), D1; reflexivity).
  assert (R2 : m_nr tm' = m_nr v) by (rewrite <- (to_dense_nr tm'), <- (to_dense_nr v), D2; reflexivity).
  pose proof (vals_self m' W') as V1. pose proof (vals_self tm' Wt') as V2. rewrite C1, H in V1. rewrite R2, <- Tt in V2.
  destruct (vals_mul _ _ _ _ _ _ _ _ V1 V2) as (p' & -> & _). cbn [bind]. eauto.
Qed.
(** the peripheral word "bike" = (4, 3, 2) is not in the span of the core words *)
Definition bike : matrix := MD (@DM RNum 1 3 [[4; 3; 2]])%R.
Lemma bike_wf : mwf bike.  Proof. repeat split; cbn; try lia; repeat constructor. Qed.
Example C103_example : exists s' p p', @svd_pair E51 2 sp51 s' p p' /\ m_nc (s_mat s') = 2 /\ s_id2row p = ["bike"] /\ m_nc (s_mat p) = m_nc (s_mat sp51) /\
  same_geometry 3 2 [(sp51, s')] /\ ~ in_row_space (s_mat p) (s_mat sp51) /\
  get_sim p' "bike" "car" Dot (Some s') = Ok 24%R.
Proof.
  assert (Es : @e_svd RNum E51 d51 = Ok (delta, s51, v51)) by (cbn [e_svd E51]; rewrite is51_d51; reflexivity).
  assert (Rk : count (Rltb tolerance) (map s51 (seq 0 2)) = 2) by (unfold count; cbn; unfold Rltb, tolerance; repeat (destruct (Rlt_dec _ _); [|lra]); reflexivity).
  destruct (@C21_apply_dense E51 2 d51 delta s51 v51 d51_wf ltac:(lia) E51_svd Es) as (_ & H1). cbv zeta in H1.
  destruct (H1 (fun Z => O_S 1 (eq_trans (eq_sym Z) Rk))) as (r & o & z & Ho & _ & Wr & _ & Rr & Cr0 & _). clear H1.
  assert (Cr : m_nc r = 2) by (etransitivity; [exact Cr0|exact (f_equal (Nat.min 2) Rk)]). clear Cr0. cbn [d_nr d51 tab] in Rr.
  destruct (@svd_gram E51 2 (MD d51) r o d51_wf ltac:(lia) E51_svd E51_sparse rank51 no_tiny51 Ho) as (_ & _ & (v & Eo & Wv & Rv & Cv & _) & _). subst o.
  assert (Hs : exists s', @space_apply RNum E51 sp51 (TDim DSvd 2) = Ok s').
  { unfold space_apply. cbn [s_mat sp51]. rewrite Ho. cbn [bind]. unfold mk_space. cbn. rewrite Rr, Cr. cbn. eexists. reflexivity. }
  destruct Hs as (s' & Hs). destruct (@space_apply_ok RNum E51 sp51 (TDim DSvd 2) s' sp51_consistent ltac:(cbn; lia) Hs) as (r1 & o1 & o0 & ic & ci & HA & Es' & Eo1 & Ecol & _ & _ & C').
  cbn [s_mat sp51] in HA. assert (Q : r1 = r /\ o0 = OpDim DSvd 2 (Some v)) by (split; congruence). destruct Q as (-> & ->). destruct Ecol as (-> & -> & _).
  assert (St : stable sp51) by reflexivity. pose proof (apply_stable _ _ _ St Hs) as St'.
  assert (Hp : @mk_peripheral RNum sp51 bike ["bike"] None = Ok (SP bike ["bike"] [] (numbered ["bike"]) [] [] [3])) by reflexivity.
  destruct (project_ok v 2 bike Wv bike_wf (eq_sym Rv)) as (q & Hq). destruct (project_linear v 2 bike q Wv bike_wf Hq) as (_ & Rq & Cq & _).
  assert (Hp' : @mk_peripheral RNum s' bike ["bike"] None = Ok (SP q ["bike"] [] (numbered ["bike"]) [] [OpDim DSvd 2 (Some v)] [m_nc q])).
  { subst s' o1. unfold mk_peripheral. cbn [s_ops s_id2col s_col2id sp51 app]. cbn [list2dict]. cbn [project_ops op_columns]. rewrite Hq. cbn. rewrite Rq, Cq, Cv, Cr. cbn. reflexivity. }
  eexists s', _, _.
  assert (P : @svd_pair E51 2 sp51 s' (SP bike ["bike"] [] (numbered ["bike"]) [] [] [3]) (SP q ["bike"] [] (numbered ["bike"]) [] [OpDim DSvd 2 (Some v)] [m_nc q])).
  { split; [exact sp51_consistent|]. split; [lia|]. split; [exact E51_svd|]. split; [exact E51_sparse|]. split; [exact rank51|]. split; [exact no_tiny51|]. split; [exact Hs|].
    exists bike, ["bike"], None. split; [exact bike_wf|]. split; [exact I|]. split; [exact Hp|exact Hp']. }
  pose proof (@pair_vectors E51 2 sp51 s' _ _ P eq_refl) as HP.
  assert (Em : s_mat s' = r) by (rewrite Es'; reflexivity).
  split; [exact P|]. split; [rewrite Em; exact Cr|]. split; [reflexivity|]. split; [reflexivity|]. split; [|split].
  - pose proof (@C103_svd E51 2 sp51 s' sp51_consistent ltac:(lia) E51_svd E51_sparse rank51 no_tiny51 Hs) as G. rewrite Em, Cr in G. exact G.
  - intros K. destruct (K 0 ltac:(cbn; lia)) as (c & Hc). pose proof (Hc 0 ltac:(cbn; lia)) as X0. pose proof (Hc 1 ltac:(cbn; lia)) as X1. cbn in X0, X1. lra.
  - rewrite <- (@C103_svd_dot E51 2 sp51 s' _ _ "bike" "car" P eq_refl).
    pose proof HP as (C1 & C2 & C3 & _).
    rewrite (get_sim_rows (SP bike ["bike"] [] (numbered ["bike"]) [] [] [3]) (Some sp51) "bike" "car" 0 0 3 Dot C2 sp51_consistent eq_refl eq_refl eq_refl eq_refl).
    apply (f_equal (@Ok R)). cbn. ring.
Qed.
