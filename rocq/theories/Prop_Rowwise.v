(** Prop_Rowwise.v -- property C89: positive logarithm and row normalisation treat each row on its own, so they can be applied
    before or after stacking two spaces. *)
From Coq Require Import Reals Lra.
From Verif Require Import Base PyList Dict Num SpecReal Dense Sparse Matrix PSparse PMatrix PMatOps PShape PVals PReal Scaling Linalg
  Operation Similarity Space Peripheral SpecSpace PDictList PSpace Prop_Space Prop_Scaling Prop_Periph Prop_Counts Prop_Order Prop_Unit.
#[local] Existing Instance RNum.
Local Open Scope string_scope.
Local Open Scope list_scope.
Local Open Scope R_scope.
Local Open Scope nat_scope.

(** ** specification *)
Definition row_wise (t : transformation) : Prop := t = TScale Plog \/ exists c, t = TScale (RowNorm c).
(** the same words in the same order, columns, shape and numbers; the recorded history may differ *)
Record same_table (s s' : space) : Prop := {
  st_rows : s_id2row s' = s_id2row s;
  st_cols : s_id2col s' = s_id2col s;
  st_shape : s_eshape s' = s_eshape s;
  st_nc : m_nc (s_mat s') = m_nc (s_mat s);
  st_ent : forall i j, i < m_nr (s_mat s) -> j < m_nc (s_mat s) -> ment (s_mat s') i j = ment (s_mat s) i j }.

Section WithExt.
Context {E : Ext}.
(** ** proof *)
Definition size_of (c : crit) (n : nat) (v : nat -> R) : R := match c with CSum => rsum n v | CLength => norm n v end.
Definition row_fun (t : transformation) (n : nat) (v : nat -> R) (j : nat) : R :=
  match t with
  | TScale (RowNorm c) => if Req_EM_T (size_of c n v) 0 then 0%R else (v j / size_of c n v)%R
  | _ => if Rle_dec 1 (v j) then ln (v j) else 0%R
  end.
Lemma row_fun_ext t n v v' j : row_wise t -> (forall k, k < n -> v k = v' k) -> j < n -> row_fun t n v j = row_fun t n v' j.
Proof.
  intros Ht Hv Hj. unfold row_fun. destruct Ht as [->|(c & ->)]; [rewrite (Hv j Hj); reflexivity|].
  assert (E1 : size_of c n v = size_of c n v') by (destruct c; cbn [size_of]; [apply rsum_ext, Hv|apply norm_ext, Hv]). rewrite E1, (Hv j Hj). reflexivity.
Qed.
Lemma row_wise_value s t : consistent s -> row_wise t -> exists s', space_apply s t = Ok s' /\ consistent s' /\ s_id2row s' = s_id2row s /\ s_row2id s' = s_row2id s /\
  s_id2col s' = s_id2col s /\ m_nc (s_mat s') = m_nc (s_mat s) /\ m_nr (s_mat s') = m_nr (s_mat s) /\ s_eshape s' = [m_nc (s_mat s)] /\
  forall i j, i < m_nr (s_mat s) -> j < m_nc (s_mat s) -> ment (s_mat s') i j = row_fun t (m_nc (s_mat s)) (ment (s_mat s) i) j.
Proof.
  intros C Ht. pose proof C as (W & _).
  assert (X : exists sc z, t = TScale sc /\ scaling_apply sc (s_mat s) None = Ok z /\ result_of (s_mat s) z (fun i j => row_fun t (m_nc (s_mat s)) (ment (s_mat s) i) j)).
  { destruct Ht as [->|(c & ->)].
    - destruct (C17_plog (s_mat s) W) as (z & Ez & Rz & _). exists Plog, z. auto.
    - destruct (C18_row_normalization c (s_mat s) W) as (z & Ez & Rz & _). exists (RowNorm c), z. split; [reflexivity|]. split; [exact Ez|].
      destruct Rz as (A1 & A2 & A3 & A4 & A5). repeat (split; [assumption|]). intros i j Hi Hj. rewrite (A5 i j Hi Hj). destruct c; reflexivity. }
  destruct X as (sc & z & -> & Ez & (A1 & A2 & A3 & A4 & A5)).
  destruct (apply_scale s sc z C Ez) as (s' & Es & Cs & Em & Er & Ec & Eh). exists s'. rewrite Em, A3, A4.
  destruct (space_apply_ok s (TScale sc) s' C I Es) as (m&o&o0&ic&ci&_&E1&_). rewrite A4 in Eh. split; [exact Es|]. split; [exact Cs|]. split; [exact Er|].
  split; [rewrite E1; reflexivity|]. auto.
Qed.
Lemma same_table_refl s : same_table s s.  Proof. split; auto. Qed.
Lemma same_table_trans a b c : consistent a -> consistent b -> same_table a b -> same_table b c -> same_table a c.
Proof.
  intros Ca Cb H K. pose proof Ca as (_&La&_). pose proof Cb as (_&Lb&_). destruct H as [r1 c1 h1 n1 e1], K as [r2 c2 h2 n2 e2].
  assert (Hnr : m_nr (s_mat b) = m_nr (s_mat a)) by congruence. split; try congruence.
  intros i j Hi Hj. rewrite e2 by congruence. apply e1; assumption.
Qed.
Lemma apply_same s s' t : consistent s -> consistent s' -> same_table s s' -> row_wise t ->
  exists z z', space_apply s t = Ok z /\ space_apply s' t = Ok z' /\ consistent z /\ consistent z' /\ same_table z z'.
Proof.
  intros C C' H Ht. destruct (row_wise_value s t C Ht) as (z & Ez & Cz & R1 & _ & L1 & N1 & M1 & S1 & V1).
  destruct (row_wise_value s' t C' Ht) as (z' & Ez' & Cz' & R2 & _ & L2 & N2 & M2 & S2 & V2). exists z, z'. do 4 (split; [assumption|]).
  pose proof C as (_&Lr&_). pose proof C' as (_&Lr'&_). destruct H as [hr hc hs hn he].
  split; try congruence. intros i j Hi Hj. rewrite M1 in Hi. rewrite N1 in Hj.
  assert (Hi' : i < m_nr (s_mat s')) by congruence. rewrite (V2 i j Hi' ltac:(congruence)), (V1 i j Hi Hj), hn. apply row_fun_ext; [exact Ht| |exact Hj].
  intros k Hk. apply he; assumption.
Qed.
Lemma vstack_apply a b s t : consistent a -> positional_rows a -> consistent b -> space_vstack a b = Ok s -> row_wise t ->
  exists a' b' s' z, space_apply a t = Ok a' /\ space_apply b t = Ok b' /\ consistent a' /\ positional_rows a' /\ consistent b' /\
    space_vstack a' b' = Ok s' /\ space_apply s t = Ok z /\ consistent s' /\ consistent z /\ same_table z s'.
Proof.
  intros Ca Pa Cb V Ht. destruct (C04_vstack_vectors _ _ _ Ca Cb V) as (R0&L0&_&_&C0&N0&_). pose proof (vstack_entries _ _ _ Ca Cb V) as X0.
  destruct (space_vstack_ok _ _ _ Ca Cb V) as (m0&d0&E0&_&H1&H2&_).
  destruct (row_wise_value a t Ca Ht) as (a' & Ea & Ca' & R1 & P1 & L1 & N1 & M1 & S1 & V1).
  destruct (row_wise_value b t Cb Ht) as (b' & Eb & Cb' & R2 & _ & L2 & N2 & M2 & S2 & V2).
  destruct (row_wise_value s t C0 Ht) as (z & Ez & Cz & R3 & _ & L3 & N3 & M3 & S3 & V3).
  assert (Pa' : positional_rows a') by (unfold positional_rows; rewrite R1, P1; exact Pa).
  destruct (C04_vstack a b Ca Pa Cb) as ((F & _) & _). destruct (F (ex_intro _ s V)) as (F1 & F2 & F3).
  destruct (C04_vstack a' b' Ca' Pa' Cb') as ((_ & G) & _). destruct G as (s' & V'). { rewrite N1, N2, L1, L2, R1, R2. auto. }
  destruct (C04_vstack_vectors _ _ _ Ca' Cb' V') as (R4&L4&_&_&C4&N4&_). pose proof (vstack_entries _ _ _ Ca' Cb' V') as X4.
  destruct (space_vstack_ok _ _ _ Ca' Cb' V') as (m4&d4&E4&_).
  exists a', b', s', z. do 9 (split; [assumption|]).
  assert (Hn : m_nc (s_mat s') = m_nc (s_mat s)) by congruence.
  pose proof C0 as (_&LL0&_). pose proof C4 as (_&LL4&_). pose proof Ca as (_&LLa&_). pose proof Cb as (_&LLb&_).
  assert (Hs' : s_eshape s' = [m_nc (s_mat s')]) by (rewrite E4; reflexivity).
  split; try congruence. intros i j Hi Hj. rewrite M3 in Hi. rewrite N3 in Hj.
  assert (Hi' : i < m_nr (s_mat s')) by (rewrite <- LL4, R4, R1, R2, <- R0, LL0; exact Hi).
  rewrite (X4 i j Hi' ltac:(congruence)), (V3 i j Hi Hj), M1.
  assert (Hr : m_nr (s_mat s) = m_nr (s_mat a) + m_nr (s_mat b)) by (rewrite <- LL0, R0, app_length; congruence).
  destruct (Nat.ltb_spec i (m_nr (s_mat a))) as [Hlt|Hge].
  - rewrite (V1 i j Hlt ltac:(congruence)), <- N0. apply row_fun_ext; [exact Ht| |congruence]. intros k Hk. rewrite (X0 i k Hi Hk), (proj2 (Nat.ltb_lt _ _) Hlt). reflexivity.
  - rewrite (V2 (i - m_nr (s_mat a)) j ltac:(lia) ltac:(congruence)), <- H2, <- N0. apply row_fun_ext; [exact Ht| |congruence].
    intros k Hk. rewrite (X0 i k Hi Hk). destruct (Nat.ltb_spec i (m_nr (s_mat a))); [lia|reflexivity].
Qed.
(** ** C89 *)
Theorem C89_stacking : forall ts a b s, consistent a -> positional_rows a -> consistent b -> Forall row_wise ts -> space_vstack a b = Ok s ->
  exists a' b' s' z, apply_all a ts = Ok a' /\ apply_all b ts = Ok b' /\ space_vstack a' b' = Ok s' /\ apply_all s ts = Ok z /\ same_table z s'.
Proof.
  intros ts a b s Ca Pa Cb Ht V.
  assert (G : forall ts a b s s0, consistent a -> positional_rows a -> consistent b -> consistent s -> Forall row_wise ts -> space_vstack a b = Ok s0 -> same_table s s0 ->
    exists a' b' s' z, apply_all a ts = Ok a' /\ apply_all b ts = Ok b' /\ space_vstack a' b' = Ok s' /\ apply_all s ts = Ok z /\ same_table z s').
  { clear. induction ts as [|t ts IH]; intros a b s s0 Ca Pa Cb Cs Ht V H; cbn [apply_all]; [exists a, b, s0, s; auto|].
    inversion Ht as [|? ? Ht1 Ht2]; subst x l. destruct (vstack_apply a b s0 t Ca Pa Cb V Ht1) as (a' & b' & s' & z & -> & -> & Ca' & Pa' & Cb' & V' & Ez & Cs' & Cz & K).
    destruct (C04_vstack_vectors _ _ _ Ca Cb V) as (_&_&_&_&C0&_).
    destruct (apply_same s s0 t Cs C0 H Ht1) as (y & z' & -> & Ez' & Cy & Cz' & K'). assert (z' = z) by congruence. subst z'. cbn [bind].
    apply (IH a' b' y s'); try assumption. exact (same_table_trans y z s' Cy Cz K' K). }
  destruct (C04_vstack_vectors _ _ _ Ca Cb V) as (_&_&_&_&C0&_). exact (G ts a b s s Ca Pa Cb C0 Ht V (same_table_refl s)).
Qed.
(** conversely, when the transformed spaces can be stacked, the original ones can *)
Theorem C89_stackable : forall ts a b a' b', consistent a -> positional_rows a -> consistent b -> Forall row_wise ts ->
  apply_all a ts = Ok a' -> apply_all b ts = Ok b' -> ((exists s, space_vstack a b = Ok s) <-> (exists s', space_vstack a' b' = Ok s')).
Proof.
  intros ts a b a' b' Ca Pa Cb Ht Ea Eb.
  assert (G : forall ts a a', consistent a -> positional_rows a \/ True -> Forall row_wise ts -> apply_all a ts = Ok a' ->
     consistent a' /\ s_id2row a' = s_id2row a /\ s_row2id a' = s_row2id a /\ s_id2col a' = s_id2col a /\ m_nc (s_mat a') = m_nc (s_mat a)).
  { clear. induction ts as [|t ts IH]; intros a a' Ca P Ht H; cbn [apply_all] in H; [assert (a = a') as <- by congruence; auto|].
    inversion Ht as [|? ? Ht1 Ht2]; subst x l. destruct (row_wise_value a t Ca Ht1) as (z & Ez & Cz & R1 & P1 & L1 & N1 & _). rewrite Ez in H. cbn [bind] in H.
    destruct (IH z a' Cz (or_intror I) Ht2 H) as (Q0 & Q1 & Q2 & Q3 & Q4). split; [exact Q0|]. rewrite Q1, Q2, Q3, Q4. auto. }
  destruct (G ts a a' Ca (or_intror I) Ht Ea) as (Ca' & R1 & P1 & L1 & N1). destruct (G ts b b' Cb (or_intror I) Ht Eb) as (Cb' & R2 & P2 & L2 & N2).
  assert (Pa' : positional_rows a') by (unfold positional_rows; rewrite R1, P1; exact Pa).
  rewrite (proj1 (C04_vstack a b Ca Pa Cb)), (proj1 (C04_vstack a' b' Ca' Pa' Cb')), R1, R2, L1, L2, N1, N2. reflexivity.
Qed.
End WithExt.
Lemma sp_len_consistent : consistent sp_len.
Proof. eapply (mk_space_consistent m_len ["car"; "dog"] ["x"; "y"] None None [] None); [apply m_len_wf|constructor|exact I|exact I|reflexivity]. Qed.
Definition sp_one : space := SP (MS (csr_of_dense (@DM RNum 1 2 [[0; 5]%R]))) ["cow"] ["x"; "y"] [("cow", 0%Z)] [("x", 0%Z); ("y", 1%Z)] [] [2].
Lemma sp_one_consistent : consistent sp_one.
Proof.
  apply (mk_space_consistent (MS (csr_of_dense (@DM RNum 1 2 [[0; 5]%R]))) ["cow"] ["x"; "y"] None None [] None); [|constructor|exact I|exact I|reflexivity].
  apply (conv_wf TSparse (MD (@DM RNum 1 2 [[0; 5]%R]))). repeat split; cbn; try lia; repeat constructor.
Qed.
Example C89_example {E : Ext} : exists a' b' s' z, let ts := [TScale (RowNorm CLength); TScale Plog] in
  consistent sp_len /\ positional_rows sp_len /\ consistent sp_one /\ Forall row_wise ts /\
  apply_all sp_len ts = Ok a' /\ apply_all sp_one ts = Ok b' /\ space_vstack a' b' = Ok s' /\ same_table z s' /\ s_id2row z = ["car"; "dog"; "cow"].
Proof.
  assert (P : positional_rows sp_len) by (apply (list2dict_inverse ["car"; "dog"]); reflexivity).
  assert (T : Forall row_wise [TScale (RowNorm CLength); TScale Plog]) by (constructor; [right; eauto|constructor; [left; reflexivity|constructor]]).
  destruct (proj2 (proj1 (C04_vstack sp_len sp_one sp_len_consistent P sp_one_consistent))) as (s & V).
  { split; [reflexivity|]. split; [reflexivity|]. cbn. intros w [<-|[<-|[]]] [K|[]]; discriminate. }
  destruct (C89_stacking _ sp_len sp_one s sp_len_consistent P sp_one_consistent T V) as (a' & b' & s' & z & E1 & E2 & V' & E3 & K).
  exists a', b', s', z. cbv zeta. pose proof sp_len_consistent. pose proof sp_one_consistent. do 8 (split; [assumption|]). 
  assert (R : s_id2row z = s_id2row s).
  { cbn [apply_all] in E3. destruct (C04_vstack_vectors _ _ _ sp_len_consistent sp_one_consistent V) as (_&_&_&_&C0&_).
    inversion T as [|? ? T1 T2]. inversion T2 as [|? ? T3 _]. destruct (row_wise_value s _ C0 T1) as (y & Ey & Cy & Ry & _). rewrite Ey in E3. cbn [bind] in E3.
    destruct (row_wise_value y _ Cy T3) as (y' & Ey' & _ & Ry' & _). rewrite Ey' in E3. cbn [bind] in E3. congruence. }
  rewrite R. rewrite (proj1 (C04_vstack_vectors _ _ _ sp_len_consistent sp_one_consistent V)). reflexivity.
Qed.
