(** Prop_Algebra.v -- property C84: how the composed vectors of the models relate to each other. *)
From Coq Require Import Reals Lra Psatz.
From Verif Require Import Base PyList Dict Num SpecReal Dense Sparse Matrix PSparse PMatrix PMatOps PShape PVals PReal PPos Scaling Linalg
  PLsq Learner Operation Similarity Space Peripheral SpecSpace PDictList PSpace Prop_Periph Composition SpecComp PComp Prop_Ridge Prop_Train Prop_Comp.
#[local] Existing Instance RNum.
Open Scope string_scope.
Open Scope list_scope.
Open Scope R_scope.
Open Scope nat_scope.

(** exchange the two words of a tuple *)
Definition swapped (t : tuple3) : tuple3 := let '(a, b, p) := t in (b, a, p).
(** two composed spaces of n dimensions have the same phrases and the same vectors, row by row *)
Definition same_vectors (s s' : space) (n : nat) : Prop :=
  m_nc (s_mat s) = n /\ m_nc (s_mat s') = n /\ s_id2row s = s_id2row s' /\
  forall i j, i < length (s_id2row s) -> j < n -> ment (s_mat s) i j = ment (s_mat s') i j.

Section WithExt.
Context {E : @Ext RNum}.
Lemma usable_swapped s1 s2 data : filter (usable2 s2 s1) (map swapped data) = map swapped (filter (usable2 s1 s2) data).
Proof.
  induction data as [|[[x y] p] data IH]; [reflexivity|]. cbn [map swapped filter usable2]. rewrite (andb_comm (known s2 y) (known s1 x)). rewrite IH.
  destruct (known s1 x && known s2 y); reflexivity.
Qed.
Lemma snd_swapped (l : list tuple3) : map snd (map swapped l) = map snd l.
Proof. rewrite map_map. apply map_ext. intros [[x y] p]. reflexivity. Qed.

(** two runs whose composed vectors agree tuple by tuple *)
Lemma same_by m m2 data data2 a a2 s1 s2 s1' s2' m' m2' s s' n (g : tuple3 -> tuple3) :
  consistent s1 -> consistent s2 -> args_of a s1 s2 -> fits (cm_kind m) (m_nc (s_mat s1)) (m_nc (s_mat s2)) -> compose m data a = (m', Ok s) ->
  consistent s1' -> consistent s2' -> args_of a2 s1' s2' -> fits (cm_kind m2) (m_nc (s_mat s1')) (m_nc (s_mat s2')) -> compose m2 data2 a2 = (m2', Ok s') ->
  filter (usable2 s1' s2') data2 = map g (filter (usable2 s1 s2) data) -> (forall t, snd (g t) = snd t) ->
  m_nc (s_mat s) = n -> m_nc (s_mat s') = n ->
  (forall i w1 w2 ph j w1' w2' ph', nth_error (filter (usable2 s1 s2) data) i = Some (w1, w2, ph) -> g (w1, w2, ph) = (w1', w2', ph') ->
     nth_error (filter (usable2 s1' s2') data2) i = Some (w1', w2', ph') -> j < n -> ment (s_mat s) i j = ment (s_mat s') i j) ->
  same_vectors s s' n.
Proof.
  intros C1 C2 Ha Hf Hs C1' C2' Ha' Hf' Hs' Hg Hsnd Hn Hn' He.
  destruct (C34_rows m data a s1 s2 m' s C1 C2 Ha Hf Hs) as (_ & R & _). destruct (C34_rows m2 data2 a2 s1' s2' m2' s' C1' C2' Ha' Hf' Hs') as (_ & R' & _).
  split; [exact Hn|]. split; [exact Hn'|]. split.
  - rewrite R, R', Hg, map_map. apply map_ext. intros t. symmetry. apply Hsnd.
  - intros i j Hi Hj. rewrite R, map_length in Hi. destruct (nth_error (filter (usable2 s1 s2) data) i) as [[[w1 w2] ph]|] eqn:Q.
    2:{ exfalso. apply nth_error_None in Q. apply (Nat.lt_irrefl i). eapply Nat.lt_le_trans; [exact Hi|exact Q]. }
    destruct (g (w1, w2, ph)) as [[w1' w2'] ph'] eqn:G. apply (He i w1 w2 ph j w1' w2' ph' Q G); [|exact Hj].
    rewrite Hg, nth_error_map, Q. cbn. rewrite G. reflexivity.
Qed.

(** ** Multiplicative is commutative *)
Theorem C84_multiplicative_commutes : forall m m2 data a a2 s1 s2 m' m2' s s', cm_kind m = Mult -> cm_kind m2 = Mult ->
  consistent s1 -> consistent s2 -> m_nc (s_mat s1) = m_nc (s_mat s2) -> args_of a s1 s2 -> args_of a2 s2 s1 ->
  compose m data a = (m', Ok s) -> compose m2 (map swapped data) a2 = (m2', Ok s') ->
  same_vectors s s' (m_nc (s_mat s1)).
Proof.
  intros m m2 data a a2 s1 s2 m' m2' s s' K K2 C1 C2 Hn Ha Ha2 H H2.
  destruct (C35_multiplicative m data a s1 s2 m' s K C1 C2 Ha Hn H) as (N1 & V1).
  destruct (C35_multiplicative m2 (map swapped data) a2 s2 s1 m2' s' K2 C2 C1 Ha2 (eq_sym Hn) H2) as (N2 & V2). rewrite <- Hn in N2, V2.
  apply (same_by m m2 data (map swapped data) a a2 s1 s2 s2 s1 m' m2' s s' _ swapped); try assumption.
  - rewrite K. exact Hn.
  - rewrite K2. exact (eq_sym Hn).
  - apply usable_swapped.
  - intros [[x y] p]. reflexivity.
  - intros i w1 w2 ph j w1' w2' ph' Hi Hg Hi' Hj. injection Hg as <- <- <-. rewrite (V1 i w1 w2 ph j Hi Hj), (V2 i w2 w1 ph j Hi' Hj). change (@F RNum) with R. ring.
Qed.
(** exchanging the words of WeightedAdditive is exchanging its two weights *)
Theorem C84_weighted_additive_swaps : forall m m2 al be data a a2 s1 s2 m' m2' s s', cm_kind m = WAdd al be -> cm_kind m2 = WAdd be al ->
  consistent s1 -> consistent s2 -> m_nc (s_mat s1) = m_nc (s_mat s2) -> args_of a s1 s2 -> args_of a2 s2 s1 ->
  compose m data a = (m', Ok s) -> compose m2 (map swapped data) a2 = (m2', Ok s') ->
  same_vectors s s' (m_nc (s_mat s1)).
Proof.
  intros m m2 al be data a a2 s1 s2 m' m2' s s' K K2 C1 C2 Hn Ha Ha2 H H2.
  destruct (C35_weighted_additive m al be data a s1 s2 m' s K C1 C2 Ha Hn H) as (N1 & V1).
  destruct (C35_weighted_additive m2 be al (map swapped data) a2 s2 s1 m2' s' K2 C2 C1 Ha2 (eq_sym Hn) H2) as (N2 & V2). rewrite <- Hn in N2, V2.
  apply (same_by m m2 data (map swapped data) a a2 s1 s2 s2 s1 m' m2' s s' _ swapped); try assumption.
  - rewrite K. exact Hn.
  - rewrite K2. exact (eq_sym Hn).
  - apply usable_swapped.
  - intros [[x y] p]. reflexivity.
  - intros i w1 w2 ph j w1' w2' ph' Hi Hg Hi' Hj. injection Hg as <- <- <-. rewrite (V1 i w1 w2 ph j Hi Hj), (V2 i w2 w1 ph j Hi' Hj). change (@F RNum) with R. ring.
Qed.
(** FullAdditive with the matrices al I and be I is WeightedAdditive with the weights al and be *)
Definition is_scalar (M : matrix) (n : nat) (x : R) : Prop :=
  mwf M /\ m_nr M = n /\ m_nc M = n /\ forall i j, i < n -> j < n -> ment M i j = (if Nat.eqb i j then x else 0)%R.
Lemma scalar_sum n M x (u : nat -> R) j : is_scalar M n x -> j < n -> rsum n (fun k => ment M j k * u k)%R = (x * u j)%R.
Proof.
  intros (_ & _ & _ & He) Hj. rewrite (rsum_single n j _ Hj).
  - rewrite (He j j Hj Hj), Nat.eqb_refl. reflexivity.
  - intros k Hk Hne. rewrite (He j k Hj Hk). destruct (Nat.eqb_spec j k); [congruence|ring].
Qed.
Theorem C84_full_additive_scalar : forall m A B al be L data a s1 s2 m' m2' s s', cm_kind m = WAdd al be ->
  consistent s1 -> consistent s2 -> m_nc (s_mat s1) = m_nc (s_mat s2) -> args_of a s1 s2 ->
  is_scalar A (m_nc (s_mat s1)) al -> is_scalar B (m_nc (s_mat s1)) be ->
  compose m data a = (m', Ok s) -> compose (mk_fadd (Some (A, B)) L) data a = (m2', Ok s') ->
  same_vectors s s' (m_nc (s_mat s1)).
Proof.
  intros m A B al be L data a s1 s2 m' m2' s s' K C1 C2 Hn Ha SA SB H H2. set (n := m_nc (s_mat s1)) in *.
  destruct (C35_weighted_additive m al be data a s1 s2 m' s K C1 C2 Ha Hn H) as (N1 & V1).
  pose proof SA as (WA & RA & CA & _). pose proof SB as (WB & RB & CB & _).
  destruct (C35_full_additive_given A B L data a s1 s2 m2' s' WA WB ltac:(congruence) CA ltac:(congruence) C1 C2 Ha H2) as (N2 & V2). rewrite RA in N2, V2.
  pose proof (vals_transpose A _ _ _ _ (vals_self A WA)) as VA.
  pose proof (vals_transpose _ _ _ _ _ (vals_conv (type_of A) B _ _ _ _ (vals_self B WB))) as VB.
  apply (same_by m (mk_fadd (Some (A, B)) L) data data a a s1 s2 s1 s2 m' m2' s s' n (fun t => t)); try assumption.
  - rewrite K. exact Hn.
  - cbn [mk_fadd to_compatible cm_kind fits]. split; [exact (vals_wf _ _ _ _ _ VA)|]. split; [exact (vals_wf _ _ _ _ _ VB)|].
    rewrite (vals_nr _ _ _ _ _ VA), (vals_nr _ _ _ _ _ VB), (vals_nc _ _ _ _ _ VA), (vals_nc _ _ _ _ _ VB). fold n; repeat split; congruence.
  - symmetry. apply map_id.
  - reflexivity.
  - intros i w1 w2 ph j w1' w2' ph' Hi Hg Hi' Hj. injection Hg as <- <- <-. rewrite (V1 i w1 w2 ph j Hi Hj), (V2 i w1 w2 ph j Hi Hj).
    rewrite CA, CB. rewrite (scalar_sum n A al (vec s1 w1) j SA Hj), (scalar_sum n B be (vec s2 w2) j SB Hj). reflexivity.
Qed.

(** ** Dilation stretches v along u by lambda and leaves it alone across, up to the factor |u|^2 *)
Theorem C84_dilation_stretches : forall m lambda data a s1 s2 m' s, cm_kind m = Dil lambda ->
  consistent s1 -> consistent s2 -> args_of a s1 s2 -> m_nc (s_mat s1) = m_nc (s_mat s2) -> compose m data a = (m', Ok s) ->
  forall i w1 w2 ph, nth_error (filter (usable2 s1 s2) data) i = Some (w1, w2, ph) ->
    let n := m_nc (s_mat s1) in let u := vec s1 w1 in let v := vec s2 w2 in let p := ment (s_mat s) i in
    dot n p u = (dot n u u * (lambda * dot n v u))%R /\
    (forall x, dot n u x = 0%R -> dot n p x = (dot n u u * dot n v x)%R).
Proof.
  intros m la data a s1 s2 m' s K C1 C2 Ha Hn H i w1 w2 ph Hi n u v p.
  destruct (C35_dilation m la data a s1 s2 m' s K C1 C2 Ha Hn H) as (_ & V).
  assert (D : forall x, dot n p x = (dot n u u * dot n v x + (la - 1) * dot n u v * dot n u x)%R).
  { intros x. unfold dot at 1. rewrite (rsum_ext n _ (fun j => dot n u u * (v j * x j) + (la - 1) * dot n u v * (u j * x j))%R).
    - rewrite rsum_plus, !rsum_scal_l. reflexivity.
    - intros j Hj. unfold p. rewrite (V i w1 w2 ph j Hi Hj). cbv zeta. fold n u v. ring. }
  split.
  - rewrite D, (dot_sym n u v). ring.
  - intros x Hx. rewrite D, Hx. ring.
Qed.
End WithExt.

(** ** example: the hypotheses hold of the two words of [ex_arg], in both orders *)
Example C84_example : exists m1 s1 m2 s2 m3 s3 m4 s4,
  consistent ex_arg /\ args_of (One ex_arg) ex_arg ex_arg /\
  compose mk_mult [("a", "b", "ab"); ("a", "zz", "ab")] (One ex_arg) = (m1, Ok s1) /\
  compose mk_mult (map swapped [("a", "b", "ab"); ("a", "zz", "ab")]) (One ex_arg) = (m2, Ok s2) /\
  compose (mk_wadd (Some 2%R) (Some 3%R)) [("a", "b", "ab")] (One ex_arg) = (m3, Ok s3) /\
  is_scalar (MD (DM 2 2 [[2; 0]; [0; 2]]%R)) 2 2%R /\ is_scalar (MD (DM 2 2 [[3; 0]; [0; 3]]%R)) 2 3%R /\
  compose (mk_fadd (Some (MD (DM 2 2 [[2; 0]; [0; 2]]%R), MD (DM 2 2 [[3; 0]; [0; 3]]%R))) None) [("a", "b", "ab")] (One ex_arg) = (m4, Ok s4).
Proof.
  do 8 eexists. split; [exact ex_arg_consistent|]. split; [left; auto|].
  split; [reflexivity|]. split; [reflexivity|]. split; [reflexivity|]. split; [|split; [|reflexivity]].
  - repeat split; cbn; try lia; [repeat constructor|]. intros i j Hi Hj. destruct i as [|[|i]], j as [|[|j]]; try lia; reflexivity.
  - repeat split; cbn; try lia; [repeat constructor|]. intros i j Hi Hj. destruct i as [|[|i]], j as [|[|j]]; try lia; reflexivity.
Qed.
