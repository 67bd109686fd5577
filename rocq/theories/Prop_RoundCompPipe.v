(** Prop_RoundCompPipe.v -- property C109: composing vectors that already carry rounding errors. *)
From Coq Require Import Reals Lra Psatz.
From Verif Require Import Base PyList Dict Num SpecReal Dense Sparse Matrix PSparse PMatrix PMatOps PShape PVals PReal PPos Scaling Linalg Operation Similarity Space
  Peripheral SpecSpace PSpace Prop_Space Prop_Periph Prop_Scaling Prop_Sim Prop_Neigh Learner Composition SpecComp PComp Prop_Comp Utils LexFun PLexAny Round PRound Prop_Round Prop_RoundSim Prop_RoundNeigh Prop_RoundSel Prop_RoundPipe Prop_RoundComp.

Section Typed.
Context {N : Num}.
Lemma compose_matrix_typed k data a s1 s2 : consistent s1 -> consistent s2 -> args_of a s1 s2 -> s_id2col s1 = s_id2col s2 ->
  fits k (m_nc (s_mat s1)) (m_nc (s_mat s2)) -> filter (usable2 s1 s2) data <> [] ->
  exists z, compose_matrix k data a = Ok (z, map t3 (filter (usable2 s1 s2) data), s1, s2) /\
    vals z (if mtype_eqb (type_of (s_mat s1)) (type_of (s_mat s2)) then type_of (s_mat s1) else TDense) (length (filter (usable2 s1 s2) data)) (width k (m_nc (s_mat s1)))
      (fun i j => gform k (m_nc (s_mat s1)) (m_nc (s_mat s2))
                    (vec s1 (nth i (map t1 (filter (usable2 s1 s2) data)) ""))
                    (vec s2 (nth i (map t2 (filter (usable2 s1 s2) data)) "")) j).
Proof.
  intros C1 C2 Ha Hc Hf Hne. unfold compose_matrix. rewrite (args_extract a s1 s2 Ha), (proj2 (strings_eqb_eq _ _) Hc). cbn [bind].
  rewrite (valid_data_ok data _ _ _ _ (valid_eq2 s1 s2 C1 C2) Hne). cbn [bind]. set (v := filter (usable2 s1 s2) data) in *.
  assert (Hk : forall t, In t v -> known s1 (t1 t) = true /\ known s2 (t2 t) = true).
  { intros t Ht. apply filter_In in Ht. destruct Ht as (_ & Ht). destruct t as [[p q] r]. apply andb_true_iff in Ht. exact Ht. }
  destruct (get_rows_vals s1 (map t1 v) C1) as (u & -> & Vu).
  { destruct v; [congruence|discriminate]. } { intros w Hw. apply in_map_iff in Hw. destruct Hw as (t & <- & Ht). apply Hk, Ht. }
  cbn [bind]. destruct (get_rows_vals s2 (map t2 v) C2) as (w & -> & Vw).
  { destruct v; [congruence|discriminate]. } { intros y Hy. apply in_map_iff in Hy. destruct Hy as (t & <- & Ht). apply Hk, Ht. }
  cbn [bind]. rewrite map_length in Vu, Vw. destruct (resolve2_vals u w _ _ _ _ _ _ _ _ Vu Vw) as (u' & w' & t & -> & Vu' & Vw' & Et). cbn [bind].
  destruct (kind_compose_vals k u' w' t _ _ _ _ _ Vu' Vw' Hf) as (z & -> & Vz). cbn [bind]. exists z. split; [reflexivity|]. rewrite <- Et. exact Vz.
Qed.
End Typed.
Open Scope R_scope.

(** a model of the rounding machine and an exact one with the same numbers *)
Definition same_kind {o : ops} (kf : @ckind (FNum o)) (kd : @ckind RNum) : Prop :=
  match kf, kd with
  | WAdd a b, WAdd a' b' => (a : R) = a' /\ (b : R) = b'
  | Mult, Mult => True
  | Dil l, Dil l' => (l : R) = l'
  | _, _ => False end.
Definition same_model {o : ops} (m : @cmodel (FNum o)) (e : @cmodel RNum) : Prop := cm_cols m = cm_cols e /\ same_kind (cm_kind m) (cm_kind e).
(** rounding errors of a composed vector of n coordinates, those of the arguments having k *)
Definition comp_errors (kd : @ckind RNum) (n k : nat) : nat :=
  match kd with WAdd _ _ => k + 2 | Mult => 2 * k + 1 | Dil _ => 3 * k + n + 7 | FAdd _ _ _ => 0 end%nat.
(** what they are relative to: the exact vector with all terms taken as positive *)
Definition comp_size (kd : @ckind RNum) (n : nat) (u v : nat -> R) (j : nat) : R :=
  match kd with
  | WAdd a b => Rabs (a * u j) + Rabs (b * v j)
  | Mult => Rabs (u j * v j)
  | Dil l => dot n u u * Rabs (v j) + Rabs (l - 1) * rsum n (fun q => Rabs (u q) * Rabs (v q)) * Rabs (u j)
  | FAdd _ _ _ => 0 end.
(** models that make vectors without negative numbers from such vectors *)
Definition keeps_sign (kd : @ckind RNum) : Prop :=
  match kd with WAdd a b => (0 : R) <= a /\ (0 : R) <= b | Mult => True | Dil l => (1 : R) <= l | FAdd _ _ _ => False end.

Section Comp.
Context (o : ops) (t tl : R) (SM : standard o t tl).
Local Notation FN := (FNum o).
Let Ht : 1 <= t := st_t _ _ _ SM.
Local Notation offt := (off t).

Lemma near_weak j k x y : (j <= k)%nat -> near t j x y -> near t k x y.
Proof. apply near_mono, Ht. Qed.
(** one coordinate *)
Section Coordinate.
Context (n k : nat) (u v u' v' : nat -> R) (j : nat) (Hj : (j < n)%nat) (Hu : forall q, (q < n)%nat -> near t k (u' q) (u q)) (Hv : forall q, (q < n)%nat -> near t k (v' q) (v q)).
Lemma squares_near : near t (2 * k + n + 5) (@fsq FN (@fsqrt FN (@sumn FN n (fun q => @fmul FN (u' q) (u' q))))) (dot n u u).
Proof.
  assert (N2 : near t (S (k + k) + n) (@sumn FN n (fun q => @fmul FN (u' q) (u' q))) (dot n u u)).
  { apply (near_sumn o t tl SM). intros q Hq. split; [apply Rle_0_sqr|]. apply (near_fmul o t tl SM); apply Hu, Hq. }
  assert (D0 : 0 <= dot n u u) by (apply rsum_nonneg; intros; apply Rle_0_sqr).
  set (h := ((2 * k + n + 2) / 2)%nat). assert (Hh : (S (k + k) + n <= 2 * h /\ 2 * h <= 2 * k + n + 2)%nat).
  { unfold h. pose proof (Nat.div_mod_eq (2 * k + n + 2) 2). pose proof (Nat.mod_upper_bound (2 * k + n + 2) 2 ltac:(lia)). lia. }
  pose proof (near_fsqrt o t tl SM h _ _ D0 (near_weak _ (2 * h) _ _ (proj1 Hh) N2)) as Q. pose proof (near_fsq o t tl SM _ _ _ Q) as Q2. rewrite sqrt_sqrt in Q2 by exact D0.
  apply (near_weak (S (2 * S h))); [lia|exact Q2].
Qed.
Lemma exact_dil la : @gform RNum (@Dil RNum la) n n u v j = u j * dot n u v * (la - 1) + v j * dot n u u.
Proof.
  cbn [gform]. assert (D0 : 0 <= dot n u u) by (apply rsum_nonneg; intros; apply Rle_0_sqr). rewrite !sumn_R.
  change (u j * dot n u v * (la - 1) + v j * (sqrt (dot n u u) * sqrt (dot n u u)) = u j * dot n u v * (la - 1) + v j * dot n u u). rewrite sqrt_sqrt by exact D0. reflexivity.
Qed.
Lemma dil_terms la : offt (S (S (k + (S (k + k) + n)) + 1)) (@fmul FN (@fmul FN (u' j) (@sumn FN n (fun q => @fmul FN (u' q) (v' q)))) (@fsub FN la (@f1 FN)))
  (u j * dot n u v * (la - 1)) (Rabs (u j) * rsum n (fun q => Rabs (u q) * Rabs (v q)) * Rabs (la - 1)) /\
  near t (S (k + (2 * k + n + 5))) (@fmul FN (v' j) (@fsq FN (@fsqrt FN (@sumn FN n (fun q => @fmul FN (u' q) (u' q)))))) (v j * dot n u u).
Proof.
  split; [|apply (near_fmul o t tl SM); [apply Hv, Hj|exact squares_near]].
  refine (off_fmul o t tl SM _ _ _ _ _ _ _ _ (off_fmul o t tl SM _ _ _ _ _ _ _ _ (off_near o t tl SM _ _ _ (Hu j Hj)) _) (off_near o t tl SM _ _ _ (st_sub _ _ _ SM la 1))).
  apply (off_sumn o t tl SM). intros q Hq. exact (off_fmul o t tl SM _ _ _ _ _ _ _ _ (off_near o t tl SM _ _ _ (Hu q Hq)) (off_near o t tl SM _ _ _ (Hv q Hq))).
Qed.
Lemma gform_off kf kd : @same_kind o kf kd ->
  Rabs (@gform FN kf n n u' v' j - @gform RNum kd n n u v j) <= (t ^ comp_errors kd n k - 1) * comp_size kd n u v j.
Proof.
  intros H. unfold same_kind in H. destruct kf as [a b| |l|ab ic L], kd as [a' b'| |l'|ab' ic' L']; try contradiction.
  - destruct H as (-> & ->). cbn [comp_errors comp_size]. replace (k + 2)%nat with (S (S k)) by lia.
    pose proof (near_fmul o t tl SM _ _ _ _ _ _ (Hu j Hj) (near_refl t Ht 0 a')) as P1. pose proof (near_fmul o t tl SM _ _ _ _ _ _ (Hv j Hj) (near_refl t Ht 0 b')) as P2. rewrite Nat.add_0_r in P1, P2.
    pose proof (off_fadd o t tl SM (S k) _ _ _ _ _ _ (off_near o t tl SM _ _ _ P1) (off_near o t tl SM _ _ _ P2)) as (_ & B). rewrite (Rmult_comm a'), (Rmult_comm b'). exact B.
  - cbn [comp_errors comp_size]. pose proof (near_fmul o t tl SM _ _ _ _ _ _ (Hu j Hj) (Hv j Hj)) as P. pose proof (off_near o t tl SM _ _ _ P) as (_ & B). replace (2 * k + 1)%nat with (S (k + k)) by lia. exact B.
  - subst l'. rewrite exact_dil. cbn [comp_errors comp_size gform]. destruct (dil_terms l) as (P1 & P2). assert (D0 : 0 <= dot n u u) by (apply rsum_nonneg; intros; apply Rle_0_sqr).
    pose proof (off_near o t tl SM _ _ _ P2) as P3.
    eapply (off_mono o t tl SM) with (k := (3 * k + n + 6)%nat) in P1; [|lia]. eapply (off_mono o t tl SM) with (k := (3 * k + n + 6)%nat) in P3; [|lia].
    pose proof (off_fadd o t tl SM (3 * k + n + 6) _ _ _ _ _ _ P1 P3) as (_ & B).
    rewrite Rabs_mult, (Rabs_pos_eq (dot n u u) D0) in B. replace (3 * k + n + 7)%nat with (S (3 * k + n + 6)) by lia.
    replace (dot n u u * Rabs (v j) + Rabs (l - 1) * rsum n (fun q => Rabs (u q) * Rabs (v q)) * Rabs (u j)) with
      (Rabs (u j) * rsum n (fun q => Rabs (u q) * Rabs (v q)) * Rabs (l - 1) + Rabs (v j) * dot n u u) by ring.
    exact B.
Qed.
Lemma gform_near kf kd : @same_kind o kf kd ->
  keeps_sign kd -> (forall q, (q < n)%nat -> 0 <= u q) -> (forall q, (q < n)%nat -> 0 <= v q) ->
  near t (comp_errors kd n k) (@gform FN kf n n u' v' j) (@gform RNum kd n n u v j) /\ (0 : R) <= @gform RNum kd n n u v j.
Proof.
  intros H KS Pu Pv. unfold same_kind in H. pose proof (Pu j Hj) as U0. pose proof (Pv j Hj) as V0. destruct kf as [a b| |l|ab ic L], kd as [a' b'| |l'|ab' ic' L']; try contradiction; cbn [keeps_sign] in KS.
  - destruct H as (-> & ->). destruct KS as (A0 & B0). cbn [comp_errors gform]. replace (k + 2)%nat with (S (S k)) by lia.
    pose proof (near_fmul o t tl SM _ _ _ _ _ _ (Hu j Hj) (near_refl t Ht 0 a')) as P1. pose proof (near_fmul o t tl SM _ _ _ _ _ _ (Hv j Hj) (near_refl t Ht 0 b')) as P2. rewrite Nat.add_0_r in P1, P2.
    split; [|change (0 <= u j * a' + v j * b'); apply Rplus_le_le_0_compat; apply Rmult_le_pos; assumption]. refine (near_fadd o t tl SM (S k) _ _ _ _ _ _ P1 P2); apply Rmult_le_pos; assumption.
  - cbn [comp_errors gform]. split; [|change (0 <= u j * v j); apply Rmult_le_pos; assumption]. replace (2 * k + 1)%nat with (S (k + k)) by lia. exact (near_fmul o t tl SM _ _ _ _ _ _ (Hu j Hj) (Hv j Hj)).
  - subst l'. rewrite exact_dil. cbn [comp_errors gform]. destruct (dil_terms l) as (_ & P2). assert (D0 : 0 <= dot n u u) by (apply rsum_nonneg; intros; apply Rle_0_sqr).
    assert (D1 : 0 <= dot n u v) by (apply rsum_nonneg; intros q Hq; apply Rmult_le_pos; auto). assert (L0 : 0 <= l - 1) by lra.
    assert (S1 : near t (S (k + k) + n) (@sumn FN n (fun q => @fmul FN (u' q) (v' q))) (dot n u v)).
    { apply (near_sumn o t tl SM). intros q Hq. split; [apply Rmult_le_pos; auto|]. apply (near_fmul o t tl SM); auto. }
    pose proof (near_fmul o t tl SM _ _ _ _ _ _ (near_fmul o t tl SM _ _ _ _ _ _ (Hu j Hj) S1) (st_sub _ _ _ SM l 1)) as P1.
    assert (X0 : 0 <= u j * dot n u v * (l - 1)) by (repeat apply Rmult_le_pos; assumption). assert (Y0 : 0 <= v j * dot n u u) by (apply Rmult_le_pos; assumption).
    split; [|lra]. replace (3 * k + n + 7)%nat with (S (3 * k + n + 6)) by lia. refine (near_fadd o t tl SM (3 * k + n + 6) _ _ _ _ X0 Y0 (near_weak _ _ _ _ _ P1) (near_weak _ _ _ _ _ P2)); lia.
Qed.
End Coordinate.

(** ** composed spaces *)
Lemma vec_close k s e w j : close t k s e -> (j < @m_nc RNum (s_mat e))%nat -> near t k (@vec FN s w j) (@vec RNum e w j).
Proof.
  intros H Hj. pose proof H as [C1 C2 ER _ _ _ _ A]. unfold vec. rewrite ER. destruct (pos_of (s_id2row e) w) as [p|] eqn:Ep; [|apply near_refl, Ht].
  destruct A as (_ & _ & _ & _ & _ & G). apply G; [|exact Hj]. destruct C2 as (_ & L & _). rewrite <- L. apply pos_of_some in Ep. apply nth_error_Some. congruence.
Qed.
Lemma vec_nonneg e w j : @consistent RNum e -> nonneg (s_mat e) -> (j < @m_nc RNum (s_mat e))%nat -> 0 <= @vec RNum e w j.
Proof.
  intros (_ & L & _) P Hj. unfold vec. destruct (pos_of (s_id2row e) w) as [p|] eqn:Ep; [|apply Rle_refl]. apply P; [|exact Hj]. rewrite <- L. apply pos_of_some in Ep. apply nth_error_Some. congruence.
Qed.
Lemma usable_close k s1 e1 s2 e2 : close t k s1 e1 -> close t k s2 e2 -> forall x, @usable2 FN s1 s2 x = @usable2 RNum e1 e2 x.
Proof. intros H1 H2 [[a b] c]. unfold usable2, known. rewrite (cl_rows _ _ _ _ H1), (cl_rows _ _ _ _ H2). reflexivity. Qed.
Lemma kind_fits kf kd n : @same_kind o kf kd -> @fits FN kf n n /\ @fits RNum kd n n /\ @width FN kf n = n /\ @width RNum kd n = n.
Proof. unfold same_kind. destruct kf as [| | |], kd as [| | |]; intros H; try contradiction; repeat split; reflexivity. Qed.
Lemma kind_labels kf kd s1 s2 e1 e2 : @same_kind o kf kd -> s_id2col s1 = s_id2col e1 -> @build_id2column FN kf s1 s2 = @build_id2column RNum kd e1 e2.
Proof. unfold same_kind. destruct kf as [| | |], kd as [| | |]; intros H K; try contradiction; exact K. Qed.
(** the two compositions up to the matrices *)
Definition near_matrices (kd : @ckind RNum) (k : nat) (e1 e2 : @space RNum) (data : list tuple3) (z : @matrix FN) (z' : @matrix RNum) : Prop :=
  let n := @m_nc RNum (s_mat e1) in
  type_of z = type_of z' /\ @m_nr FN z = @m_nr RNum z' /\ @m_nc FN z = @m_nc RNum z' /\ @mwf FN z /\ @mwf RNum z' /\ @m_nc RNum z' = n /\
  (forall i w1 w2 ph j, nth_error (filter (@usable2 RNum e1 e2) data) i = Some (w1, w2, ph) -> (j < n)%nat ->
     Rabs (fent z i j - @ment RNum z' i j) <= (t ^ comp_errors kd n k - 1) * comp_size kd n (@vec RNum e1 w1) (@vec RNum e2 w2) j) /\
  (keeps_sign kd -> nonneg (s_mat e1) -> nonneg (s_mat e2) -> approx t (comp_errors kd n k) z z' /\ nonneg z').
Lemma compose_matrices kf kd k data a a' s1 s2 e1 e2 : @same_kind o kf kd -> close t k s1 e1 -> close t k s2 e2 -> @args_of FN a s1 s2 -> @args_of RNum a' e1 e2 ->
  @m_nc RNum (s_mat e1) = @m_nc RNum (s_mat e2) ->
  match @compose_matrix FN kf data a, @compose_matrix RNum kd data a' with
  | Ok (z, l, x, y), Ok (z', l', x', y') => near_matrices kd k e1 e2 data z z' /\ l = l' /\ x = s1 /\ x' = e1
  | Err x, Err x' => x = x' | _, _ => False end.
Proof.
  intros K H1 H2 Ha Ha' Hn. pose proof H1 as [C1 D1 R1 L1 _ _ _ A1]. pose proof H2 as [C2 D2 R2 L2 _ _ _ A2]. set (n := @m_nc RNum (s_mat e1)) in *.
  pose proof A1 as (T1 & _ & N1 & _). pose proof A2 as (T2 & _ & N2 & _). pose proof (kind_fits kf kd n K) as (F1 & F2 & W1 & W2).
  destruct (strings_eqb (s_id2col e1) (s_id2col e2)) eqn:Ec.
  2:{ unfold compose_matrix. rewrite (@args_extract FN a s1 s2 Ha), (@args_extract RNum a' e1 e2 Ha'), L1, L2, Ec. reflexivity. }
  assert (Ec' : strings_eqb (s_id2col s1) (s_id2col s2) = true) by (rewrite L1, L2; exact Ec).
  assert (FE : filter (@usable2 FN s1 s2) data = filter (@usable2 RNum e1 e2) data) by (apply filter_ext, (usable_close k); assumption).
  destruct (filter (@usable2 RNum e1 e2) data) as [|y0 ys] eqn:Ef.
  { unfold compose_matrix. rewrite (@args_extract FN a s1 s2 Ha), (@args_extract RNum a' e1 e2 Ha'), Ec, Ec'. cbn [bind].
    rewrite (@valid_data_eq data _ _ _ _ (@valid_eq2 FN s1 s2 C1 C2)), (@valid_data_eq data _ _ _ _ (@valid_eq2 RNum e1 e2 D1 D2)), FE, Ef. destruct data; reflexivity. }
  assert (Ne : filter (@usable2 RNum e1 e2) data <> []) by (rewrite Ef; discriminate).
  assert (Ne' : filter (@usable2 FN s1 s2) data <> []) by (rewrite FE; discriminate).
  destruct (@compose_matrix_typed FN kf data a s1 s2 C1 C2 Ha (proj1 (strings_eqb_eq _ _) Ec') ltac:(rewrite N1, N2; fold n; rewrite <- Hn; exact F1) Ne') as (z & -> & Vz).
  destruct (@compose_matrix_typed RNum kd data a' e1 e2 D1 D2 Ha' (proj1 (strings_eqb_eq _ _) Ec) ltac:(fold n; rewrite <- Hn; exact F2) Ne) as (z' & -> & Vz').
  rewrite T1, T2, N1, N2 in Vz. fold n in Vz, Vz'. rewrite <- Hn in Vz, Vz'. rewrite W1 in Vz. rewrite W2 in Vz'. rewrite FE in Vz |- *. rewrite <- Ef in Vz |- *. clear FE.
  set (V := filter (@usable2 RNum e1 e2) data) in *. split; [|auto].
  pose proof (@vals_has FN _ _ _ _ _ Vz) as (Z1 & Z2 & Z3 & Z4). pose proof (@vals_has RNum _ _ _ _ _ Vz') as (Y1 & Y2 & Y3 & Y4).
  split; [rewrite Z2, Y2; reflexivity|]. split; [rewrite Z3, Y3; reflexivity|]. split; [rewrite Z4, Y4; reflexivity|]. split; [exact Z1|]. split; [exact Y1|]. split; [exact Y4|]. split.
  - intros i w1 w2 ph j Hi Hj. fold V in Hi. assert (Hl : (i < length V)%nat) by (apply nth_error_Some; rewrite Hi; discriminate). unfold fent. rewrite (@vals_ent FN _ _ _ _ _ i j Vz Hl Hj), (@vals_ent RNum _ _ _ _ _ i j Vz' Hl Hj).
    rewrite (map_nth_default t1 V i _ ""%string Hi), (map_nth_default t2 V i _ ""%string Hi). unfold t1, t2. cbn [fst snd].
    apply (gform_off n k _ _ _ _ j Hj); [intros q Hq; apply vec_close; assumption|intros q Hq; apply vec_close; [assumption|rewrite <- Hn; exact Hq]|exact K].
  - intros KS P1 P2.
    assert (G : forall i j, (i < length V)%nat -> (j < n)%nat -> near t (comp_errors kd n k) (@gform FN kf n n (@vec FN s1 (nth i (map t1 V) ""%string)) (@vec FN s2 (nth i (map t2 V) ""%string)) j)
        (@gform RNum kd n n (@vec RNum e1 (nth i (map t1 V) ""%string)) (@vec RNum e2 (nth i (map t2 V) ""%string)) j) /\ (0 : R) <= @gform RNum kd n n (@vec RNum e1 (nth i (map t1 V) ""%string)) (@vec RNum e2 (nth i (map t2 V) ""%string)) j).
    { intros i j _ Hj. apply gform_near; try assumption.
      - intros q Hq. apply vec_close; assumption.
      - intros q Hq. apply vec_close; [assumption|rewrite <- Hn; exact Hq].
      - intros q Hq. apply vec_nonneg; assumption.
      - intros q Hq. apply vec_nonneg; [assumption|assumption|rewrite <- Hn; exact Hq]. }
    split.
    + refine (vals_approx o t _ _ _ _ _ _ _ _ Vz Vz' _). intros i j Hi Hj. exact (proj1 (G i j Hi Hj)).
    + intros i j Hi Hj. rewrite Y3 in Hi. rewrite Y4 in Hj. rewrite (@vals_ent RNum _ _ _ _ _ i j Vz' Hi Hj). exact (proj2 (G i j Hi Hj)).
Qed.
Lemma mk_space_same z z' r c : @m_nr FN z = @m_nr RNum z' -> @m_nc FN z = @m_nc RNum z' ->
  match @mk_space FN z r c None None [] None, @mk_space RNum z' r c None None [] None with
  | Ok x, Ok y => s_id2row x = s_id2row y /\ s_id2col x = s_id2col y /\ s_row2id x = s_row2id y /\ s_col2id x = s_col2id y /\ s_eshape x = s_eshape y /\ s_mat x = z /\ s_mat y = z'
  | Err e, Err e' => e = e' | _, _ => False end.
Proof.
  intros E1 E2. unfold mk_space. rewrite E1, E2. destruct (list2dict r); cbn [bind]; [|reflexivity]. destruct (list2dict c); cbn [bind]; [|reflexivity].
  destruct (assert_shape_consistent _ _ _ _ _ _); cbn [bind]; [|reflexivity]. cbn. auto 10.
Qed.
(** the same exception, or composed spaces with the same labels and nearly the same vectors *)
Theorem C109_compose : forall m m1 k data a a' s1 s2 e1 e2, same_model m m1 -> close t k s1 e1 -> close t k s2 e2 -> @args_of FN a s1 s2 -> @args_of RNum a' e1 e2 ->
  @m_nc RNum (s_mat e1) = @m_nc RNum (s_mat e2) ->
  let n := @m_nc RNum (s_mat e1) in
  match snd (@compose FN m data a), snd (@compose RNum m1 data a') with
  | Ok s, Ok e => @consistent FN s /\ @consistent RNum e /\ s_id2row s = s_id2row e /\ s_id2col s = s_id2col e /\ @m_nc FN (s_mat s) = n /\ @m_nc RNum (s_mat e) = n /\
      (forall i w1 w2 ph j, nth_error (filter (@usable2 RNum e1 e2) data) i = Some (w1, w2, ph) -> (j < n)%nat ->
         nth_error (s_id2row e) i = Some ph /\
         Rabs (fent (s_mat s) i j - @ment RNum (s_mat e) i j) <= (t ^ comp_errors (cm_kind m1) n k - 1) * comp_size (cm_kind m1) n (@vec RNum e1 w1) (@vec RNum e2 w2) j) /\
      (keeps_sign (cm_kind m1) -> nonneg (s_mat e1) -> nonneg (s_mat e2) -> close t (comp_errors (cm_kind m1) n k) s e /\ nonneg (s_mat e))
  | Err x, Err x' => x = x' | _, _ => False end.
Proof.
  intros m m1 k data a a' s1 s2 e1 e2 (EC & K) H1 H2 Ha Ha' Hn n. pose proof (compose_matrices _ _ k data a a' s1 s2 e1 e2 K H1 H2 Ha Ha' Hn) as Q.
  pose proof (cl_ok _ _ _ _ H1) as C1. pose proof (cl_ok _ _ _ _ H2) as C2. pose proof (cl_ok' _ _ _ _ H1) as D1. pose proof (cl_ok' _ _ _ _ H2) as D2.
  pose proof (kind_fits _ _ n K) as (F1 & F2 & _). pose proof (cl_mat _ _ _ _ H1) as (_ & _ & N1 & _). pose proof (cl_mat _ _ _ _ H2) as (_ & _ & N2 & _).
  destruct (@compose FN m data a) as [mm rs] eqn:Es. destruct (@compose RNum m1 data a') as [mm1 re] eqn:Ee. cbn [snd].
  assert (G : match rs, re with Ok s, Ok e => s_id2row s = s_id2row e /\ s_id2col s = s_id2col e /\ s_row2id s = s_row2id e /\ s_col2id s = s_col2id e /\ s_eshape s = s_eshape e /\ near_matrices (cm_kind m1) k e1 e2 data (s_mat s) (s_mat e) | Err x, Err x' => x = x' | _, _ => False end).
  { pose proof (f_equal snd Es) as Es'. pose proof (f_equal snd Ee) as Ee'. unfold compose in Es', Ee'. cbn [snd] in Es', Ee'.
    destruct (@compose_matrix FN (cm_kind m) data a) as [[[[z l] x] y]|x]; destruct (@compose_matrix RNum (cm_kind m1) data a') as [[[[z' l'] x'] y']|x']; try contradiction; cbn [snd] in Es', Ee'; [|rewrite <- Es', <- Ee'; exact Q].
    destruct Q as (NM & <- & -> & ->). rewrite EC in Es'. rewrite (kind_labels _ _ s1 y e1 y' K (cl_cols _ _ _ _ H1)) in Es'. pose proof NM as (_ & M1 & M2 & _).
    pose proof (mk_space_same z z' l (match cm_cols m1 with Some l0 => l0 | None => @build_id2column RNum (cm_kind m1) e1 y' end) M1 M2) as MS. rewrite Es', Ee' in MS.
    destruct rs as [s|x1], re as [e|x1']; try exact MS. destruct MS as (B1 & B2 & B3 & B4 & B5 & -> & ->). auto 10. }
  destruct rs as [s|x], re as [e|x']; try exact G. destruct G as (B1 & B2 & B3 & B4 & B5 & (T0 & Nr & Nc & Wz & Wz' & Nn & HO & HN)).
  assert (FF1 : @fits FN (cm_kind m) (@m_nc FN (s_mat s1)) (@m_nc FN (s_mat s2))) by (rewrite N1, N2, <- Hn; exact F1).
  assert (FF2 : @fits RNum (cm_kind m1) (@m_nc RNum (s_mat e1)) (@m_nc RNum (s_mat e2))) by (rewrite <- Hn; exact F2).
  destruct (@C34_rows FN m data a s1 s2 mm s C1 C2 Ha FF1 Es) as (Cs & _). destruct (@C34_rows RNum m1 data a' e1 e2 mm1 e D1 D2 Ha' FF2 Ee) as (Ce & Re & _).
  split; [exact Cs|]. split; [exact Ce|]. split; [exact B1|]. split; [exact B2|]. split; [rewrite Nc; exact Nn|]. split; [exact Nn|]. split.
  - intros i w1 w2 ph j Hi Hj. split; [rewrite Re; exact (map_nth_error snd i _ Hi)|exact (HO i w1 w2 ph j Hi Hj)].
  - intros KS P1 P2. destruct (HN KS P1 P2) as (A & P). split; [|exact P]. constructor; assumption.
Qed.

(** from a corpus space through transformations and composition to a similarity of two composed phrases *)
Context {EF : @Ext FN} {ER : @Ext RNum}.
Theorem C109_end_to_end : forall ts s e e' m m1 data w1 w2 sim, close t 0 s e -> nonneg (s_mat e) -> clear_run t 0 e ts -> @apply_all RNum ER e ts = Ok e' ->
  same_model m m1 -> keeps_sign (cm_kind m1) ->
  let n := @m_nc RNum (s_mat e') in
  let k := run_errors ts (@m_nr RNum (s_mat e)) (@m_nc RNum (s_mat e)) 0 in
  exists s', @apply_all FN EF s ts = Ok s' /\
    match snd (@compose FN m data (@One FN s')), snd (@compose RNum m1 data (@One RNum e')) with
    | Ok z, Ok y => s_id2row z = s_id2row y /\ exists a b : R, @get_sim FN z w1 w2 sim None = Ok a /\ @get_sim RNum y w1 w2 sim None = Ok b /\
        (~ (In w1 (s_id2row y) /\ In w2 (s_id2row y)) -> a = 0 /\ b = 0) /\
        forall p q, nth_error (s_id2row y) p = Some w1 -> nth_error (s_id2row y) q = Some w2 ->
          Rabs (a - b) <= end_error t sim n (comp_errors (cm_kind m1) n k) (@ment RNum (s_mat y) p) (@ment RNum (s_mat y) q)
    | Err x, Err x' => x = x' | _, _ => False end.
Proof.
  intros ts s e e' m m1 data w1 w2 sim H P CR E SMo KS n k. pose proof (C105_chain o t tl SM ts 0 s e H P CR) as Q. rewrite E in Q. unfold close_outcome in Q.
  destruct (@apply_all FN EF s ts) as [s'|] eqn:Es; [|contradiction]. destruct Q as (Q & P'). exists s'. split; [reflexivity|].
  pose proof (C109_compose m m1 k data (@One FN s') (@One RNum e') s' s' e' e' SMo Q Q ltac:(left; auto) ltac:(left; auto) eq_refl) as G. cbv zeta in G.
  destruct (snd (@compose FN m data (@One FN s'))) as [z|x]; destruct (snd (@compose RNum m1 data (@One RNum e'))) as [y|x']; try exact G.
  destruct G as (_ & _ & ER' & _ & _ & Ny & _ & G). destruct (G KS P' P') as (CZ & PZ). split; [exact ER'|].
  destruct (C105_get_sim o t tl SM _ z y None None w1 w2 sim CZ Logic.I (fun _ => conj PZ PZ) eq_refl) as (a & b & E1 & E2 & B0 & B).
  exists a, b. split; [exact E1|]. split; [exact E2|]. split; [exact B0|]. intros p q Hp Hq. specialize (B p q Hp Hq). rewrite Ny in B. exact B.
Qed.
End Comp.
