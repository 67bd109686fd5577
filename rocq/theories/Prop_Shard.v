(** Prop_Shard.v -- C91: the neighbours in a stacked space are found among the neighbours in its parts. *)
From Coq Require Import Reals Lra Permutation Sorted.
From Verif Require Import Base PyList Dict Num SpecReal Dense Sparse Matrix PSparse PMatrix PMatOps PShape PVals PReal PPos PSort Scaling Linalg Operation
  Similarity Space Peripheral SpecSpace PDictList PSpace Prop_Space Prop_Scaling Prop_Sim Prop_Neigh PMoved Prop_Periph PCols Prop_Order Prop_Counts Prop_Unit Prop_Batches Prop_Rowwise.
#[local] Existing Instance RNum.
Open Scope R_scope.
Open Scope nat_scope.

(** ** Specification *)
(** two rankings merged into one, by decreasing score; on equal scores those of the first come first *)
Fixpoint merge (la : list (string * R)) : list (string * R) -> list (string * R) :=
  match la with
  | [] => fun lb => lb
  | (x, c) :: la' => fix merge_b lb :=
      match lb with
      | [] => la
      | (y, d) :: lb' => if Rle_dec d c then (x, c) :: merge la' lb else (y, d) :: merge_b lb' end end.

(** ** lists *)
Lemma merge_nil_r la : merge la [] = la.
Proof. destruct la as [|[x c] la]; reflexivity. Qed.
Lemma firstn_cons_firstn {A} k (h : A) l : firstn k (h :: firstn k l) = firstn k (h :: l).
Proof. destruct k as [|k]; [reflexivity|]. cbn [firstn]. f_equal. change (firstn k (firstn (S k) l) = firstn k l). rewrite firstn_firstn. f_equal. lia. Qed.
Lemma merge_firstn k : forall la lb, firstn k (merge la lb) = firstn k (merge (firstn k la) (firstn k lb)).
Proof.
  induction k as [|k IH]; intros la lb; [reflexivity|].
  destruct la as [|[x c] la]; [cbn [firstn]; destruct lb as [|p lb]; [reflexivity|]; cbn [merge firstn]; rewrite firstn_firstn, Nat.min_id; reflexivity|].
  destruct lb as [|[y d] lb]; [rewrite firstn_nil, !merge_nil_r, firstn_firstn, Nat.min_id; reflexivity|].
  cbn [firstn merge]. destruct (Rle_dec d c); cbn [firstn]; f_equal.
  - rewrite (IH la ((y, d) :: lb)), (IH (firstn k la) ((y, d) :: firstn k lb)), firstn_firstn, Nat.min_id, firstn_cons_firstn. reflexivity.
  - change (firstn k (merge ((x, c) :: la) lb) = firstn k (merge ((x, c) :: firstn k la) (firstn k lb))).
    rewrite (IH ((x, c) :: la) lb), (IH ((x, c) :: firstn k la) (firstn k lb)), firstn_firstn, Nat.min_id, firstn_cons_firstn. reflexivity.
Qed.
Lemma merge_perm la : forall lb, Permutation (la ++ lb) (merge la lb).
Proof.
  induction la as [|[x c] la IH]; intros lb; [reflexivity|]. induction lb as [|[y d] lb IHb]; [rewrite app_nil_r; reflexivity|].
  cbn [merge]. destruct (Rle_dec d c); [cbn [app]; constructor; apply IH|].
  etransitivity; [symmetry; apply Permutation_middle|]. constructor. exact IHb.
Qed.
Section Sorting.
Variable before : string * R -> string * R -> Prop.
Lemma merge_sorted la : forall lb, StronglySorted before la -> StronglySorted before lb ->
  StronglySorted (fun a b => (snd b <= snd a)%R) la -> StronglySorted (fun a b => (snd b <= snd a)%R) lb ->
  (forall p q, In p la -> In q lb -> ((snd q <= snd p)%R -> before p q) /\ ((snd p < snd q)%R -> before q p)) -> StronglySorted before (merge la lb).
Proof.
  induction la as [|[x c] la IH]; intros lb Sa Sb Ra Rb Hx; [exact Sb|]. induction lb as [|[y d] lb IHb]; [exact Sa|].
  inversion Sa as [|? ? Sa1 Sa2]; subst. inversion Sb as [|? ? Sb1 Sb2]; subst. inversion Ra as [|? ? Ra1 Ra2]; subst. inversion Rb as [|? ? Rb1 Rb2]; subst.
  rewrite Forall_forall in Sa2, Sb2, Ra2, Rb2. cbn [snd] in Ra2, Rb2.
  cbn [merge]. destruct (Rle_dec d c) as [L|L].
  - constructor; [apply IH; try assumption; intros p q Hp Hq; apply Hx; [right; exact Hp|exact Hq]|].
    apply Forall_forall. intros p Hp. apply (Permutation_in _ (Permutation_sym (merge_perm la ((y, d) :: lb)))) in Hp. apply in_app_iff in Hp. destruct Hp as [Hp|Hp]; [apply Sa2, Hp|].
    apply (Hx (x, c) p (or_introl eq_refl) Hp). destruct Hp as [<-|Hp]; cbn [snd]; [exact L|]. specialize (Rb2 _ Hp). lra.
  - constructor; [apply IHb; try assumption; intros p q Hp Hq; apply Hx; [exact Hp|right; exact Hq]|].
    apply Forall_forall. intros p Hp. apply (Permutation_in _ (Permutation_sym (merge_perm ((x, c) :: la) lb))) in Hp. apply in_app_iff in Hp. destruct Hp as [Hp|Hp]; [|apply Sb2, Hp].
    apply (Hx p (y, d) Hp (or_introl eq_refl)). destruct Hp as [<-|Hp]; cbn [snd]; [lra|]. specialize (Ra2 _ Hp). lra.
Qed.
End Sorting.
Lemma sorted_nth {A} (P : A -> A -> Prop) l : StronglySorted P l <-> (forall a b x y, a < b -> nth_error l a = Some x -> nth_error l b = Some y -> P x y).
Proof.
  split.
  - intros S. induction S as [|h l S IH Hf]; intros a b x y Hab Ha Hb; [destruct a; discriminate|]. destruct b as [|b]; [lia|]. destruct a as [|a]; cbn in *.
    + injection Ha as <-. rewrite Forall_forall in Hf. apply Hf. eapply nth_error_In. exact Hb.
    + eapply (IH a b); [lia|exact Ha|exact Hb].
  - induction l as [|h l IH]; intros H; constructor.
    + apply IH. intros a b x y Hab Ha Hb. apply (H (S a) (S b)); [lia|exact Ha|exact Hb].
    + apply Forall_forall. intros y Hy. apply In_nth_error in Hy. destruct Hy as (b & Hb). apply (H 0 (S b)); [lia|reflexivity|exact Hb].
Qed.

(** ** rankings *)
Definition cat_score (n : nat) (sa sb : nat -> R) (i : nat) : R := if i <? n then sa i else sb (i - n).
Lemma merge_top_k ra rb sa sb la lb : NoDup (ra ++ rb) -> top_k ra sa (length ra) la -> top_k rb sb (length rb) lb ->
  top_k (ra ++ rb) (cat_score (length ra) sa sb) (length (ra ++ rb)) (merge la lb).
Proof.
  intros Hn Ta Tb. pose proof (merge_perm la lb) as P.
  assert (La : length la = length ra) by (pose proof (tk_length _ _ _ _ Ta) as Q; change (@F RNum) with R in *; lia). assert (Lb : length lb = length rb) by (pose proof (tk_length _ _ _ _ Tb) as Q; change (@F RNum) with R in *; lia).
  assert (Ia : forall x c, In (x, c) la -> In x ra) by (intros x c Hx; destruct (tk_score _ _ _ _ Ta x c Hx) as (q & Hq & _); exact (nth_error_In _ _ Hq)).
  assert (Ib : forall x c, In (x, c) lb -> In x rb) by (intros x c Hx; destruct (tk_score _ _ _ _ Tb x c Hx) as (q & Hq & _); exact (nth_error_In _ _ Hq)).
  assert (Nl : NoDup (map fst (la ++ lb))).
  { rewrite map_app. pose proof (tk_distinct _ _ _ _ Ta) as A1. pose proof (tk_distinct _ _ _ _ Tb) as B1. assert (D : forall x, In x (map fst la) -> ~ In x (map fst lb)).
    { intros x Hx Hy. apply in_map_iff in Hx, Hy. destruct Hx as ([x1 c] & E1 & Hx), Hy as ([x2 d] & E2 & Hy). cbn [fst] in E1, E2. subst x1 x2.
      destruct (NoDup_app_parts _ _ Hn) as (_ & _ & D). exact (D x (Ia _ _ Hx) (Ib _ _ Hy)). }
    revert A1 B1 D. generalize (map fst la) (map fst lb). clear. intros l l' H1 H2 D. induction H1 as [|a l Ha H1 IH]; [exact H2|]. cbn [app]. constructor.
    - rewrite in_app_iff. intros [K|K]; [exact (Ha K)|]. apply (D a (or_introl eq_refl) K).
    - apply IH. intros x Hx. apply D. right. exact Hx. }
  assert (Nm : NoDup (map fst (merge la lb))) by (eapply Permutation_NoDup; [apply Permutation_map, P|exact Nl]).
  assert (Lm : length (merge la lb) = length (ra ++ rb)) by (rewrite <- (Permutation_length P), !app_length; change (@F RNum) with R in *; lia).
  set (before := fun p q : string * R => (snd q <= snd p)%R /\ (snd p = snd q -> forall i j, nth_error (ra ++ rb) i = Some (fst p) -> nth_error (ra ++ rb) j = Some (fst q) -> i < j)).
  assert (S : StronglySorted before (merge la lb)).
  { assert (Wa : forall x i, In x ra -> nth_error (ra ++ rb) i = Some x -> nth_error ra i = Some x).
    { intros x i Hx Hi. apply In_nth_error in Hx. destruct Hx as (k & Hk). assert (nth_error (ra ++ rb) k = Some x) by (rewrite nth_error_app1; [exact Hk|exact (nth_error_lt _ _ _ Hk)]).
      rewrite (NoDup_nth_error_inj _ _ _ _ Hn Hi H). exact Hk. }
    assert (Wb : forall x i, In x rb -> nth_error (ra ++ rb) i = Some x -> length ra <= i /\ nth_error rb (i - length ra) = Some x).
    { intros x i Hx Hi. apply In_nth_error in Hx. destruct Hx as (k & Hk). assert (nth_error (ra ++ rb) (length ra + k) = Some x) by (rewrite nth_error_app2 by lia; replace (length ra + k - length ra) with k by lia; exact Hk).
      rewrite (NoDup_nth_error_inj _ _ _ _ Hn Hi H). split; [lia|]. replace (length ra + k - length ra) with k by lia. exact Hk. }
    apply merge_sorted.
    - apply sorted_nth. intros a b [x c] [y d] Hab Hx Hy. destruct (tk_order _ _ _ _ Ta a b x c y d Hab Hx Hy) as (O1 & O2). split; [exact O1|]. cbn [fst snd]. intros E i j Hi Hj.
      apply (O2 E); apply Wa; try assumption; [exact (Ia _ _ (nth_error_In _ _ Hx))|exact (Ia _ _ (nth_error_In _ _ Hy))].
    - apply sorted_nth. intros a b [x c] [y d] Hab Hx Hy. destruct (tk_order _ _ _ _ Tb a b x c y d Hab Hx Hy) as (O1 & O2). split; [exact O1|]. cbn [fst snd]. intros E i j Hi Hj.
      destruct (Wb x i (Ib _ _ (nth_error_In _ _ Hx)) Hi) as (G1 & G2). destruct (Wb y j (Ib _ _ (nth_error_In _ _ Hy)) Hj) as (G3 & G4). pose proof (O2 E _ _ G2 G4). lia.
    - apply sorted_nth. intros a b [x c] [y d] Hab Hx Hy. apply (tk_order _ _ _ _ Ta a b x c y d Hab Hx Hy).
    - apply sorted_nth. intros a b [x c] [y d] Hab Hx Hy. apply (tk_order _ _ _ _ Tb a b x c y d Hab Hx Hy).
    - intros [x c] [y d] Hx Hy. cbn [snd]. split; intros L; split; cbn [fst snd]; try lra; try (intros E i j Hi Hj); try lra.
      pose proof (nth_error_lt _ _ _ (Wa x i (Ia _ _ Hx) Hi)). destruct (Wb y j (Ib _ _ Hy) Hj). lia. }
  constructor.
  - change (@F RNum) with R in *. rewrite Lm. lia.
  - exact Nm.
  - intros x c Hx. apply (Permutation_in _ (Permutation_sym P)) in Hx. apply in_app_iff in Hx. destruct Hx as [Hx|Hx].
    + destruct (tk_score _ _ _ _ Ta x c Hx) as (q & Hq & Ec). pose proof (nth_error_lt _ _ _ Hq) as Lq. exists q. split; [rewrite nth_error_app1 by exact Lq; exact Hq|].
      unfold cat_score. destruct (Nat.ltb_spec q (length ra)); [exact Ec|lia].
    + destruct (tk_score _ _ _ _ Tb x c Hx) as (q & Hq & Ec). exists (length ra + q). split; [rewrite nth_error_app2 by lia; replace (length ra + q - length ra) with q by lia; exact Hq|].
      unfold cat_score. destruct (Nat.ltb_spec (length ra + q) (length ra)); [lia|]. replace (length ra + q - length ra) with q by lia. exact Ec.
  - intros a b x c y d Hab Ha Hb. exact (proj1 (sorted_nth before _) S a b (x, c) (y, d) Hab Ha Hb).
  - intros q y x c Hq Hy _. exfalso. apply Hy. assert (I : incl (ra ++ rb) (map fst (merge la lb))).
    { apply NoDup_length_incl; [exact Nm|rewrite map_length; change (@F RNum) with R in *; lia|]. intros z Hz. apply in_map_iff in Hz. destruct Hz as ([z' e] & <- & Hz). cbn [fst].
      apply (Permutation_in _ (Permutation_sym P)) in Hz. apply in_app_iff in Hz. apply in_app_iff. destruct Hz as [Hz|Hz]; [left; eapply Ia|right; eapply Ib]; exact Hz. }
    apply I. exact (nth_error_In _ _ Hq).
Qed.
Lemma top_k_firstn r sc k l l' : NoDup r -> top_k r sc k l -> top_k r sc (length r) l' -> l = firstn k l'.
Proof.
  intros Hn T1 T2. assert (S : forall w p q, nth_error r p = Some w -> nth_error r q = Some w -> sc p = sc q) by (intros w p q Hp Hq; rewrite (NoDup_nth_error_inj _ _ _ _ Hn Hp Hq); reflexivity).
  symmetry. apply nth_error_ext.
  - pose proof (tk_length _ _ _ _ T1) as Y1. pose proof (tk_length _ _ _ _ T2) as Y2. change (@F RNum) with R in *. rewrite firstn_length. lia.
  - intros a [x c] [y d] Hu Hv.
    assert (Hv' : nth_error l' a = Some (y, d)) by (rewrite <- (firstn_skipn k l'); rewrite nth_error_app1 by exact (nth_error_lt _ _ _ Hv); exact Hv).
    rewrite (rank_le _ _ _ _ _ _ _ _ T1 T2 Hn (fun w => iff_refl _) S a x c y d Hu Hv').
    f_equal. symmetry. exact (rank_same _ _ _ _ _ _ _ _ T1 T2 Hn (fun w => iff_refl _) S eq_refl a x c y d Hu Hv').
Qed.

Lemma top_k_ext r sc sc' k l : (forall q x, nth_error r q = Some x -> sc' q = sc q) -> top_k r sc k l -> top_k r sc' k l.
Proof.
  intros H T. constructor; [apply (tk_length _ _ _ _ T)|apply (tk_distinct _ _ _ _ T)| |apply (tk_order _ _ _ _ T)|].
  - intros x c Hx. destruct (tk_score _ _ _ _ T x c Hx) as (q & Hq & Ec). exists q. rewrite (H _ _ Hq). auto.
  - intros q y x c Hq. rewrite (H _ _ Hq). apply (tk_omitted _ _ _ _ T). exact Hq.
Qed.
Lemma neighbours_top s o w p k sim : consistent s -> consistent (searched s o) -> nth_error (s_id2row s) p = Some w -> m_nc (s_mat s) = m_nc (s_mat (searched s o)) ->
  exists l, get_neighbours s w k sim o = Ok l /\
    top_k (s_id2row (searched s o)) (fun q => sim_spec sim (m_nc (s_mat s)) (ment (s_mat s) p) (ment (s_mat (searched s o)) q)) (Z.to_nat k) l.
Proof.
  intros C D Hp Hn. destruct (C09_neighbours s w k sim o C D (nth_error_In _ _ Hp) Hn) as (l & sc & E & T & G). exists l. split; [exact E|].
  apply (top_k_ext _ sc); [|exact T]. intros q x Hq. pose proof (G q x Hq) as G1. rewrite (get_sim_rows s o w x p q (m_nc (s_mat s)) sim C D Hp Hq eq_refl (eq_sym Hn)) in G1. congruence.
Qed.
Lemma shard s a b z w p k sim o : consistent s -> consistent a -> consistent b -> space_vstack a b = Ok z -> consistent (searched s o) ->
  nth_error (s_id2row s) p = Some w -> m_nc (s_mat s) = m_nc (s_mat a) -> m_nc (s_mat s) = m_nc (s_mat (searched s o)) ->
  s_id2row (searched s o) = s_id2row z -> (forall q j, q < m_nr (s_mat z) -> j < m_nc (s_mat z) -> ment (s_mat (searched s o)) q j = ment (s_mat z) q j) ->
  exists la lb, get_neighbours s w k sim (Some a) = Ok la /\ get_neighbours s w k sim (Some b) = Ok lb /\
    get_neighbours s w k sim o = Ok (firstn (Z.to_nat k) (merge la lb)).
Proof.
  intros Cs Ca Cb Hz Co Hw Hn Hno Ero Heq. destruct (C04_vstack_vectors a b z Ca Cb Hz) as (Er & _ & _ & _ & Cz & Nz & _ & _). pose proof (vstack_entries a b z Ca Cb Hz) as V.
  assert (Nb : m_nc (s_mat a) = m_nc (s_mat b)) by (destruct (space_vstack_ok _ _ _ Ca Cb Hz) as (m&d&Es&Ha&H1&H2&Wm&Dm&Hc); congruence).
  pose proof Cz as (_&_&_&(NDz&_)&_).
  assert (Rz : length (s_id2row z) = m_nr (s_mat z)) by apply Cz. assert (Ra : length (s_id2row a) = m_nr (s_mat a)) by apply Ca.
  destruct (neighbours_top s (Some a) w p k sim Cs Ca Hw Hn) as (la & Ea & Ta). destruct (neighbours_top s (Some b) w p k sim Cs Cb Hw (eq_trans Hn Nb)) as (lb & Eb & Tb).
  destruct (neighbours_top s (Some a) w p (Z.of_nat (length (s_id2row a))) sim Cs Ca Hw Hn) as (LA & _ & TA). destruct (neighbours_top s (Some b) w p (Z.of_nat (length (s_id2row b))) sim Cs Cb Hw (eq_trans Hn Nb)) as (LB & _ & TB).
  destruct (neighbours_top s o w p k sim Cs Co Hw Hno) as (l & El & Tl). exists la, lb. split; [exact Ea|]. split; [exact Eb|]. rewrite El. f_equal.
  cbn [searched] in *. rewrite Nat2Z.id in TA, TB. rewrite Ero, Er in Tl. rewrite Er in NDz. pose proof (merge_top_k _ _ _ _ _ _ NDz TA TB) as TM.
  destruct (NoDup_app_parts _ _ NDz) as (Na & Nbb & _).
  rewrite (top_k_firstn _ _ _ _ _ Na Ta TA), (top_k_firstn _ _ _ _ _ Nbb Tb TB), <- merge_firstn.
  apply (top_k_firstn _ _ _ _ _ NDz Tl). eapply top_k_ext; [|exact TM].
  intros q x Hq. rewrite <- Er in Hq. pose proof (nth_error_lt _ _ _ Hq) as Lq. unfold cat_score. rewrite Ra.
  destruct (Nat.ltb_spec q (m_nr (s_mat a))) as [K|K]; apply sim_spec_ext; intros j Hj; try reflexivity; rewrite Heq, V by (change (@F RNum) with R in *; lia);
    destruct (Nat.ltb_spec q (m_nr (s_mat a))); try lia; reflexivity.
Qed.

(** ** C91 *)
(** looking for the neighbours of a word of a space [s] in two stacked spaces *)
Theorem C91_search : forall s a b z w k sim, consistent s -> consistent a -> consistent b -> space_vstack a b = Ok z ->
  In w (s_id2row s) -> m_nc (s_mat s) = m_nc (s_mat a) ->
  exists la lb, get_neighbours s w k sim (Some a) = Ok la /\ get_neighbours s w k sim (Some b) = Ok lb /\
    get_neighbours s w k sim (Some z) = Ok (firstn (Z.to_nat k) (merge la lb)).
Proof.
  intros s a b z w k sim Cs Ca Cb Hz Hw Hn. destruct (C04_vstack_vectors a b z Ca Cb Hz) as (_ & _ & _ & _ & Cz & Nz & _ & _). apply In_nth_error in Hw. destruct Hw as (p & Hp).
  apply (shard s a b z w p k sim (Some z)); auto. cbn [searched]. congruence.
Qed.
(** the neighbours of a word of a stacked space in that space *)
Theorem C91_within : forall a b z w k sim, consistent a -> consistent b -> space_vstack a b = Ok z -> In w (s_id2row z) ->
  exists la lb, get_neighbours z w k sim (Some a) = Ok la /\ get_neighbours z w k sim (Some b) = Ok lb /\
    get_neighbours z w k sim None = Ok (firstn (Z.to_nat k) (merge la lb)).
Proof.
  intros a b z w k sim Ca Cb Hz Hw. destruct (C04_vstack_vectors a b z Ca Cb Hz) as (_ & _ & _ & _ & Cz & Nz & _ & _). apply In_nth_error in Hw. destruct Hw as (p & Hp).
  apply (shard z a b z w p k sim None); auto.
Qed.
Lemma same_neighbours s s' o o' w p p' k sim : consistent s -> consistent s' -> consistent (searched s o) -> consistent (searched s' o') ->
  nth_error (s_id2row s) p = Some w -> nth_error (s_id2row s') p' = Some w -> m_nc (s_mat s') = m_nc (s_mat s) -> m_nc (s_mat s) = m_nc (s_mat (searched s o)) ->
  s_id2row (searched s' o') = s_id2row (searched s o) -> m_nc (s_mat (searched s' o')) = m_nc (s_mat (searched s o)) ->
  (forall j, j < m_nc (s_mat s) -> ment (s_mat s') p' j = ment (s_mat s) p j) ->
  (forall q j, q < m_nr (s_mat (searched s o)) -> j < m_nc (s_mat s) -> ment (s_mat (searched s' o')) q j = ment (s_mat (searched s o)) q j) ->
  get_neighbours s' w k sim o' = get_neighbours s w k sim o.
Proof.
  intros Cs Cs' Co Co' Hp Hp' Hn Hno Er Hn2 Hv Hm.
  destruct (neighbours_top s o w p k sim Cs Co Hp Hno) as (l & El & Tl). destruct (neighbours_top s' o' w p' k sim Cs' Co' Hp') as (l' & El' & Tl'); [congruence|].
  rewrite El, El'. f_equal. rewrite Er, Hn in Tl'. pose proof Co as (_&_&_&(ND&_)&_). assert (Lr : length (s_id2row (searched s o)) = m_nr (s_mat (searched s o))) by apply Co.
  symmetry. apply (top_k_unique _ _ _ _ _ ND Tl). eapply top_k_ext; [|exact Tl'].
  intros q x Hq. pose proof (nth_error_lt _ _ _ Hq) as Lq. apply sim_spec_ext; intros j Hj; [symmetry; apply Hv, Hj|symmetry; apply Hm; [|exact Hj]]. change (@F RNum) with R in *. lia.
Qed.
(** a word of one of the parts has the same neighbours there *)
Theorem C91_words : forall a b z x y w k sim o, consistent a -> consistent b -> space_vstack a b = Ok z -> consistent o -> m_nc (s_mat a) = m_nc (s_mat o) ->
  (x, y) = (a, b) \/ (x, y) = (b, a) -> In w (s_id2row x) -> get_neighbours z w k sim (Some o) = get_neighbours x w k sim (Some o).
Proof.
  intros a b z x y w k sim o Ca Cb Hz Co No Hxy Hw. destruct (C04_vstack_vectors a b z Ca Cb Hz) as (Er & _ & _ & _ & Cz & Nz & _ & _). pose proof (vstack_entries a b z Ca Cb Hz) as V.
  assert (Nb : m_nc (s_mat a) = m_nc (s_mat b)) by (destruct (space_vstack_ok _ _ _ Ca Cb Hz) as (m&d&Es&Ha&H1&H2&Wm&Dm&Hc); congruence).
  assert (Rz : length (s_id2row z) = m_nr (s_mat z)) by apply Cz. assert (Ra : length (s_id2row a) = m_nr (s_mat a)) by apply Ca.
  assert (Hx : x = a \/ x = b) by (destruct Hxy as [K|K]; injection K as -> _; auto). clear Hxy.
  apply In_nth_error in Hw. destruct Hw as (p & Hp). pose proof (nth_error_lt _ _ _ Hp) as Lp.
  rewrite Er, app_length in Rz.
  destruct Hx as [-> | ->].
  - apply (same_neighbours a z (Some o) (Some o) w p p k sim); auto; cbn [searched]; try congruence.
    + rewrite Er, nth_error_app1 by exact Lp. exact Hp.
    + intros j Hj. rewrite V by (change (@F RNum) with R in *; lia). destruct (Nat.ltb_spec p (m_nr (s_mat a))); [reflexivity|lia].
  - apply (same_neighbours b z (Some o) (Some o) w p (length (s_id2row a) + p) k sim); auto; cbn [searched]; try congruence.
    + rewrite Er, nth_error_app2 by lia. replace (length (s_id2row a) + p - length (s_id2row a)) with p by lia. exact Hp.
    + intros j Hj. rewrite V by (change (@F RNum) with R in *; lia). destruct (Nat.ltb_spec (length (s_id2row a) + p) (m_nr (s_mat a))); [lia|]. f_equal. lia.
Qed.
Theorem C91_self : forall s w k sim, consistent s -> In w (s_id2row s) -> get_neighbours s w k sim (Some s) = get_neighbours s w k sim None.
Proof.
  intros s w k sim Cs Hw. apply In_nth_error in Hw. destruct Hw as (p & Hp). apply (same_neighbours s s None (Some s) w p p k sim); auto.
Qed.
(** any number of parts *)
Fixpoint stack_parts (z : space) (parts : list space) : res space :=
  match parts with [] => Ok z | b :: r => let* z' := space_vstack z b in stack_parts z' r end.
Lemma firstn_merge_l k la lb : firstn k (merge (firstn k la) lb) = firstn k (merge la lb).
Proof. rewrite (merge_firstn k la lb), (merge_firstn k (firstn k la) lb), firstn_firstn, Nat.min_id. reflexivity. Qed.
Lemma firstn_merges k ls : forall la, firstn k (fold_left merge ls (firstn k la)) = firstn k (fold_left merge ls la).
Proof.
  induction ls as [|l ls IH]; intros la; cbn [fold_left]; [rewrite firstn_firstn, Nat.min_id; reflexivity|].
  rewrite <- IH, firstn_merge_l, IH. reflexivity.
Qed.
Theorem C91_parts : forall s w k sim bs a z, consistent s -> In w (s_id2row s) -> m_nc (s_mat s) = m_nc (s_mat a) ->
  consistent a -> Forall consistent bs -> stack_parts a bs = Ok z ->
  exists ls, Forall2 (fun o l => get_neighbours s w k sim (Some o) = Ok l) (a :: bs) ls /\
    get_neighbours s w k sim (Some z) = Ok (firstn (Z.to_nat k) (fold_left merge ls [])).
Proof.
  intros s w k sim bs. induction bs as [|b bs IH]; intros a z Cs Hw Hn Ca Cbs H; cbn [stack_parts] in H.
  - injection H as <-. pose proof Hw as Hw'. apply In_nth_error in Hw'. destruct Hw' as (p & Hp). destruct (neighbours_top s (Some a) w p k sim Cs Ca Hp Hn) as (l & El & Tl).
    exists [l]. split; [constructor; [exact El|constructor]|]. rewrite El. cbn [fold_left merge]. f_equal. symmetry. apply firstn_all2. rewrite (tk_length _ _ _ _ Tl). lia.
  - apply bind_ok in H. destruct H as (z' & Hz & H). inversion Cbs as [|? ? Cb Cbs']; subst.
    destruct (C04_vstack_vectors a b z' Ca Cb Hz) as (_ & _ & _ & _ & Cz & Nz & _ & _).
    destruct (IH z' z Cs Hw (eq_trans Hn (eq_sym Nz)) Cz Cbs' H) as (ls & Hls & E). inversion Hls as [|? l1 ? ls' E1 Hls']; subst.
    destruct (C91_search s a b z' w k sim Cs Ca Cb Hz Hw Hn) as (la & lb & Ea & Eb & Ez). rewrite Ez in E1. injection E1 as <-.
    exists (la :: lb :: ls'). split; [constructor; [exact Ea|constructor; [exact Eb|exact Hls']]|]. rewrite E. f_equal. cbn [fold_left merge]. apply firstn_merges.
Qed.

(** ** a concrete case: a dense space with car and dog, and a sparse one with cow *)
Example C91_example : exists z, space_vstack sp_len sp_one = Ok z /\ consistent sp_len /\ consistent sp_one /\ In "cow"%string (s_id2row z) /\
  get_neighbours sp_one "cow" 2 Dot (Some sp_len) = Ok [("car"%string, 20%R); ("dog"%string, 10%R)] /\
  get_neighbours z "cow" 2 Dot None = Ok [("cow"%string, 25%R); ("car"%string, 20%R)].
Proof.
  assert (P : positional_rows sp_len) by (apply (list2dict_inverse ["car"; "dog"]%string); reflexivity).
  destruct (proj2 (proj1 (C04_vstack sp_len sp_one sp_len_consistent P sp_one_consistent))) as (z & V).
  { split; [reflexivity|]. split; [reflexivity|]. cbn. intros w [<-|[<-|[]]] [K|[]]; discriminate. }
  pose proof sp_len_consistent as Ca. pose proof sp_one_consistent as Cb.
  destruct (C04_vstack_vectors _ _ _ Ca Cb V) as (Er & _). assert (Hw : In "cow"%string (s_id2row z)) by (rewrite Er; cbn; auto).
  assert (X0 : forall j, j < 2 -> ment (s_mat sp_one) 0 j = nth j [0; 5]%R 0%R).
  { intros j Hj. unfold sp_one. cbn [s_mat]. change (MS (csr_of_dense (DM 1 2 [[0; 5]%R]))) with (conv TSparse (MD (@DM RNum 1 2 [[0; 5]%R]))). rewrite ment_conv; [|repeat split; cbn; try lia; repeat constructor|cbn; lia|cbn; lia]. reflexivity. }
  destruct (neighbours_top sp_one (Some sp_len) "cow" 0 2 Dot Cb Ca eq_refl eq_refl) as (la & Ea & Ta).
  destruct (neighbours_top sp_one (Some sp_one) "cow" 0 2 Dot Cb Cb eq_refl eq_refl) as (lb & Eb & Tb).
  exists z. split; [exact V|]. split; [exact Ca|]. split; [exact Cb|]. split; [exact Hw|].
  assert (La : la = [("car"%string, 20%R); ("dog"%string, 10%R)]).
  { apply (top_k_unique ["car"; "dog"]%string (fun q => nth q [20; 10]%R 0%R) 2); [repeat constructor; cbn; intuition discriminate| |].
    - eapply top_k_ext; [|exact Ta]. intros q x Hq. unfold sim_spec, dot. change (m_nc (s_mat sp_one)) with 2. cbn [rsum]. rewrite !X0 by lia.
      destruct q as [|[|q]]; [| |destruct q; discriminate]; cbn; lra.
    - constructor; [reflexivity|repeat constructor; cbn; intuition discriminate| | |].
      + intros x c [K|[K|[]]]; injection K as <- <-; [exists 0|exists 1]; split; reflexivity.
      + intros a b x c y d Hab Hx Hy. destruct a as [|[|a]], b as [|[|b]]; try lia; try (cbn in Hy; destruct b; discriminate). injection Hx as <- <-. injection Hy as <- <-. split; [lra|]. intros; lra.
      + intros q y x c Hq Hy. exfalso. apply Hy. cbn. destruct q as [|[|q]]; cbn in Hq; [injection Hq as <-; auto|injection Hq as <-; auto|destruct q; discriminate]. }
  assert (Lb : lb = [("cow"%string, 25%R)]).
  { apply (top_k_unique ["cow"]%string (fun q => nth q [25]%R 0%R) 2); [repeat constructor; cbn; intuition discriminate| |].
    - eapply top_k_ext; [|exact Tb]. intros q x Hq. destruct q as [|q]; [|destruct q; discriminate]. unfold sim_spec, dot. change (m_nc (s_mat sp_one)) with 2. cbn [rsum searched]. rewrite !X0 by lia. cbn. lra.
    - constructor; [reflexivity|repeat constructor; cbn; intuition discriminate| | |].
      + intros x c [K|[]]; injection K as <- <-; exists 0; split; reflexivity.
      + intros a b x c y d Hab Hx Hy. destruct b as [|b]; [lia|]. destruct b; discriminate.
      + intros q y x c Hq Hy. exfalso. apply Hy. cbn. destruct q as [|q]; cbn in Hq; [injection Hq as <-; auto|destruct q; discriminate]. }
  split; [rewrite Ea, La; reflexivity|].
  destruct (C91_within _ _ _ "cow" 2 Dot Ca Cb V Hw) as (la' & lb' & Ea' & Eb' & Ez).
  rewrite (C91_words _ _ _ sp_one sp_len "cow" 2 Dot sp_len Ca Cb V Ca eq_refl (or_intror eq_refl) (or_introl eq_refl)), Ea in Ea'.
  rewrite (C91_words _ _ _ sp_one sp_len "cow" 2 Dot sp_one Ca Cb V Cb eq_refl (or_intror eq_refl) (or_introl eq_refl)), Eb in Eb'.
  assert (la = la') by congruence. assert (lb = lb') by congruence. subst la' lb'. rewrite Ez, La, Lb. cbn [merge]. destruct (Rle_dec 25 20) as [K|K]; [lra|]. reflexivity.
Qed.
