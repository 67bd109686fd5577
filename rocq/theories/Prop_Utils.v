(** Prop_Utils.v -- properties C50 (get_partitions) and C51 (get_split_indices). *)
From Verif Require Import Base PyList Num Utils.
From Coq Require Import Permutation Sorted.
Local Open Scope nat_scope.

(** ** C50: specification *)
(** positions a..b-1 hold the same element and the stretch cannot be extended on either side *)
Definition is_run {A} (l : list A) (a b : nat) : Prop :=
  a < b /\ b <= length l /\ (forall i, a <= i < b -> nth_error l i = nth_error l a) /\
  (a = 0 \/ nth_error l (a - 1) <> nth_error l a) /\
  (b = length l \/ nth_error l b <> nth_error l a).

Section Partitions.
Context {A : Type} (eqb : A -> A -> bool) (Heqb : forall x y, eqb x y = true <-> x = y).

Lemma differs_spec l i : 1 <= i < length l -> differs eqb l i = true <-> nth_error l i <> nth_error l (i - 1).
Proof.
  intros Hi. unfold differs.
  destruct (nth_error l i) as [x|] eqn:E1; [|apply nth_error_None in E1; lia].
  destruct (nth_error l (i - 1)) as [y|] eqn:E2; [|apply nth_error_None in E2; lia].
  rewrite negb_true_iff. split; intros H.
  - intros K. injection K as ->. assert (eqb y y = true) by (apply Heqb; reflexivity). congruence.
  - destruct (eqb x y) eqn:E; [|reflexivity]. apply Heqb in E. subst. contradiction.
Qed.

Definition runs_upto (l : list A) (k : Z) (prev : nat) (ranges : list (nat * nat)) : Prop :=
  (forall a b, In (a, b) ranges <-> is_run l a b /\ (k <= Z.of_nat b - Z.of_nat a)%Z /\ b <= prev) /\
  StronglySorted (fun r s => snd r <= fst s) ranges.

(** prev starts the run that contains position m *)
Definition open_run (l : list A) (prev m : nat) : Prop :=
  prev <= m /\ (forall i, prev <= i <= m -> nth_error l i = nth_error l prev) /\
  (prev = 0 \/ nth_error l (prev - 1) <> nth_error l prev).

Lemma sorted_snoc ranges (r : nat * nat) :
  StronglySorted (fun r s : nat * nat => snd r <= fst s) ranges -> (forall s, In s ranges -> snd s <= fst r) ->
  StronglySorted (fun r s : nat * nat => snd r <= fst s) (ranges ++ [r]).
Proof.
  induction ranges as [|x xs IH]; cbn; intros H K; [repeat constructor|].
  inversion H as [|? ? Hs Hf]; subst. constructor; [apply IH; auto|].
  apply Forall_app. split; [assumption|]. constructor; [|constructor]. apply K. left; reflexivity.
Qed.

(** two runs with the same start, or one reaching into the other, coincide *)
Lemma run_end_unique (l : list A) a b b' : is_run l a b -> is_run l a b' -> b = b'.
Proof.
  intros (H1 & H2 & H3 & _ & H5) (K1 & K2 & K3 & _ & K5).
  destruct (Nat.lt_trichotomy b b') as [L|[E|L]]; [|assumption|].
  - destruct H5 as [H5|H5]; [lia|]. elim H5. apply K3. lia.
  - destruct K5 as [K5|K5]; [lia|]. elim K5. apply H3. lia.
Qed.
Lemma run_start_unique (l : list A) a a' b : is_run l a b -> is_run l a' b -> a = a'.
Proof.
  intros (H1 & H2 & H3 & H4 & _) (K1 & K2 & K3 & K4 & _).
  destruct (Nat.lt_trichotomy a a') as [L|[E|L]]; [|assumption|].
  - destruct K4 as [K4|K4]; [lia|]. elim K4. rewrite (H3 (a' - 1)) by lia. rewrite (H3 a') by lia. reflexivity.
  - destruct H4 as [H4|H4]; [lia|]. elim H4. rewrite (K3 (a - 1)) by lia. rewrite (K3 a) by lia. reflexivity.
Qed.

(** the runs that end by [e], when the run from prev is closed at [e] *)
Lemma close_run (l : list A) k prev ranges e :
  runs_upto l k prev ranges -> is_run l prev e ->
  (forall a b, is_run l a b -> b <= e -> b <= prev \/ b = e) ->
  runs_upto l k e (if (k <=? Z.of_nat e - Z.of_nat prev)%Z then ranges ++ [(prev, e)] else ranges).
Proof.
  intros (H1 & H2) Hr Hlast.
  assert (Hlt : prev < e) by apply Hr.
  assert (HIn : forall s, In s ranges -> snd s <= prev).
  { intros [a b] Hs. apply H1 in Hs. cbn. apply Hs. }
  destruct (k <=? Z.of_nat e - Z.of_nat prev)%Z eqn:Ek; split.
  - intros a b. rewrite in_app_iff. split.
    + intros [Hi|[Hi|[]]].
      * apply H1 in Hi. destruct Hi as (U & V & W). repeat split; try assumption; try apply U. lia.
      * injection Hi as <- <-. split; [exact Hr|]. apply Z.leb_le in Ek. split; [assumption|lia].
    + intros (U & V & W). destruct (Hlast a b U W) as [L|L].
      * left. apply H1. auto.
      * subst b. right. left. f_equal. eapply run_start_unique; eassumption.
  - apply sorted_snoc; assumption.
  - intros a b. rewrite H1. split.
    + intros (U & V & W). split; [assumption|]. split; [assumption|lia].
    + intros (U & V & W). split; [assumption|]. split; [assumption|].
      destruct (Hlast a b U W) as [L|L]; [assumption|]. subst b. exfalso.
      pose proof (run_start_unique _ _ _ _ Hr U). subst a. apply Z.leb_gt in Ek. lia.
  - assumption.
Qed.

Lemma part_loop l k m : m < length l ->
  let '(prev, ranges) := fold_left (part_step eqb l k) (seq 1 m) (0, []) in
  open_run l prev m /\ runs_upto l k prev ranges.
Proof.
  induction m as [|m IH]; intros Hm.
  - cbn. split.
    + split; [lia|]. split; [|auto]. intros i Hi. replace i with 0 by lia. reflexivity.
    + split; [|constructor]. intros a b. cbn. split; [tauto|]. intros (U & _ & W). destruct U as (U & _). lia.
  - rewrite seq_S, fold_left_app. cbn [fold_left]. specialize (IH ltac:(lia)).
    destruct (fold_left (part_step eqb l k) (seq 1 m) (0, [])) as [prev ranges].
    destruct IH as ((O1 & O2 & O3) & HR). cbn [part_step]. replace (1 + m) with (S m) by lia.
    destruct (differs eqb l (S m)) eqn:Ed.
    + apply differs_spec in Ed; [|lia]. replace (S m - 1) with m in Ed by lia.
      split.
      * split; [lia|]. split; [intros i Hi; replace i with (S m) by lia; reflexivity|].
        right. replace (S m - 1) with m by lia. congruence.
      * apply close_run; [assumption| |].
        -- split; [lia|]. split; [lia|]. split; [intros i Hi; apply O2; lia|]. split; [assumption|].
           right. rewrite <- (O2 m) by lia. exact Ed.
        -- intros a b (U1 & U2 & U3 & U4 & U5) Hb. destruct (le_lt_dec b prev) as [L|L]; [left; assumption|right].
           destruct (Nat.eq_dec b (S m)) as [|Hne]; [assumption|exfalso].
           destruct U5 as [U5|U5]; [lia|].
           apply U5. rewrite (O2 b) by lia. rewrite <- (O2 (b - 1)) by lia. apply U3. lia.
    + assert (Heq : nth_error l (S m) = nth_error l m).
      { destruct (differs_spec l (S m) ltac:(lia)) as [_ Hd]. replace (S m - 1) with m in Hd by lia.
        destruct (nth_error l (S m)) as [x|] eqn:E1; [|apply nth_error_None in E1; lia].
        destruct (nth_error l m) as [y|] eqn:E2; [|apply nth_error_None in E2; lia].
        f_equal. destruct (eqb x y) eqn:Exy; [apply Heqb, Exy|].
        assert (K : Some x <> Some y). { intros K. injection K as ->. assert (eqb y y = true) by (apply Heqb; reflexivity). congruence. }
        apply Hd in K. congruence. }
      split; [|assumption].
      split; [lia|]. split; [|assumption]. intros i Hi. destruct (Nat.eq_dec i (S m)) as [->|]; [|apply O2; lia].
      rewrite Heq. apply O2. lia.
Qed.

Lemma get_partitions_nonempty l k : 0 < length l ->
  exists keys ranges, get_partitions eqb l k = Ok (keys, ranges) /\
    (forall a b, In (a, b) ranges <-> is_run l a b /\ (k <= Z.of_nat b - Z.of_nat a)%Z) /\
    StronglySorted (fun r s => snd r <= fst s) ranges /\
    map Some keys = map (fun r => nth_error l (fst r)) ranges.
Proof.
  intros Hn. unfold get_partitions.
  pose proof (part_loop l k (length l - 1) ltac:(lia)) as HL.
  destruct (fold_left (part_step eqb l k) (seq 1 (length l - 1)) (0, [])) as [prev ranges].
  destruct HL as ((O1 & O2 & O3) & HR).
  set (ranges' := if (k <=? Z.of_nat (length l) - Z.of_nat prev)%Z then ranges ++ [(prev, length l)] else ranges).
  assert (HC : runs_upto l k (length l) ranges').
  { apply close_run; [assumption| |].
    - split; [lia|]. split; [lia|]. split; [intros i Hi; apply O2; lia|]. split; [assumption|left; reflexivity].
    - intros a b (U1 & U2 & U3 & U4 & U5) Hb. destruct (le_lt_dec b prev) as [L|L]; [left; assumption|right].
      destruct U5 as [U5|U5]; [assumption|]. destruct (Nat.eq_dec b (length l)) as [Eb|Hne]; [assumption|exfalso].
      apply U5. rewrite (O2 b) by lia. rewrite <- (O2 (b - 1)) by lia. apply U3. lia. }
  destruct HC as (C1 & C2).
  assert (HB : forall r, In r ranges' -> fst r < length l).
  { intros [a b] Hr. apply C1 in Hr. destruct Hr as ((U1 & U2 & _) & _). cbn. lia. }
  assert (HK : exists keys, mapM (fun r : nat * nat => py_nth l (Z.of_nat (fst r))) ranges' = Ok keys /\
                            map Some keys = map (fun r => nth_error l (fst r)) ranges').
  { clear - HB. induction ranges' as [|r rs IH]; [exists []; auto|].
    destruct IH as (ks & E1 & E2); [intros; apply HB; right; assumption|].
    pose proof (HB r (or_introl eq_refl)) as Hr.
    destruct (nth_error l (fst r)) as [x|] eqn:Ex; [|apply nth_error_None in Ex; lia].
    exists (x :: ks). cbn. rewrite py_nth_index, py_index_nat, Ex by assumption. cbn. rewrite E1. cbn.
    rewrite E2. auto. }
  destruct HK as (keys & E1 & E2). exists keys, ranges'. rewrite E1. cbn.
  split; [reflexivity|]. split; [|split; assumption].
  intros a b. rewrite C1. split; [intros (U & V & W); auto|]. intros (U & V). split; [assumption|]. split; [assumption|]. apply U.
Qed.

(** every run of length >= k, in order, with its element; nothing else *)
Theorem C50_runs (l : list A) (k : Z) : (1 <= k)%Z ->
  exists keys ranges, get_partitions eqb l k = Ok (keys, ranges) /\
    (forall a b, In (a, b) ranges <-> is_run l a b /\ (k <= Z.of_nat b - Z.of_nat a)%Z) /\
    StronglySorted (fun r s => snd r <= fst s) ranges /\
    map Some keys = map (fun r => nth_error l (fst r)) ranges.
Proof.
  intros Hk. destruct l as [|x l]; [|apply get_partitions_nonempty; cbn; lia].
  exists [], []. unfold get_partitions. cbn.
  replace (k <=? 0)%Z with false by (symmetry; apply Z.leb_gt; lia).
  cbn. repeat split; try tauto; try constructor; intros ((U & V & _) & _); cbn in V; lia.
Qed.

(** a threshold below 1 acts as 1, except on the empty list *)
Theorem C50_low_threshold (l : list A) (k : Z) : (k < 1)%Z ->
  match l with
  | [] => get_partitions eqb l k = Err IndexError
  | _ => exists keys ranges, get_partitions eqb l k = Ok (keys, ranges) /\
           (forall a b, In (a, b) ranges <-> is_run l a b) /\
           StronglySorted (fun r s => snd r <= fst s) ranges /\
           map Some keys = map (fun r => nth_error l (fst r)) ranges
  end.
Proof.
  intros Hk. destruct l as [|x l].
  - unfold get_partitions. cbn. replace (k <=? 0)%Z with true by (symmetry; apply Z.leb_le; lia). reflexivity.
  - destruct (get_partitions_nonempty (x :: l) k ltac:(cbn; lia)) as (keys & ranges & E & H1 & H2 & H3).
    exists keys, ranges. split; [assumption|]. split; [|split; assumption].
    intros a b. rewrite H1. split; [tauto|]. intros H. split; [assumption|]. destruct H as (U & _). lia.
Qed.

(** in a list where equal elements are adjacent, a run holds all occurrences *)
Definition grouped (l : list A) : Prop :=
  forall i j m, i < j < m -> m < length l -> nth_error l i = nth_error l m -> nth_error l j = nth_error l i.

Lemma sorted_grouped (R : A -> A -> Prop) l : (forall x y, R x y -> R y x -> x = y) -> (forall x, R x x) -> StronglySorted R l -> grouped l.
Proof.
  intros Hanti Hrefl Hs i j m Hij Hm E.
  assert (Hle : forall l, StronglySorted R l -> forall p q x y, p <= q -> nth_error l p = Some x -> nth_error l q = Some y -> R x y).
  { clear - Hrefl. induction l as [|z l IH]; intros Hs p q x y Hpq Ex Ey; [destruct p; discriminate|].
    inversion Hs as [|? ? Hs' Hf]; subst. destruct p, q; cbn in *; try lia.
    - replace y with x by congruence. apply Hrefl.
    - injection Ex as <-. apply nth_error_In in Ey. rewrite Forall_forall in Hf. auto.
    - apply (IH Hs' p q); [lia|assumption|assumption]. }
  destruct (nth_error l i) as [x|] eqn:Ex; [|apply nth_error_None in Ex; lia].
  destruct (nth_error l j) as [y|] eqn:Ey; [|apply nth_error_None in Ey; lia].
  f_equal. apply Hanti.
  - apply (Hle l Hs j m); [lia|assumption|congruence].
  - apply (Hle l Hs i j); [lia|assumption|assumption].
Qed.

Lemma grouped_run l a b x : grouped l -> is_run l a b -> nth_error l a = Some x ->
  forall i, nth_error l i = Some x <-> a <= i < b.
Proof.
  intros G (U1 & U2 & U3 & U4 & U5) Ex i. split; [|intros H; rewrite U3; assumption].
  intros Hi. assert (Li : i < length l) by (apply nth_error_Some; congruence).
  destruct (le_lt_dec a i) as [L|L]; [|exfalso].
  - split; [assumption|]. destruct (le_lt_dec b i) as [L2|L2]; [exfalso|assumption].
    destruct U5 as [U5|U5]; [lia|]. apply U5.
    destruct (Nat.eq_dec b i) as [->|]; [congruence|]. apply (G a b i); [lia|assumption|congruence].
  - destruct U4 as [U4|U4]; [lia|]. apply U4.
    destruct (Nat.eq_dec (a - 1) i) as [->|]; [congruence|]. rewrite (G i (a - 1) a) by (first [lia|congruence]). congruence.
Qed.

Lemma run_exists (l : list A) i : i < length l -> exists a b, is_run l a b /\ a <= i < b.
Proof.
  intros Hi.
  assert (H : forall m, m < length l -> exists prev, open_run l prev m).
  { intros m Hm. pose proof (part_loop l 1 m Hm) as P. destruct (fold_left _ _ _) as [prev ranges]. exists prev. apply P. }
  (* extend to the right from the open run of i *)
  destruct (H i Hi) as (a & O1 & O2 & O3).
  assert (HX : forall d, i + d <= length l -> (forall q, a <= q < i + d -> nth_error l q = nth_error l a) \/ exists b, is_run l a b /\ a <= i < b).
  { induction d as [|d IHd]; intros Hd; [left; intros q Hq; apply O2; lia|].
    destruct IHd as [IHd|IHd]; [lia| |right; assumption].
    assert (Hq : i + d < length l) by lia.
    destruct (nth_error l (i + d)) as [y|] eqn:Ey; [|apply nth_error_None in Ey; lia].
    destruct (nth_error l a) as [z|] eqn:Ez; [|apply nth_error_None in Ez; lia].
    destruct (eqb y z) eqn:Eyz.
    - apply Heqb in Eyz. subst y. left. intros q Hq2. destruct (Nat.eq_dec q (i + d)) as [->|]; [assumption|apply IHd; lia].
    - right. assert (y <> z) by (intros ->; assert (eqb z z = true) by (apply Heqb; reflexivity); congruence).
      destruct (Nat.eq_dec d 0) as [->|].
      { exfalso. rewrite Nat.add_0_r in Ey. rewrite (O2 i) in Ey by lia. congruence. }
      exists (i + d). split; [|lia]. split; [lia|]. split; [lia|]. split; [intros q Hq2; rewrite Ez; apply IHd; lia|].
      split; [rewrite Ez; assumption|]. right. congruence. }
  destruct (HX (length l - i) ltac:(lia)) as [K|(b & K)]; [|exists a, b; assumption].
  exists a, (length l). split; [|lia]. split; [lia|]. split; [lia|]. split; [intros q Hq; apply K; lia|].
  split; [assumption|left; reflexivity].
Qed.

Lemma filter_count_range (p : A -> bool) (l : list A) a b : a <= b -> b <= length l ->
  (forall i x, nth_error l i = Some x -> (p x = true <-> a <= i < b)) -> length (filter p l) = b - a.
Proof.
  revert a b; induction l as [|y l IH]; intros a b Hab Hb H; [cbn in Hb; cbn; lia|].
  cbn [filter]. pose proof (H 0 y eq_refl) as H0. cbn in Hb.
  assert (HS : forall i x, nth_error l i = Some x -> (p x = true <-> a - 1 <= i < b - 1)).
  { intros i x Hx. rewrite (H (S i) x Hx). destruct a; [|lia]. split; [lia|].
    intros [K1 K2]. lia. }
  destruct (p y) eqn:Ep.
  - destruct H0 as [H0 _]. specialize (H0 eq_refl). cbn. rewrite (IH 0 (b - 1)); [lia|lia|lia|].
    intros i x Hx. rewrite (HS i x Hx). lia.
  - assert (HN : ~ (a <= 0 < b)) by (intros K; apply H0 in K; discriminate).
    rewrite (IH (a - 1) (b - 1)); [lia|lia|lia|]. exact HS.
Qed.

(** sorted input: distinct keys, each with the range of all its occurrences, and a key exactly for the elements that
    occur at least k times *)
Theorem C50_sorted (R : A -> A -> Prop) (l : list A) (k : Z) keys ranges :
  (forall x, R x x) -> (forall x y, R x y -> R y x -> x = y) -> StronglySorted R l -> (1 <= k)%Z ->
  get_partitions eqb l k = Ok (keys, ranges) ->
  NoDup keys /\ length keys = length ranges /\
  (forall n x a b, nth_error keys n = Some x -> nth_error ranges n = Some (a, b) ->
     forall i, nth_error l i = Some x <-> a <= i < b) /\
  (forall x, In x keys <-> (k <= Z.of_nat (length (filter (eqb x) l)))%Z).
Proof.
  intros Hr Ha Hs Hk E. pose proof (sorted_grouped R l Ha Hr Hs) as G.
  destruct (C50_runs l k Hk) as (keys' & ranges' & E' & H1 & H2 & H3). rewrite E in E'. injection E' as <- <-.
  assert (HL : length keys = length ranges) by (apply (f_equal (@length _)) in H3; rewrite !map_length in H3; exact H3).
  assert (HK : forall n x a b, nth_error keys n = Some x -> nth_error ranges n = Some (a, b) -> is_run l a b /\ nth_error l a = Some x /\ (k <= Z.of_nat b - Z.of_nat a)%Z).
  { intros n x a b Hx Hab. pose proof (nth_error_In _ _ Hab) as Hin. apply H1 in Hin. destruct Hin as [R1 R2].
    split; [assumption|]. split; [|assumption].
    pose proof (map_nth_error (@Some A) n keys Hx) as M1. rewrite H3 in M1.
    pose proof (map_nth_error (fun r => nth_error l (fst r)) n ranges Hab) as M2. cbn in M2. congruence. }
  assert (HA : forall n x a b, nth_error keys n = Some x -> nth_error ranges n = Some (a, b) ->
     forall i, nth_error l i = Some x <-> a <= i < b).
  { intros n x a b Hx Hab. destruct (HK n x a b Hx Hab) as (U & V & _). apply grouped_run; assumption. }
  assert (HR : forall n x, nth_error keys n = Some x -> exists a b, nth_error ranges n = Some (a, b)).
  { intros n x Hx. destruct (nth_error ranges n) as [[a b]|] eqn:En; [eauto|].
    apply nth_error_None in En. assert (n < length keys) by (apply nth_error_Some; congruence). lia. }
  split; [|split; [assumption|split; [assumption|]]].
  - apply NoDup_nth_error. intros n m Hn Hnm.
    destruct (nth_error keys n) as [x|] eqn:Ex; [|apply nth_error_None in Ex; lia]. symmetry in Hnm.
    destruct (HR n x Ex) as (a & b & En). destruct (HR m x Hnm) as (a' & b' & Em).
    pose proof (HA n x a b Ex En) as P. pose proof (HA m x a' b' Hnm Em) as Q.
    destruct (HK n x a b Ex En) as (U & _). destruct (HK m x a' b' Hnm Em) as (U' & _).
    assert (a <= a < b /\ a' <= a' < b') as [Wa Wa'] by (destruct U as (? & _); destruct U' as (? & _); lia).
    pose proof (proj1 (Q a) (proj2 (P a) Wa)). pose proof (proj1 (P a') (proj2 (Q a') Wa')).
    assert (a = a') by lia. subst a'.
    destruct (Nat.lt_trichotomy n m) as [L|[L|L]]; [exfalso|assumption|exfalso].
    + clear - H2 En Em L U U'. revert n m L En Em. induction H2 as [|r rs Hs IH Hf]; intros n m L En Em; [destruct n; discriminate|].
      destruct n, m; try lia; cbn in En, Em.
      * injection En as ->. apply nth_error_In in Em. rewrite Forall_forall in Hf. specialize (Hf _ Em). cbn in Hf. destruct U as (? & _); lia.
      * apply (IH n m); [lia|assumption|assumption].
    + clear - H2 En Em L U U'. revert n m L En Em. induction H2 as [|r rs Hs IH Hf]; intros n m L En Em; [destruct n; discriminate|].
      destruct n, m; try lia; cbn in En, Em.
      * injection Em as ->. apply nth_error_In in En. rewrite Forall_forall in Hf. specialize (Hf _ En). cbn in Hf. destruct U' as (? & _); lia.
      * apply (IH n m); [lia|assumption|assumption].
  - intros x.
    assert (Heqx : forall y, eqb x y = true <-> y = x) by (intros y; rewrite Heqb; split; auto).
    assert (Hcount : forall a b, is_run l a b -> nth_error l a = Some x -> length (filter (eqb x) l) = b - a).
    { intros a b U V. pose proof (grouped_run l a b x G U V) as P. destruct U as (U1 & U2 & _).
      apply filter_count_range; [lia|lia|]. intros i y Hy. rewrite Heqx, <- P, Hy. split; congruence. }
    split.
    + intros Hx. apply In_nth_error in Hx. destruct Hx as (n & Hx). destruct (HR n x Hx) as (a & b & En).
      destruct (HK n x a b Hx En) as (U & V & W). rewrite (Hcount a b U V). lia.
    + intros Hc. assert (Hin : In x l).
      { destruct (filter (eqb x) l) as [|y ys] eqn:Ef; [cbn in Hc; lia|].
        assert (Hy : In y (filter (eqb x) l)) by (rewrite Ef; left; reflexivity).
        apply filter_In in Hy. destruct Hy as [Hy Hy2]. apply Heqx in Hy2. subst; assumption. }
      apply In_nth_error in Hin. destruct Hin as (i & Hi).
      assert (Li : i < length l) by (apply nth_error_Some; congruence).
      destruct (run_exists l i Li) as (a & b & U & Hiab).
      assert (Va : nth_error l a = Some x) by (destruct U as (_ & _ & U3 & _); rewrite <- (U3 i) by lia; assumption).
      rewrite (Hcount a b U Va) in Hc.
      assert (Hab : In (a, b) ranges) by (apply H1; split; [assumption|]; destruct U as (? & _); lia).
      apply In_nth_error in Hab. destruct Hab as (n & Hn).
      destruct (nth_error keys n) as [y|] eqn:Ey; [|apply nth_error_None in Ey; assert (n < length ranges) by (apply nth_error_Some; congruence); lia].
      destruct (HK n y a b Ey Hn) as (_ & V & _). assert (y = x) by congruence. subst. eapply nth_error_In; eassumption.
Qed.
End Partitions.

Example C50_example :
  get_partitions Nat.eqb [1; 1; 2; 3; 3; 3; 4] 2 = Ok ([1; 3], [(0, 2); (3, 6)]) /\
  get_partitions Nat.eqb [1; 1; 2; 1] 1 = Ok ([1; 2; 1], [(0, 2); (2, 3); (3, 4)]) /\
  StronglySorted le [1; 1; 2; 3; 3; 3; 4].
Proof. split; [reflexivity|]. split; [reflexivity|]. repeat (constructor; try lia). Qed.

(** ** C51 *)
Lemma slice_app_firstn {A} (l : list A) a b : a <= b -> firstn a l ++ slice a b l = firstn b l.
Proof.
  intros H. unfold slice. replace (firstn a l) with (firstn a (firstn b l)) by (rewrite firstn_firstn; f_equal; lia).
  rewrite firstn_skipn_comm. replace (a + (b - a)) with b by lia. apply firstn_skipn.
Qed.

Lemma split_loop (l : list nat) f i : 0 < f -> i <= f ->
  let q := length l / f in let r := length l mod f in
  let '(cur, acc) := fold_left (split_step l f) (seq 0 i) (0, []) in
  cur = i * q + Nat.min i r /\ concat acc = firstn cur l /\ length acc = i /\
  (forall x, In x acc -> length x = q \/ length x = q + 1).
Proof.
  intros Hf. cbv zeta. induction i as [|i IH]; intros Hi; [cbn; repeat split; tauto|].
  rewrite seq_S, fold_left_app. cbn [fold_left]. specialize (IH ltac:(lia)).
  destruct (fold_left (split_step l f) (seq 0 i) (0, [])) as [cur acc]. destruct IH as (I1 & I2 & I3 & I4).
  cbn [split_step]. rewrite Nat.add_0_l.
  pose proof (Nat.div_mod_eq (length l) f) as Hdm. pose proof (Nat.mod_upper_bound (length l) f ltac:(lia)) as Hmu.
  set (q := length l / f) in *. set (r := length l mod f) in *.
  set (sl := if Nat.ltb i r then q + 1 else q).
  assert (Hsl : cur + sl = S i * q + Nat.min (S i) r /\ (sl = q \/ sl = q + 1)).
  { unfold sl. destruct (Nat.ltb_spec i r); split; try lia. }
  destruct Hsl as [Hc Hs].
  assert (Hle : cur + sl <= length l) by (rewrite Hc; nia).
  split; [assumption|]. split; [rewrite concat_app, I2; cbn; rewrite app_nil_r; apply slice_app_firstn; lia|].
  split; [rewrite app_length, I3; cbn; lia|].
  intros x Hx. apply in_app_or in Hx. destruct Hx as [Hx|[<-|[]]]; [auto|].
  rewrite slice_length by lia. lia.
Qed.

(** the folds of a shuffle of 0..n-1: min(n, f) of them, disjoint, covering, of sizes differing by at most one *)
Theorem C51_folds (shuffle : list nat -> list nat) (n f : Z) :
  (forall l, Permutation l (shuffle l)) ->
  ((f <= 0)%Z \/ (n <= 0)%Z -> get_split_indices shuffle n f = Err ValueError) /\
  ((0 < f)%Z -> (0 < n)%Z -> exists folds, get_split_indices shuffle n f = Ok folds /\
     Z.of_nat (length folds) = Z.min n f /\
     NoDup (concat folds) /\ (forall i, In i (concat folds) <-> (Z.of_nat i < n)%Z) /\
     (forall x, In x folds -> x <> []) /\
     (forall x y, In x folds -> In y folds -> length x <= length y + 1)).
Proof.
  intros Hsh. split.
  - intros H. unfold get_split_indices. destruct (Z.leb_spec f 0); [reflexivity|].
    destruct (Z.ltb_spec n f); [|lia]. destruct (Z.leb_spec n 0); [reflexivity|lia].
  - intros Hf Hn.
    assert (HR : get_split_indices shuffle n f =
      Ok (snd (fold_left (split_step (shuffle (seq 0 (Z.to_nat n))) (Z.to_nat (Z.min n f))) (seq 0 (Z.to_nat (Z.min n f))) (0, [])))).
    { unfold get_split_indices. destruct (Z.leb_spec f 0); [lia|].
      destruct (Z.ltb_spec n f); [destruct (Z.leb_spec n 0); [lia|]|].
      - rewrite Z.min_l by lia. reflexivity.
      - rewrite Z.min_r by lia. reflexivity. }
    rewrite HR. set (l := shuffle (seq 0 (Z.to_nat n))). set (g := Z.to_nat (Z.min n f)).
    pose proof (Hsh (seq 0 (Z.to_nat n))) as HP. fold l in HP.
    assert (HL : length l = Z.to_nat n) by (rewrite <- (Permutation_length HP); apply seq_length).
    pose proof (split_loop l g g ltac:(unfold g; lia) (le_n _)) as H. cbv zeta in H.
    destruct (fold_left (split_step l g) (seq 0 g) (0, [])) as [cur acc]. destruct H as (I1 & I2 & I3 & I4). cbn [snd].
    pose proof (Nat.div_mod_eq (length l) g) as Hdm. pose proof (Nat.mod_upper_bound (length l) g ltac:(unfold g; lia)) as Hmu.
    set (q := length l / g) in *. set (r := length l mod g) in *.
    assert (Hcur : cur = length l) by (rewrite I1, Nat.min_r by lia; lia).
    rewrite Hcur, firstn_all in I2.
    assert (Hq : 1 <= q).
    { apply Nat.div_le_lower_bound; [unfold g; lia|]. rewrite HL. unfold g. lia. }
    exists acc. split; [reflexivity|]. split; [rewrite I3; unfold g; lia|]. rewrite I2.
    split; [eapply Permutation_NoDup; [exact HP|apply seq_NoDup]|].
    split.
    { intros i. split; intros Hi.
      - apply (Permutation_in _ (Permutation_sym HP)), in_seq in Hi. lia.
      - apply (Permutation_in _ HP), in_seq. lia. }
    split.
    + intros x Hx Hx0. subst x. apply I4 in Hx. cbn in Hx. lia.
    + intros x y Hx Hy. apply I4 in Hx. apply I4 in Hy. lia.
Qed.

Example C51_example :
  get_split_indices (@rev nat) 7 3 = Ok [[6; 5; 4]; [3; 2]; [1; 0]] /\
  get_split_indices (@rev nat) 2 5 = Ok [[1]; [0]] /\ (forall l : list nat, Permutation l (rev l)).
Proof. split; [reflexivity|]. split; [reflexivity|]. apply Permutation_rev. Qed.
