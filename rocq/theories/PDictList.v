(** PDictList.v -- proofs about list2dict, add_items_to_dict, assert_dict_match_list. *)
From Verif Require Import Base PyList Dict Num Dense Sparse Matrix Scaling Linalg Operation Similarity Space Peripheral SpecSpace.
From Coq Require Import Permutation.

Lemma denotes_py_index n k p : denotes n k p <-> py_index n k = Some p.
Proof.
  unfold denotes, py_index. destruct (Z.ltb_spec k 0) as [Hk|Hk].
  - destruct ((k + Z.of_nat n <? 0)%Z || (Z.of_nat n <=? k + Z.of_nat n)%Z) eqn:Eb.
    + apply orb_true_iff in Eb. rewrite Z.ltb_lt, Z.leb_le in Eb. split; [intros [? [?|?]]; lia|discriminate].
    + apply orb_false_iff in Eb. rewrite Z.ltb_ge, Z.leb_gt in Eb. split.
      * intros [? [?|?]]; f_equal; lia.
      * intros K; inversion K; subst. split; [lia|right; lia].
  - destruct ((k <? 0)%Z || (Z.of_nat n <=? k)%Z) eqn:Eb.
    + apply orb_true_iff in Eb. rewrite Z.ltb_lt, Z.leb_le in Eb. split; [intros [? [?|?]]; lia|discriminate].
    + apply orb_false_iff in Eb. rewrite Z.ltb_ge, Z.leb_gt in Eb. split.
      * intros [? [?|?]]; f_equal; lia.
      * intros K; inversion K; subst. split; [lia|left; lia].
Qed.

(** ** list2dict *)
Lemma list2dict_aux_ok l : forall idx d d',
  list2dict_aux l idx d = Ok d' ->
  d' = d ++ combine l (map (fun i => idx + Z.of_nat i)%Z (seq 0 (length l))) /\
  NoDup l /\ (forall w, In w l -> ~ In w (dkeys d)).
Proof.
  induction l as [|w ws IH]; cbn [list2dict_aux]; intros idx d d' H.
  - inversion H; subst. cbn. rewrite app_nil_r. split; [reflexivity|]. split; [constructor|]. intros ? [].
  - destruct (dmem d w) eqn:Em; [discriminate|].
    apply IH in H. destruct H as (-> & Hnd & Hni).
    rewrite dset_new by assumption. pose proof Em as Em'. apply dmem_false in Em'.
    split; [|split].
    + rewrite <- app_assoc. f_equal. cbn [length seq map combine app]. f_equal; [f_equal; lia|].
      f_equal. rewrite <- seq_shift, map_map. apply map_ext. intros i. lia.
    + constructor; [|assumption]. intros Hin. apply (Hni _ Hin). rewrite dkeys_dset_new by assumption.
      apply in_or_app. right; left; reflexivity.
    + intros x [<-|Hx] Hk; [contradiction|]. apply (Hni _ Hx). rewrite dkeys_dset_new by assumption.
      apply in_or_app; left; assumption.
Qed.

Lemma list2dict_aux_total l : forall idx d, NoDup l -> (forall w, In w l -> ~ In w (dkeys d)) ->
  exists d', list2dict_aux l idx d = Ok d'.
Proof.
  induction l as [|w ws IH]; cbn [list2dict_aux]; intros idx d Hn Hd; [eauto|].
  inversion Hn as [|? ? Hni Hn']; subst.
  assert (Em : dmem d w = false) by (apply dmem_false, Hd; left; reflexivity).
  rewrite Em. apply IH; [assumption|]. intros x Hx Hk. rewrite dkeys_dset_new in Hk by assumption.
  apply in_app_or in Hk. destruct Hk as [Hk|[<-|[]]]; [apply (Hd x); [right; assumption|assumption]|contradiction].
Qed.

Lemma dget_combine_seq l idx w k : NoDup l ->
  (dget (combine l (map (fun i => idx + Z.of_nat i)%Z (seq 0 (length l)))) w = Some k <->
   exists p, k = (idx + Z.of_nat p)%Z /\ nth_error l p = Some w).
Proof.
  revert idx; induction l as [|x xs IH]; intros idx Hn.
  - cbn. split; [discriminate|]. intros (p & _ & H). destruct p; discriminate.
  - inversion Hn as [|? ? Hni Hn']; subst. cbn [length seq map combine dget].
    rewrite <- seq_shift, map_map.
    rewrite map_ext with (g := fun i => ((idx + 1) + Z.of_nat i)%Z) by (intros; lia).
    destruct (String.eqb_spec w x) as [->|Hne].
    + split.
      * intros H. inversion H; subst. exists 0. split; [lia|reflexivity].
      * intros (p & -> & Hp). destruct p as [|p]; [cbn; f_equal; lia|].
        cbn in Hp. apply nth_error_In in Hp. contradiction.
    + rewrite IH by assumption. split; intros (p & -> & Hp).
      * exists (S p). split; [lia|exact Hp].
      * destruct p as [|p]; [cbn in Hp; congruence|]. exists p. split; [lia|exact Hp].
Qed.

Lemma list2dict_ok l d : list2dict l = Ok d -> NoDup l /\ positional l d /\ dkeys d = l /\ length d = length l.
Proof.
  unfold list2dict. intros H. apply list2dict_aux_ok in H. destruct H as (-> & Hn & _). cbn [app].
  assert (Hk : dkeys (combine l (map (fun i => (0 + Z.of_nat i)%Z) (seq 0 (length l)))) = l).
  { unfold dkeys. clear Hn. generalize 0%Z as z. induction l as [|x xs IH]; intros z; [reflexivity|].
    cbn [length seq map combine]. f_equal. rewrite <- seq_shift, map_map.
    rewrite map_ext with (g := fun i => ((z + 1) + Z.of_nat i)%Z) by (intros; lia). apply IH. }
  split; [assumption|]. split; [|split; [exact Hk|]].
  - intros w k. rewrite dget_combine_seq by assumption. reflexivity.
  - rewrite combine_length, map_length, seq_length. lia.
Qed.

Lemma list2dict_total l : NoDup l -> exists d, list2dict l = Ok d.
Proof. intros H. apply list2dict_aux_total; [assumption|]. intros ? ? []. Qed.

Lemma list2dict_err l e : list2dict l = Err e -> e = ValueError /\ ~ NoDup l.
Proof.
  intros H. split.
  - unfold list2dict in H. revert H. generalize 0%Z (@nil (string * Z)).
    induction l as [|w ws IH]; cbn; intros z d H; [discriminate|].
    destruct (dmem d w); [inversion H; reflexivity|eauto].
  - intros Hn. destruct (list2dict_total l Hn) as (d & Hd). congruence.
Qed.

Lemma positional_inverse l d : NoDup l -> dkeys d = l \/ True -> positional l d -> length d = length l -> mutually_inverse l d.
Proof.
  intros Hn _ Hp Hl. split; [assumption|]. split; [assumption|]. split.
  - intros w. rewrite <- dmem_In. unfold dmem. split.
    + intros Hin. apply In_nth_error in Hin. destruct Hin as (p & Hp').
      rewrite (proj2 (Hp w (Z.of_nat p))) by eauto. reflexivity.
    + destruct (dget d w) as [k|] eqn:E; [|discriminate]. intros _. apply Hp in E. destruct E as (p & _ & E).
      eapply nth_error_In; eauto.
  - intros w k Hk. apply Hp in Hk. destruct Hk as (p & -> & Hp').
    exists p. split; [|assumption]. split; [apply nth_error_Some; congruence|left; reflexivity].
Qed.

(** ** assert_dict_match_list *)
Lemma match_entries_ok l d u : match_entries l d = Ok u ->
  forall w k, In (w, k) d -> exists p, denotes (length l) k p /\ nth_error l p = Some w.
Proof.
  induction d as [|[w0 k0] t IH]; cbn; intros H w k Hin; [contradiction|].
  inv_ok. destruct Hin as [He|Hin]; [|eauto].
  inversion He; subst. unfold match_entry in Hm. inv_ok. cbn in *.
  apply String.eqb_eq in Hm. subst. rewrite py_nth_index in Hm0.
  destruct (py_index (length l) k) as [p|] eqn:Ep; [|discriminate].
  exists p. split; [apply denotes_py_index, Ep|].
  destruct (nth_error l p) eqn:En; inversion Hm0; subst; reflexivity.
Qed.

Lemma match_entries_total l d :
  (forall w k, In (w, k) d -> exists p, denotes (length l) k p /\ nth_error l p = Some w) ->
  match_entries l d = Ok tt.
Proof.
  induction d as [|[w0 k0] t IH]; cbn; intros H; [reflexivity|].
  destruct (H w0 k0 (or_introl eq_refl)) as (p & Hp & Hn).
  unfold match_entry. cbn. rewrite py_nth_index, (proj1 (denotes_py_index _ _ _) Hp), Hn. cbn.
  rewrite String.eqb_refl. cbn. apply IH. intros; apply H; right; assumption.
Qed.

(** injectivity of the positions gives a bijection *)
Lemma dict_positions l d : dwf d ->
  (forall w k, In (w, k) d -> exists p, denotes (length l) k p /\ nth_error l p = Some w) ->
  exists ps, length ps = length d /\ NoDup ps /\ (forall p, In p ps -> p < length l) /\
             map (nth_error l) ps = map Some (dkeys d).
Proof.
  induction d as [|[w k] t IH]; intros Hw H.
  - exists []. repeat split; [constructor|intros ? []].
  - inversion Hw as [|? ? Hni Hw']; subst.
    destruct IH as (ps & Hl & Hnd & Hlt & Hm); [assumption|intros; apply H; right; assumption|].
    destruct (H w k (or_introl eq_refl)) as (p & [Hp _] & Hn).
    exists (p :: ps). cbn. repeat split.
    + rewrite Hl; reflexivity.
    + constructor; [|assumption]. intros Hin. apply Hni.
      apply (in_map (nth_error l)) in Hin. rewrite Hm, Hn in Hin. apply in_map_iff in Hin.
      destruct Hin as (x & Hx & Hin). inversion Hx; subst. exact Hin.
    + intros q [<-|Hq]; auto.
    + rewrite Hn, Hm. reflexivity.
Qed.

Lemma map_nth_error_seq {A} (l : list A) : map (nth_error l) (seq 0 (length l)) = map Some l.
Proof.
  induction l as [|x xs IH]; [reflexivity|]. cbn [length seq map nth_error]. f_equal.
  rewrite <- seq_shift, map_map. cbn. exact IH.
Qed.

Lemma Permutation_map_Some {A} (l1 l2 : list A) : Permutation (map Some l1) (map Some l2) -> Permutation l1 l2.
Proof.
  intros H. assert (K : forall l : list A, flat_map (fun o => match o with Some x => [x] | None => [] end) (map Some l) = l).
  { induction l as [|x xs IH]; cbn; [reflexivity|]. f_equal; exact IH. }
  rewrite <- (K l1), <- (K l2). apply Permutation_flat_map, H.
Qed.

Lemma dict_match_perm l d : dwf d -> length l = length d ->
  (forall w k, In (w, k) d -> exists p, denotes (length l) k p /\ nth_error l p = Some w) ->
  Permutation l (dkeys d).
Proof.
  intros Hw Hl H. destruct (dict_positions l d Hw H) as (ps & Hlp & Hnd & Hlt & Hm).
  apply Permutation_map_Some. rewrite <- Hm, <- map_nth_error_seq. apply Permutation_map.
  apply Permutation_sym, NoDup_Permutation_bis; [assumption|rewrite seq_length; lia|].
  intros p Hp. apply in_seq. specialize (Hlt p Hp). lia.
Qed.

Lemma assert_match_ok d l u : dwf d -> assert_dict_match_list d l = Ok u -> mutually_inverse l d.
Proof.
  intros Hw. unfold assert_dict_match_list. intros H. inv_ok. apply Nat.eqb_eq in Hm.
  pose proof (match_entries_ok _ _ _ H) as Hme.
  pose proof (dict_match_perm l d Hw Hm Hme) as HP.
  split; [eapply Permutation_NoDup; [apply Permutation_sym; exact HP|exact Hw]|].
  split; [congruence|]. split.
  - intros w. split; [apply Permutation_in, HP|apply Permutation_in, Permutation_sym, HP].
  - intros w k Hk. apply Hme, dget_In, Hk.
Qed.

Lemma assert_match_total d l : dwf d -> mutually_inverse l d -> assert_dict_match_list d l = Ok tt.
Proof.
  intros Hw (_&Hl&_&H). unfold assert_dict_match_list. rewrite Hl, Nat.eqb_refl. cbn.
  apply match_entries_total. intros w k Hin. apply H, dget_In_iff; assumption.
Qed.

Lemma inverse_nonneg_positional l d : dwf d -> mutually_inverse l d ->
  (forall w k, In (w, k) d -> (0 <= k)%Z) -> positional l d.
Proof.
  intros Hw (Hn&Hl&Hk&Hd) Hpos w k. split.
  - intros Hg. destruct (Hd w k Hg) as (p & [Hp Hc] & He). exists p. split; [|assumption].
    specialize (Hpos w k (dget_In _ _ _ Hg)). destruct Hc; lia.
  - intros (p & -> & He).
    assert (Hin : In w (dkeys d)) by (apply Hk; eapply nth_error_In; eauto).
    destruct (dget d w) as [k|] eqn:E; [|apply dget_None in E; contradiction].
    destruct (Hd w k E) as (q & [Hq Hc] & He'). f_equal.
    assert (q = p).
    { rewrite NoDup_nth_error in Hn. apply Hn; [assumption|congruence]. }
    subst. specialize (Hpos w k (dget_In _ _ _ E)). destruct Hc; lia.
Qed.

Lemma positional_nonneg l d : positional l d -> dwf d -> forall w k, In (w, k) d -> (0 <= k)%Z.
Proof. intros H Hw w k Hin. apply dget_In_iff in Hin; [|assumption]. apply H in Hin. destruct Hin as (p & -> & _). lia. Qed.

Lemma positional_NoDup l d : positional l d -> NoDup l.
Proof.
  intros H. apply NoDup_nth_error. intros i j Hi Hij.
  destruct (nth_error l i) as [w|] eqn:E; [|apply nth_error_None in E; lia].
  pose proof (proj2 (H w (Z.of_nat i)) (ex_intro _ i (conj eq_refl E))) as H1.
  pose proof (proj2 (H w (Z.of_nat j)) (ex_intro _ j (conj eq_refl (eq_sym Hij)))) as H2.
  rewrite H1 in H2. inversion H2. lia.
Qed.

(** ** add_items_to_dict *)
Lemma add_items_aux_ok l : forall n idx d d' u,
  add_items_aux l n idx d = (d', Ok u) ->
  d' = d ++ combine l (map (fun i => (n + idx) + Z.of_nat i)%Z (seq 0 (length l))) /\
  NoDup l /\ (forall w, In w l -> ~ In w (dkeys d)).
Proof.
  induction l as [|w ws IH]; cbn [add_items_aux]; intros n idx d d' u H.
  - inversion H; subst. cbn. rewrite app_nil_r. split; [reflexivity|]. split; [constructor|]. intros ? [].
  - destruct (dmem d w) eqn:Em; [discriminate|].
    apply IH in H. destruct H as (-> & Hnd & Hni).
    rewrite dset_new by assumption. pose proof Em as Em'. apply dmem_false in Em'.
    split; [|split].
    + rewrite <- app_assoc. f_equal. cbn [length seq map combine app]. f_equal; [f_equal; lia|].
      f_equal. rewrite <- seq_shift, map_map. apply map_ext. intros i. lia.
    + constructor; [|assumption]. intros Hin. apply (Hni _ Hin). rewrite dkeys_dset_new by assumption.
      apply in_or_app. right; left; reflexivity.
    + intros x [<-|Hx] Hk; [contradiction|]. apply (Hni _ Hx). rewrite dkeys_dset_new by assumption.
      apply in_or_app; left; assumption.
Qed.

Lemma add_items_aux_total l : forall n idx d, NoDup l -> (forall w, In w l -> ~ In w (dkeys d)) ->
  exists d', add_items_aux l n idx d = (d', Ok tt).
Proof.
  induction l as [|w ws IH]; cbn [add_items_aux]; intros n idx d Hn Hd; [eauto|].
  inversion Hn as [|? ? Hni Hn']; subst.
  assert (Em : dmem d w = false) by (apply dmem_false, Hd; left; reflexivity).
  rewrite Em. apply IH; [assumption|]. intros x Hx Hk. rewrite dkeys_dset_new in Hk by assumption.
  apply in_app_or in Hk. destruct Hk as [Hk|[<-|[]]]; [apply (Hd x); [right; assumption|assumption]|contradiction].
Qed.

Lemma add_items_aux_err l : forall n idx d d' e, add_items_aux l n idx d = (d', Err e) -> e = ValueError.
Proof.
  induction l as [|w ws IH]; cbn; intros n idx d d' e H; [discriminate|].
  destruct (dmem d w); [inversion H; reflexivity|eauto].
Qed.

Lemma dkeys_combine l (f : nat -> Z) n : n = length l -> dkeys (combine l (map f (seq 0 n))) = l.
Proof.
  intros ->. unfold dkeys. revert f; induction l as [|x xs IH]; intros f; [reflexivity|].
  cbn [length seq map combine]. f_equal. rewrite <- seq_shift, map_map. apply IH.
Qed.

Lemma add_items_positional d l1 l2 d' u :
  dwf d -> positional l1 d -> length d = length l1 -> add_items_to_dict d l2 = (d', Ok u) ->
  positional (l1 ++ l2) d' /\ dwf d' /\ length d' = length (l1 ++ l2) /\ NoDup l2 /\ (forall w, In w l2 -> ~ In w l1).
Proof.
  intros Hw Hp Hl H. unfold add_items_to_dict in H. apply add_items_aux_ok in H.
  destruct H as (-> & Hn2 & Hdis).
  set (c := combine l2 _).
  assert (Hc : dkeys c = l2) by (apply dkeys_combine; reflexivity).
  assert (Hin1 : forall w, In w l1 <-> In w (dkeys d)).
  { intros w. rewrite <- dmem_In. unfold dmem. split.
    - intros Hin. apply In_nth_error in Hin. destruct Hin as (p & Hpp).
      rewrite (proj2 (Hp w (Z.of_nat p))) by eauto. reflexivity.
    - destruct (dget d w) as [k|] eqn:E; [|discriminate]. intros _. apply Hp in E. destruct E as (p & _ & E).
      eapply nth_error_In; eauto. }
  split; [|split; [|split; [|split]]].
  - intros w k. rewrite dget_app. destruct (dget d w) as [k0|] eqn:E.
    + split.
      * intros H; injection H as <-. apply Hp in E. destruct E as (p & -> & E). exists p. split; [reflexivity|].
        rewrite nth_error_app1; [assumption|]. apply nth_error_Some; congruence.
      * intros (p & -> & He). destruct (Nat.lt_ge_cases p (length l1)) as [Hlt|Hge].
        -- rewrite nth_error_app1 in He by assumption. rewrite <- E. apply Hp. eauto.
        -- rewrite nth_error_app2 in He by assumption. exfalso. apply nth_error_In in He.
           apply (Hdis _ He). apply dmem_In. unfold dmem. rewrite E. reflexivity.
    + unfold c. rewrite dget_combine_seq by assumption. rewrite Z.add_0_r, Hl. split.
      * intros (p & -> & He). exists (length l1 + p). split; [lia|].
        rewrite nth_error_app2 by lia. replace (length l1 + p - length l1) with p by lia. exact He.
      * intros (p & -> & He). destruct (Nat.lt_ge_cases p (length l1)) as [Hlt|Hge].
        -- rewrite nth_error_app1 in He by assumption. exfalso. apply nth_error_In, Hin1 in He.
           apply dget_None in E. contradiction.
        -- exists (p - length l1). split; [lia|]. rewrite nth_error_app2 in He by assumption. exact He.
  - unfold dwf, dkeys. rewrite map_app. fold (dkeys d) (dkeys c). rewrite Hc.
    clear Hc. clear c. clear Hl Hp Hin1. unfold dwf in Hw. revert Hw Hdis. induction (dkeys d) as [|x xs IH]; intros Hw Hdis; [exact Hn2|].
    inversion Hw; subst. cbn. constructor.
    + rewrite in_app_iff. intros [?|Hx]; [contradiction|]. apply (Hdis _ Hx). left; reflexivity.
    + apply IH; [assumption|]. intros w Hin Hk. apply (Hdis _ Hin). right; assumption.
  - assert (Lc : length c = length l2) by (unfold c; rewrite combine_length, map_length, seq_length; lia).
    rewrite !app_length, Lc, Hl. reflexivity.
  - assumption.
  - intros w Hin Hin'. apply (Hdis w Hin). apply Hin1. assumption.
Qed.
