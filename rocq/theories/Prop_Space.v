(** Prop_Space.v -- properties C01-C08: indexing structures, constructor, lookup, vstack, conversions, apply.
    Everything here holds for every carrier of numbers [N] and every behaviour [E] of the external routines. *)
From Verif Require Import Base PyList Dict Num Dense Sparse Matrix PSparse PMatrix PMatOps Scaling Linalg Operation
  Similarity Space Peripheral SpecSpace PShape PDictList PSpace.
Section PropSpace.
Context {N : Num} {E : Ext}.
Local Open Scope string_scope.
Local Open Scope list_scope.
Local Open Scope nat_scope.

(** ** C01 *)
Theorem C01_accepted_inverse : forall m id2row id2col row2id col2id ops eshape s,
  opt_dict row2id -> opt_dict col2id ->
  mk_space m id2row id2col row2id col2id ops eshape = Ok s ->
  s_mat s = m /\ s_id2row s = id2row /\ s_id2col s = id2col /\
  length id2row = m_nr m /\ mutually_inverse id2row (s_row2id s) /\
  ((id2col = [] /\ s_col2id s = []) \/ (length id2col = m_nc m /\ mutually_inverse id2col (s_col2id s))) /\
  match row2id with None => positional id2row (s_row2id s) | Some d => s_row2id s = d end /\
  match col2id with None => positional id2col (s_col2id s) | Some d => s_col2id s = d end.
Proof.
  intros m r c r2i c2i ops es s Hr Hc H.
  destruct (mk_space_ok _ _ _ _ _ _ _ _ Hr Hc H) as (dr&dc&e&->&Ar&Ac&Lr&Lc&He&_). cbn.
  destruct Ar as (A1&A2&A3), Ac as (B1&B2&B3). repeat (split; [solve [auto]|]). split.
  - destruct Lc as [->|Lc]; [left|right; auto]. split; [reflexivity|].
    apply mutually_inverse_length in B1. destruct dc; [reflexivity|discriminate].
  - destruct r2i, c2i; auto.
Qed.

(** the constructor accepts exactly the consistent arguments; every refusal is an exception *)
Theorem C01_accepts_iff : forall m id2row id2col row2id col2id ops eshape,
  opt_dict row2id -> opt_dict col2id ->
  (exists s, mk_space m id2row id2col row2id col2id ops eshape = Ok s) <->
  NoDup id2row /\ NoDup id2col /\ length id2row = m_nr m /\ (id2col = [] \/ length id2col = m_nc m) /\
  match row2id with None => True | Some d => mutually_inverse id2row d end /\
  match col2id with None => True | Some d => mutually_inverse id2col d end /\
  match eshape with None => True | Some e => list_prod_nat e = m_nc m end.
Proof.
  intros m r c r2i c2i ops es Hr Hc. split.
  - intros (s & H). destruct (mk_space_ok _ _ _ _ _ _ _ _ Hr Hc H) as (dr&dc&e&->&Ar&Ac&Lr&Lc&He&Hes).
    destruct Ar as (A1&A2&A3), Ac as (B1&B2&B3).
    split; [apply A1|]. split; [apply B1|]. split; [exact Lr|]. split; [exact Lc|].
    split; [destruct r2i; [subst; exact A1|exact I]|]. split; [destruct c2i; [subst; exact B1|exact I]|].
    destruct es; [subst; exact He|exact I].
  - intros (H1&H2&H3&H4&H5&H6&H7). apply mk_space_total; auto.
    + destruct r2i; auto.
    + destruct c2i; auto.
Qed.

Definition m22 : matrix := MD (DM 2 2 [[f1; f0]; [f0; f1]]).
Definition m12 : matrix := MD (DM 1 2 [[f1; f0]]).
Definition m14 : matrix := MD (DM 1 4 [[f1; f0; f0; f1]]).
Lemma m22_wf : mwf m22.
Proof. repeat split; cbn; try lia; repeat constructor. Qed.
Lemma m12_wf : mwf m12.
Proof. repeat split; cbn; try lia; repeat constructor. Qed.
Lemma m14_wf : mwf m14.
Proof. repeat split; cbn; try lia; repeat constructor. Qed.
Definition sp22 : space :=
  SP m22 ["car"; "dog"] ["x"; "y"] [("dog", 1%Z); ("car", (-2)%Z)] [("x", 0%Z); ("y", 1%Z)] [] [2].
(** a permuted dictionary with a negative id is accepted; a duplicated word is refused *)
Example C01_example :
  mk_space m22 ["car"; "dog"] ["x"; "y"] (Some [("dog", 1%Z); ("car", (-2)%Z)]) None [] None = Ok sp22 /\
  mk_space m22 ["car"; "car"] [] None None [] None = Err ValueError /\
  mk_space m22 ["car"; "dog"] [] (Some [("dog", 0%Z); ("car", 1%Z)]) None [] None = Err ValueError.
Proof. repeat split; reflexivity. Qed.

(** ** C02.  True when the row dictionaries supplied by callers contain no negative ids ... *)
Theorem C02_reachable_consistent_partial : forall s,
  reachable nonneg_ids s -> consistent s /\ positional_rows s.
Proof. exact reachable_good. Qed.

(** ... and false in general: the constructor accepts {'a': -1}; after add_rows the id -1 denotes the new row. *)
Definition neg_space : space := SP m12 ["a"] [] [("a", (-1)%Z)] [] [] [2].
Theorem C02_refuted : exists s w k, reachable (fun _ => True) s /\ ~ consistent s /\
  dget (s_row2id s) w = Some k /\ ~ (exists p, denotes (length (s_id2row s)) k p /\ nth_error (s_id2row s) p = Some w).
Proof.
  exists (SP (MD (d_vstack (DM 1 2 [[f1; f0]]) (DM 1 2 [[f1; f0]]))) ["a"; "b"] [] [("a", (-1)%Z); ("b", 1%Z)] [] [] [2]), "a", (-1)%Z.
  assert (Hbad : ~ (exists p, denotes 2 (-1) p /\ nth_error ["a"; "b"] p = Some "a")).
  { intros (p & (Hp & Hd) & He). destruct Hd as [Hd|Hd]; [lia|]. assert (p = 1) by lia. subst. discriminate. }
  split; [|split; [|split; [reflexivity|exact Hbad]]].
  - eapply (R_add _ neg_space m12 ["b"]); [|apply m12_wf|reflexivity].
    eapply (R_new _ m12 ["a"] [] (Some [("a", (-1)%Z)]) None [] None);
      [apply m12_wf|constructor|repeat constructor; intros []|exact I|exact I|reflexivity].
  - intros (_&_&_&(_&_&_&H)&_). apply Hbad. apply (H "a" (-1)%Z). reflexivity.
Qed.

Example C02_example : reachable nonneg_ids (space_to_sparse (space_to_dense (SP m22 ["car"; "dog"] [] [("car", 0%Z); ("dog", 1%Z)] [] [] [2]))).
Proof.
  apply R_sparse, R_dense. eapply (R_new _ m22 ["car"; "dog"] [] None None [] None);
    [apply m22_wf|constructor|exact I|exact I|exact I|reflexivity].
Qed.

(** ** C03 *)
Lemma row_index s w p : consistent s -> nth_error (s_id2row s) p = Some w ->
  exists k, dget (s_row2id s) w = Some k /\ py_index (m_nr (s_mat s)) k = Some p.
Proof.
  intros (Cm&Cr&Cc&(Hn&Hl&Hk&Hd)&_) Hp.
  destruct (dget (s_row2id s) w) as [k|] eqn:Eg.
  - exists k. split; [reflexivity|]. destruct (Hd w k Eg) as (q & Hq & Hw).
    assert (q = p). { rewrite NoDup_nth_error in Hn. apply Hn; [apply Hq|congruence]. } subst q.
    rewrite <- Cr. apply denotes_py_index, Hq.
  - apply dget_None in Eg. exfalso. apply Eg, Hk. eapply nth_error_In; eauto.
Qed.

Theorem C03_get_row : forall s w p, consistent s -> nth_error (s_id2row s) p = Some w ->
  exists v, get_row s w = Ok v /\ mwf v /\ type_of v = type_of (s_mat s) /\ m_nr v = 1 /\ m_nc v = m_nc (s_mat s) /\
            forall j, j < m_nc (s_mat s) -> ment v 0 j = ment (s_mat s) p j.
Proof.
  intros s w p Hc Hp. destruct (row_index s w p Hc Hp) as (k & Hk & Hi).
  pose proof Hc as (Cm&Cr&_). destruct (m_get_row_any (s_mat s) k p Cm Hi) as (v & Hv & Hm).
  exists v. unfold get_row, dlookup. rewrite Hk. cbn [bind]. split; [exact Hv|].
  destruct (is_mat_has _ _ _ Hm) as (Hw & Ht & Hr & Hcc). cbn [d_rows tab d_nr d_nc length] in Hr, Hcc.
  rewrite to_dense_nc in Hcc. split; [exact Hw|]. split; [exact Ht|]. split; [exact Hr|]. split; [exact Hcc|].
  intros j Hj. rewrite (is_mat_ent _ _ _ 0 j Hm) by (cbn [d_rows tab d_nr d_nc length]; rewrite ?to_dense_nc; lia).
  unfold d_rows. rewrite dent_tab by (cbn [length]; rewrite ?to_dense_nc; lia). cbn [nth].
  apply dent_to_dense; [|exact Hj]. eapply py_index_lt; exact Hi.
Qed.

Theorem C03_get_row_missing : forall s w, consistent s ->
  (get_row s w = Err KeyError <-> ~ In w (s_id2row s)) /\
  (~ In w (s_id2row s) \/ exists v, get_row s w = Ok v).
Proof.
  intros s w Hc. destruct (in_dec string_dec w (s_id2row s)) as [Hin|Hni].
  - apply In_nth_error in Hin as Hin'. destruct Hin' as (p & Hp). destruct (C03_get_row s w p Hc Hp) as (v & Hv & _).
    split; [|eauto]. split; [congruence|contradiction].
  - split; [|auto]. split; [auto|]. intros _. destruct Hc as (_&_&_&(_&_&Hk&_)&_).
    unfold get_row, dlookup. destruct (dget (s_row2id s) w) as [k|] eqn:Eg; [|reflexivity].
    exfalso. apply Hni, Hk. apply dmem_In. unfold dmem. rewrite Eg. reflexivity.
Qed.

(** row i of the result is the row of the i-th requested word *)
Theorem C03_get_rows : forall s ws, consistent s -> ws <> [] -> (forall w, In w ws -> In w (s_id2row s)) ->
  exists r, get_rows s ws = Ok r /\ mwf r /\ type_of r = type_of (s_mat s) /\
    m_nr r = length ws /\ m_nc r = m_nc (s_mat s) /\
    forall i w p j, nth_error ws i = Some w -> nth_error (s_id2row s) p = Some w -> j < m_nc (s_mat s) ->
                    ment r i j = ment (s_mat s) p j.
Proof.
  intros s ws Hc Hne Hin. pose proof Hc as (Cm&Cr&_&(Hn&_)&_).
  assert (K : exists ids ks, mapM (dlookup (s_row2id s)) ws = Ok ids /\ py_indices (m_nr (s_mat s)) ids = Ok ks /\
              length ks = length ws /\
              forall i w p, nth_error ws i = Some w -> nth_error (s_id2row s) p = Some w -> nth i ks 0 = p).
  { clear Hne. induction ws as [|w ws IH].
    - exists [], []. repeat split. intros [|i]; discriminate.
    - destruct IH as (ids & ks & H1 & H2 & H3 & H4); [intros; apply Hin; right; assumption|].
      specialize (Hin w (or_introl eq_refl)). apply In_nth_error in Hin. destruct Hin as (p & Hp).
      destruct (row_index s w p Hc Hp) as (k & Hk & Hi).
      exists (k :: ids), (p :: ks). cbn [mapM]. unfold dlookup at 1. rewrite Hk. cbn [bind]. rewrite H1. cbn [bind].
      split; [reflexivity|]. unfold py_indices in *. cbn [mapM]. rewrite Hi. cbn [bind]. rewrite H2. cbn [bind].
      split; [reflexivity|]. split; [cbn; congruence|]. intros [|i] w' p' Hw' Hp'.
      + cbn in Hw'. inversion Hw'; subst. cbn. rewrite NoDup_nth_error in Hn. apply Hn; [|congruence].
        apply nth_error_Some; congruence.
      + cbn in *. eapply H4; eassumption. }
  destruct K as (ids & ks & H1 & H2 & H3 & H4). unfold get_rows. rewrite H1. cbn [bind]. unfold m_get_rows. rewrite H2. cbn [bind].
  assert (Hpos : 0 < length ks) by (rewrite H3; destruct ws; [congruence|cbn; lia]).
  destruct (Nat.eqb_spec (length ks) 0) as [Hz|_]; [lia|]. cbn [negb check bind].
  eexists. split; [reflexivity|].
  pose proof (of_dense_is (type_of (s_mat s)) (d_rows (to_dense (s_mat s)) ks) (wf_d_rows _ _ (to_dense_wf _ Cm) Hpos)) as Hm.
  destruct (is_mat_has _ _ _ Hm) as (Hw & Ht & Hr & Hcc). cbn [d_rows tab d_nr d_nc] in Hr, Hcc.
  rewrite to_dense_nc in Hcc. split; [exact Hw|]. split; [exact Ht|]. split; [congruence|]. split; [exact Hcc|].
  intros i w p j Hw' Hp Hj. assert (Hi : i < length ws) by (apply nth_error_Some; congruence).
  rewrite (is_mat_ent _ _ _ i j Hm) by (cbn [d_rows tab d_nr d_nc]; rewrite ?to_dense_nc; lia).
  unfold d_rows. rewrite dent_tab by (rewrite ?to_dense_nc; lia). rewrite (H4 i w p Hw' Hp).
  apply dent_to_dense; [|exact Hj]. rewrite <- Cr. apply nth_error_Some; congruence.
Qed.

Theorem C03_get_rows_missing : forall s ws w, consistent s -> In w ws -> ~ In w (s_id2row s) ->
  get_rows s ws = Err KeyError.
Proof.
  intros s ws w Hc Hin Hni. unfold get_rows.
  destruct (mapM (dlookup (s_row2id s)) ws) as [ids|e] eqn:Em.
  - destruct (mapM_ok_In _ _ _ Em w Hin) as (k & _ & Hk). unfold dlookup in Hk.
    destruct (dget (s_row2id s) w) as [k'|] eqn:Eg; [|discriminate].
    exfalso. apply Hni. destruct Hc as (_&_&_&(_&_&Hk'&_)&_). apply Hk'. apply dmem_In. unfold dmem. rewrite Eg. reflexivity.
  - cbn [bind]. apply mapM_err in Em. destruct Em as (x & _ & Hx). unfold dlookup in Hx.
    destruct (dget _ _); [discriminate|]. inversion Hx; reflexivity.
Qed.

(** an empty selection is refused, whatever the space *)
Theorem C03_get_rows_empty : forall s, get_rows s [] = Err ValueError.
Proof. intros s. unfold get_rows. cbn [mapM bind]. unfold m_get_rows. destruct (s_mat s); reflexivity. Qed.

Lemma sp22_consistent : consistent sp22.
Proof.
  eapply (mk_space_consistent m22 ["car"; "dog"] ["x"; "y"] (Some [("dog", 1%Z); ("car", (-2)%Z)]) None [] None);
    [apply m22_wf|constructor| |exact I|reflexivity].
  repeat constructor; cbn; intuition discriminate.
Qed.
Example C03_example : consistent sp22 /\ get_row sp22 "car" = Ok (MD (DM 1 2 [[f1; f0]])) /\
  get_rows sp22 ["dog"; "car"; "dog"] = Ok (MD (DM 3 2 [[f0; f1]; [f1; f0]; [f0; f1]])) /\
  get_row sp22 "cow" = Err KeyError.
Proof. split; [apply sp22_consistent|]. repeat split; reflexivity. Qed.

(** ** C04: for spaces whose row ids are list positions (every space of [reachable nonneg_ids]) *)
Theorem C04_vstack : forall s1 s2, consistent s1 -> positional_rows s1 -> consistent s2 ->
  ((exists s, space_vstack s1 s2 = Ok s) <->
   m_nc (s_mat s1) = m_nc (s_mat s2) /\ s_id2col s1 = s_id2col s2 /\
   (forall w, In w (s_id2row s1) -> ~ In w (s_id2row s2))) /\
  (forall e, space_vstack s1 s2 = Err e -> e = ValueError).
Proof.
  intros s1 s2 C1 P1 C2. pose proof C1 as (Cm&Cr&Cc&Ci&Cd&Cj&Ce&Cp&Co). pose proof C2 as (Cm2&Cr2&Cc2&Ci2&Cd2&_).
  assert (Htot : m_nc (s_mat s1) = m_nc (s_mat s2) -> s_id2col s1 = s_id2col s2 ->
    (forall w, In w (s_id2row s1) -> ~ In w (s_id2row s2)) -> exists s, space_vstack s1 s2 = Ok s).
  { intros H1 H2 H3. unfold space_vstack. rewrite H1, Nat.eqb_refl. cbn [check bind].
    rewrite (proj2 (strings_eqb_eq _ _) H2). cbn [check bind].
    destruct (add_items_aux_total (s_id2row s2) (Z.of_nat (length (s_row2id s1))) 0%Z (s_row2id s1)) as (d & Hd).
    { apply Ci2. } { intros w Hw Hk. apply (H3 w); [|assumption]. apply Ci, Hk. }
    change (add_items_to_dict (s_row2id s1) (s_id2row s2) = (d, Ok tt)) in Hd. rewrite Hd. cbn [bind].
    destruct (get_type_of_largest_some (s_mat s1) (s_mat s2) Cm) as (t & ->).
    destruct (resolve2_total (s_mat s1) (s_mat s2) t) as (a & b & Hab). rewrite Hab. cbn [bind].
    destruct (resolve2_ok _ _ _ _ _ Cm Cm2 Hab) as (W1&W2&Tt&E1&E2).
    assert (N1 : m_nc a = m_nc (s_mat s1)) by (rewrite <- to_dense_nc, E1; apply to_dense_nc).
    assert (N2 : m_nc b = m_nc (s_mat s2)) by (rewrite <- to_dense_nc, E2; apply to_dense_nc).
    destruct (m_vstack_same a b W1 W2 Tt) as (m & -> & Hm); [congruence|]. cbn [bind].
    destruct (is_mat_has _ _ _ Hm) as (Wm&_&Hr&Hc). cbn [d_vstack tab d_nr d_nc] in Hr, Hc.
    rewrite E1, E2, !to_dense_nr in Hr. rewrite E1, to_dense_nc in Hc.
    destruct (add_items_positional _ _ _ _ _ Cd P1 (mutually_inverse_length _ _ Ci) Hd) as (Q1&Q2&Q3&Q4&Q5).
    assert (Hnd : NoDup (s_id2row s1 ++ s_id2row s2)) by (eapply positional_NoDup; exact Q1).
    apply mk_space_total; try exact I.
    - exact Hnd.
    - apply Cj.
    - rewrite app_length. congruence.
    - rewrite Hc. exact Cc.
    - split; [exact Q2|]. apply positional_inverse; auto.
    - split; assumption. }
  split; [split|].
  - intros (s & H). destruct (space_vstack_ok _ _ _ C1 C2 H) as (m&d&_&Ha&H1&H2&_). split; [exact H2|]. split; [exact H1|].
    intros w Hw1 Hw2. destruct (add_items_positional _ _ _ _ _ Cd P1 (mutually_inverse_length _ _ Ci) Ha) as (_&_&_&_&Q).
    exact (Q w Hw2 Hw1).
  - intros (H1&H2&H3). apply Htot; assumption.
  - intros e H. unfold space_vstack in H.
    destruct (Nat.eqb_spec (m_nc (s_mat s1)) (m_nc (s_mat s2))) as [H1|]; cbn [check bind] in H; [|congruence].
    destruct (strings_eqb (s_id2col s1) (s_id2col s2)) eqn:Es; cbn [check bind] in H; [|congruence].
    apply strings_eqb_eq in Es.
    destruct (add_items_to_dict (s_row2id s1) (s_id2row s2)) as [d [[]|e']] eqn:Ea; cbn [bind] in H.
    + exfalso. destruct (add_items_positional _ _ _ _ _ Cd P1 (mutually_inverse_length _ _ Ci) Ea) as (_&_&_&_&Q).
      destruct Htot as (s & Hs); [assumption|assumption|intros w Hw1 Hw2; exact (Q w Hw2 Hw1)|].
      unfold space_vstack in Hs. rewrite H1, Nat.eqb_refl in Hs. cbn [check bind] in Hs.
      rewrite (proj2 (strings_eqb_eq _ _) Es) in Hs. cbn [check bind] in Hs. rewrite Ea in Hs. cbn [bind] in Hs. congruence.
    + apply add_items_aux_err in Ea. congruence.
Qed.

Theorem C04_vstack_vectors : forall s1 s2 s, consistent s1 -> consistent s2 -> space_vstack s1 s2 = Ok s ->
  s_id2row s = (s_id2row s1 ++ s_id2row s2)%list /\ s_id2col s = s_id2col s1 /\ s_col2id s = s_col2id s1 /\
  s_ops s = [] /\ consistent s /\ m_nc (s_mat s) = m_nc (s_mat s1) /\
  (forall w v, get_row s1 w = Ok v ->
     exists v', get_row s w = Ok v' /\ m_nc v' = m_nc v /\ forall j, j < m_nc v -> ment v' 0 j = ment v 0 j) /\
  (forall w v, get_row s2 w = Ok v ->
     exists v', get_row s w = Ok v' /\ m_nc v' = m_nc v /\ forall j, j < m_nc v -> ment v' 0 j = ment v 0 j).
Proof.
  intros s1 s2 s C1 C2 H. pose proof C1 as (Cm&Cr&_). pose proof C2 as (Cm2&Cr2&_).
  destruct (space_vstack_ok _ _ _ C1 C2 H) as (m&d&Es&Ha&H1&H2&Wm&Dm&Hc).
  assert (Hnr : m_nr m = m_nr (s_mat s1) + m_nr (s_mat s2)) by (rewrite <- to_dense_nr, Dm; cbn; rewrite !to_dense_nr; reflexivity).
  assert (Hnc : m_nc m = m_nc (s_mat s1)) by (rewrite <- to_dense_nc, Dm; cbn; apply to_dense_nc).
  assert (Hent : forall i j, i < m_nr m -> j < m_nc m -> ment m i j =
     if i <? m_nr (s_mat s1) then ment (s_mat s1) i j else ment (s_mat s2) (i - m_nr (s_mat s1)) j).
  { intros i j Hi Hj. rewrite <- dent_to_dense by assumption. rewrite Dm. unfold d_vstack.
    rewrite dent_tab by (rewrite ?to_dense_nr, ?to_dense_nc; lia). rewrite !to_dense_nr.
    destruct (Nat.ltb_spec i (m_nr (s_mat s1))); apply dent_to_dense; lia. }
  assert (Rid : s_id2row s = (s_id2row s1 ++ s_id2row s2)%list) by (rewrite Es; reflexivity).
  assert (Rm : s_mat s = m) by (rewrite Es; reflexivity).
  split; [exact Rid|]. rewrite Es at 1 2 3. cbn [s_id2col s_col2id s_ops]. rewrite Rm.
  split; [reflexivity|]. split; [reflexivity|]. split; [reflexivity|]. split; [exact Hc|]. split; [exact Hnc|].
  split; intros w v Hv.
  - destruct (C03_get_row_missing s1 w C1) as (Hk & _).
    assert (Hin : In w (s_id2row s1)).
    { destruct (in_dec string_dec w (s_id2row s1)) as [?|Hn]; [assumption|]. apply Hk in Hn. congruence. }
    apply In_nth_error in Hin. destruct Hin as (p & Hp).
    assert (Hlt : p < length (s_id2row s1)) by (apply nth_error_Some; congruence).
    destruct (C03_get_row s1 w p C1 Hp) as (v1 & Hv1 & _ & _ & _ & N1 & E1).
    assert (v1 = v) by congruence. subst v1.
    destruct (C03_get_row s w p Hc) as (v' & Hv' & _ & _ & _ & N' & E'); [rewrite Rid; rewrite nth_error_app1; assumption|].
    exists v'. split; [exact Hv'|]. rewrite Rm in N', E'. split; [congruence|]. intros j Hj. rewrite N1 in Hj.
    rewrite E', E1 by lia. rewrite Hent by lia. destruct (Nat.ltb_spec p (m_nr (s_mat s1))); [reflexivity|lia].
  - destruct (C03_get_row_missing s2 w C2) as (Hk & _).
    assert (Hin : In w (s_id2row s2)).
    { destruct (in_dec string_dec w (s_id2row s2)) as [?|Hn]; [assumption|]. apply Hk in Hn. congruence. }
    apply In_nth_error in Hin. destruct Hin as (p & Hp).
    assert (Hlt : p < length (s_id2row s2)) by (apply nth_error_Some; congruence).
    destruct (C03_get_row s2 w p C2 Hp) as (v1 & Hv1 & _ & _ & _ & N1 & E1).
    assert (v1 = v) by congruence. subst v1.
    destruct (C03_get_row s w (length (s_id2row s1) + p) Hc) as (v' & Hv' & _ & _ & _ & N' & E').
    { rewrite Rid. rewrite nth_error_app2 by lia. replace (length (s_id2row s1) + p - length (s_id2row s1)) with p by lia. exact Hp. }
    exists v'. split; [exact Hv'|]. rewrite Rm in N', E'. split; [congruence|]. intros j Hj. rewrite N1 in Hj.
    rewrite E', E1 by lia. rewrite Hent by lia.
    destruct (Nat.ltb_spec (length (s_id2row s1) + p) (m_nr (s_mat s1))); [lia|].
    replace (length (s_id2row s1) + p - m_nr (s_mat s1)) with p by lia. reflexivity.
Qed.

(** with a negative id the success condition of C04 is not sufficient *)
Theorem C04_negative_id_refuted : exists s1 s2, consistent s1 /\ consistent s2 /\
  m_nc (s_mat s1) = m_nc (s_mat s2) /\ s_id2col s1 = s_id2col s2 /\
  (forall w, In w (s_id2row s1) -> ~ In w (s_id2row s2)) /\ space_vstack s1 s2 = Err ValueError.
Proof.
  exists neg_space, (SP m12 ["b"] [] [("b", 0%Z)] [] [] [2]).
  split; [|split; [|split; [reflexivity|split; [reflexivity|split; [|reflexivity]]]]].
  - eapply (mk_space_consistent m12 ["a"] [] (Some [("a", (-1)%Z)]) None [] None);
      [apply m12_wf|constructor| |exact I|reflexivity]. repeat constructor; intros [].
  - eapply (mk_space_consistent m12 ["b"] [] None None [] None); [apply m12_wf|constructor|exact I|exact I|reflexivity].
  - intros w [<-|[]] [K|[]]. discriminate.
Qed.

Definition sp_dog : space := SP m22 ["car"; "dog"] ["x"; "y"] [("car", 0%Z); ("dog", 1%Z)] [("x", 0%Z); ("y", 1%Z)] [] [2].
Definition sp_cow : space := SP m12 ["cow"] ["x"; "y"] [("cow", 0%Z)] [("x", 0%Z); ("y", 1%Z)] [] [2].
Example C04_example : exists s, consistent sp_dog /\ positional_rows sp_dog /\ consistent sp_cow /\ space_vstack sp_dog sp_cow = Ok s /\
  get_row s "cow" = Ok (MD (DM 1 2 [[f1; f0]])) /\ space_vstack sp_dog sp_dog = Err ValueError.
Proof.
  eexists.
  assert (G : good sp_dog).
  { apply reachable_good. eapply (R_new _ m22 ["car"; "dog"] ["x"; "y"] None None [] None);
      [apply m22_wf|constructor|exact I|exact I|exact I|reflexivity]. }
  split; [apply G|]. split; [apply G|]. split.
  - eapply (mk_space_consistent m12 ["cow"] ["x"; "y"] None None [] None); [apply m12_wf|constructor|exact I|exact I|reflexivity].
  - split; [reflexivity|]. split; reflexivity.
Qed.

(** ** C05.  False: apply and vstack always reset element_shape to (n_columns,) *)
Theorem C05_refuted : exists s s', consistent s /\ space_apply s (TScale Plog) = Ok s' /\ s_eshape s' <> s_eshape s.
Proof.
  exists (SP m14 ["a"] [] [("a", 0%Z)] [] [] [2; 2]). eexists. split; [|split; [reflexivity|cbn; discriminate]].
  eapply (mk_space_consistent m14 ["a"] [] None None [] (Some [2; 2])); [apply m14_wf|constructor|exact I|exact I|reflexivity].
Qed.
Theorem C05_vstack_refuted : exists s1 s2 s', consistent s1 /\ consistent s2 /\ s_eshape s1 = s_eshape s2 /\
  space_vstack s1 s2 = Ok s' /\ s_eshape s' <> s_eshape s1.
Proof.
  exists (SP m14 ["a"] [] [("a", 0%Z)] [] [] [2; 2]), (SP m14 ["b"] [] [("b", 0%Z)] [] [] [2; 2]). eexists.
  split; [|split; [|split; [reflexivity|split; [reflexivity|cbn; discriminate]]]].
  - eapply (mk_space_consistent m14 ["a"] [] None None [] (Some [2; 2])); [apply m14_wf|constructor|exact I|exact I|reflexivity].
  - eapply (mk_space_consistent m14 ["b"] [] None None [] (Some [2; 2])); [apply m14_wf|constructor|exact I|exact I|reflexivity].
Qed.
(** what does hold: it is kept for ordinary spaces, whose elements are vectors *)
Theorem C05_vector_spaces_partial : forall s n, consistent s -> s_eshape s = [n] ->
  (forall sc s', space_apply s (TScale sc) = Ok s' -> s_eshape s' = s_eshape s) /\
  (forall s2 s', consistent s2 -> space_vstack s s2 = Ok s' -> s_eshape s' = s_eshape s).
Proof.
  intros s n Hc He. pose proof Hc as (Cm&_&_&_&_&_&_&Cp&_). rewrite He in Cp. cbn in Cp. rewrite Nat.add_0_r in Cp.
  split.
  - intros sc s' H. assert (Ht : tr_ok (TScale sc)) by exact I.
    destruct (space_apply_ok _ _ _ Hc Ht H) as (m&o&o0&ic&ci&Ho&->&_). cbn [s_eshape]. rewrite He.
    destruct (op_apply_create _ _ _ _ Cm Ht Ho) as (_&_&Hcase). destruct o0; try contradiction.
    destruct Hcase as (_&_&_&Hn&_). congruence.
  - intros s2 s' C2 H. destruct (space_vstack_ok _ _ _ Hc C2 H) as (m&d&->&_&_&_&_&Dm&_). cbn [s_eshape]. rewrite He.
    rewrite <- (to_dense_nc m), Dm. cbn. rewrite to_dense_nc. congruence.
Qed.

(** ** C06.  False: a matrix of the very same shape is refused unless the space is square with labelled columns *)
Theorem C06_refuted : exists s e, consistent s /\ set_cooccurrence_matrix s (s_mat s) = Err e.
Proof.
  exists (SP m12 ["a"] ["x"; "y"] [("a", 0%Z)] [("x", 0%Z); ("y", 1%Z)] [] [2]), ValueError. split; [|reflexivity].
  eapply (mk_space_consistent m12 ["a"] ["x"; "y"] None None [] None); [apply m12_wf|constructor|exact I|exact I|reflexivity].
Qed.
(** exact acceptance condition, and consistency is never lost *)
Theorem C06_set_matrix_partial : forall s m, consistent s -> mwf m ->
  ((exists s', set_cooccurrence_matrix s m = Ok s') <->
   m_nr m = m_nr (s_mat s) /\ m_nc m = m_nc (s_mat s) /\ m_nr m = m_nc m /\ s_id2col s <> []) /\
  (forall s', set_cooccurrence_matrix s m = Ok s' -> consistent s' /\ s_mat s' = m).
Proof.
  intros s m Hc Hm. pose proof Hc as (Cm&Cr&Cc&Ci&Cd&Cj&Ce&Cp&Co). split.
  - split.
    + intros (s' & H). destruct (set_cooccurrence_ok _ _ _ Hc Hm H) as (_ & H1 & H2 & H3). repeat split; auto.
      intros K. unfold set_cooccurrence_matrix in H. inv_ok. apply shape_consistent_ok in Hm0.
      apply mutually_inverse_length in Cj. rewrite K in *. pose proof (mwf_pos _ Hm). cbn in *. lia.
    + intros (H1&H2&H3&H4). unfold set_cooccurrence_matrix.
      apply mutually_inverse_length in Cj, Ci. destruct Cc as [Cc|Cc]; [contradiction|].
      rewrite shape_consistent_total; [cbn; eauto|lia|lia|right; lia].
  - intros s' H. split; [exact (proj1 (set_cooccurrence_ok _ _ _ Hc Hm H))|]. unfold set_cooccurrence_matrix in H. inv_ok. reflexivity.
Qed.
Example C06_example : exists s', consistent sp22 /\ set_cooccurrence_matrix sp22 m22 = Ok s'.
Proof. eexists. split; [apply sp22_consistent|reflexivity]. Qed.

(** ** C07 *)
Theorem C07_conversion : forall s, consistent s ->
  let d := space_to_dense s in let p := space_to_sparse s in
  consistent d /\ consistent p /\
  (s_id2row d, s_id2col d, s_row2id d, s_col2id d, s_ops d, s_eshape d) =
    (s_id2row s, s_id2col s, s_row2id s, s_col2id s, s_ops s, s_eshape s) /\
  (s_id2row p, s_id2col p, s_row2id p, s_col2id p, s_ops p, s_eshape p) =
    (s_id2row s, s_id2col s, s_row2id s, s_col2id s, s_ops s, s_eshape s) /\
  type_of (s_mat d) = TDense /\ type_of (s_mat p) = TSparse /\
  m_nr (s_mat d) = m_nr (s_mat s) /\ m_nc (s_mat d) = m_nc (s_mat s) /\
  m_nr (s_mat p) = m_nr (s_mat s) /\ m_nc (s_mat p) = m_nc (s_mat s) /\
  (forall i j, i < m_nr (s_mat s) -> j < m_nc (s_mat s) ->
     ment (s_mat d) i j = ment (s_mat s) i j /\ ment (s_mat p) i j = ment (s_mat s) i j) /\
  s_mat (space_to_dense p) = s_mat d.
Proof.
  intros s Hc. pose proof Hc as (Cm&_). cbn zeta.
  split; [apply (to_type_consistent TDense), Hc|]. split; [apply (to_type_consistent TSparse), Hc|].
  split; [reflexivity|]. split; [reflexivity|]. unfold space_to_dense, space_to_sparse. cbn [s_mat].
  rewrite !conv_type, !conv_nr, !conv_nc. repeat (split; [reflexivity|]).
  split; [intros i j Hi Hj; rewrite !ment_conv by assumption; auto|].
  unfold conv. f_equal. change (MS (to_sparse (s_mat s))) with (conv TSparse (s_mat s)). apply to_dense_conv, Cm.
Qed.
Example C07_example : consistent sp22 /\ type_of (s_mat (space_to_sparse sp22)) = TSparse /\
  s_mat (space_to_dense (space_to_sparse sp22)) = m22.
Proof.
  split; [apply sp22_consistent|]. split; [reflexivity|].
  apply (C07_conversion sp22 sp22_consistent).
Qed.

(** ** C08 *)
(** an operation object on which apply has been called *)
Definition applied (o : operation) : Prop :=
  match o with
  | OpScale s st => uses_column_stats s = true -> st <> None
  | OpDim _ _ tm => tm <> None
  | OpFS _ _ sel orig => sel <> None /\ orig <> None
  end.
Definition op_for (t : transformation) (o : operation) : Prop :=
  match t, o with
  | TScale s, OpScale s' _ => s' = s
  | TDim d k, OpDim d' k' _ => d' = d /\ k' = k
  | TFS c k, OpFS c' k' _ _ => c' = c /\ k' = k
  | _, _ => False
  end.
Lemma select_labels_ok cols sel l : select_labels cols sel = Ok l ->
  length l = length sel /\ forall i, i < length sel -> nth_error l i = nth_error cols (nth i sel 0).
Proof.
  unfold select_labels. intros H. split; [eapply mapM_ok_length; eauto|]. intros i Hi.
  assert (Hl : i < length l) by (erewrite mapM_ok_length; eauto).
  pose proof (mapM_ok_nth _ _ _ 0 ""%string H i Hi) as Hn. cbn in Hn.
  destruct (nth_error cols (nth i sel 0)) as [c|] eqn:Ec; [|discriminate]. inversion Hn as [Hc].
  rewrite (nth_error_nth' l ""%string Hl). congruence.
Qed.

Theorem C08_apply_history : forall s t s', consistent s -> tr_ok t -> space_apply s t = Ok s' ->
  s_id2row s' = s_id2row s /\ s_row2id s' = s_row2id s /\
  (exists o, s_ops s' = (s_ops s ++ [o])%list /\ applied o /\ op_for t o /\
     match t with
     | TScale _ => s_id2col s' = s_id2col s /\ s_col2id s' = s_col2id s /\ m_nc (s_mat s') = m_nc (s_mat s)
     | TDim _ _ => s_id2col s' = [] /\ s_col2id s' = []
     | TFS _ _ => exists c k sel orig, o = OpFS c k (Some sel) orig /\ m_nc (s_mat s') = length sel /\
         ((s_id2col s = [] /\ s_id2col s' = [] /\ s_col2id s' = []) \/
          (length (s_id2col s') = length sel /\ positional (s_id2col s') (s_col2id s') /\
           forall i, i < length sel -> nth_error (s_id2col s') i = nth_error (s_id2col s) (nth i sel 0)))
     end) /\ consistent s'.
Proof.
  intros s t s' Hc Ht H. pose proof Hc as (Cm&_).
  destruct (space_apply_ok _ _ _ Hc Ht H) as (m&o&o0&ic&ci&Ho&Es&Eo&Hcols&Hw&How&Hcons).
  destruct (op_apply_create _ _ _ _ Cm Ht Ho) as (_&Hnr&Hcase).
  rewrite Es. cbn [s_id2row s_row2id s_ops s_id2col s_col2id s_mat].
  split; [reflexivity|]. split; [reflexivity|]. split; [|rewrite <- Es; exact Hcons].
  exists o. split; [reflexivity|].
  destruct t as [sc|d k|c k], o0 as [sc' st|d' k' [tm|]|c' k' [sel|] [orig|]]; try contradiction; cbn [op_set_original] in Eo; subst o.
  - destruct Hcase as (E1&E2&E3&E4&E5). destruct Hcols as (H1&H2). subst. cbn. split; [|auto].
    intros ->. discriminate.
  - destruct Hcase as (E1&E2&_). destruct Hcols as (H1&H2&_). subst. cbn. split; [discriminate|auto].
  - destruct Hcase as (E1&E2&E3&E4). destruct Hcols as (_&Hcols). subst. cbn. split; [split; discriminate|].
    split; [auto|]. exists c, k, sel, (Some (s_id2col s)). split; [reflexivity|]. split; [exact E4|].
    destruct Hcols as [(H1&H2&H3)|(H1&sel'&(c'&k'&H2)&H3&H4)]; [left; auto|right].
    inversion H2; subst. apply select_labels_ok in H3. destruct H3 as (L & Hn). split; [exact L|].
    split; [|exact Hn]. apply list2dict_inverse in H4. tauto.
Qed.
Example C08_example : exists s', consistent sp22 /\ space_apply sp22 (TScale (RowNorm CSum)) = Ok s' /\ tr_ok (TScale (RowNorm CSum)) /\
  s_ops s' = [OpScale (RowNorm CSum) None].
Proof. eexists. split; [apply sp22_consistent|]. split; [reflexivity|]. split; [exact I|reflexivity]. Qed.
End PropSpace.
