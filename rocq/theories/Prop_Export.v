(** Prop_Export.v -- C47, C48, C49: Space.export, and building a space from exported files. *)
From Coq Require Import Ascii.
From Verif Require Import Base PyList Dict Num Dense Sparse PSparse Matrix PMatrix PMatOps PShape PVals Scaling Linalg Operation Similarity Space Peripheral SpecSpace PSpace Prop_Periph Learner Composition Utils LexFun Str PStr IO SpecIO PIO Qio Prop_IO PExport.
Local Open Scope string_scope.
Local Open Scope list_scope.
Local Open Scope nat_scope.

Section Export.
Context {N : Num} {E : Ext} {FI : FloatIO}.
(** the bytes of the three files *)
Definition dm_bytes (s : space) : string := write_lines (map (join tabs) (map (dm_record s) (seq 0 (length (s_id2row s))))).
Definition sm_bytes (s : space) : string := entries_text (s_id2row s) (s_id2col s) (coo_of_csr (as_csr (s_mat s))).

Lemma suffix_neq (p a b : string) : a <> b -> (p ++ a)%string <> (p ++ b)%string.
Proof. intros H K. apply H, (sapp_inj p), K. Qed.
Lemma export_files fs s prefix f t fs1 fs' :
  create_parent_directories fs prefix = Ok fs1 ->
  (f = "dm" /\ dense_text (s_mat s) (s_id2row s) = Ok t) \/ (f = "sm" /\ sparse_text (s_mat s) (s_id2row s) (s_id2col s) = Ok t) ->
  export fs s prefix (Some f) = Ok fs' ->
  text_at fs' (prefix ++ "." ++ f) t /\ text_at fs' (prefix ++ ".rows") (list_text (s_id2row s)) /\
  (s_col2id s <> [] -> text_at fs' (prefix ++ ".cols") (list_text (s_id2col s))) /\
  (forall q, q <> (prefix ++ "." ++ f)%string -> q <> (prefix ++ ".rows")%string -> q <> (prefix ++ ".cols")%string -> fs_file fs' q = fs_file fs1 q).
Proof.
  intros Hd Hf. unfold export. rewrite Hd. cbn [bind]. intros H. apply bind_ok in H. destruct H as (fs2 & H2 & H).
  assert (K : write_file fs1 (prefix ++ "." ++ f) (Text t) = Ok fs2).
  { destruct Hf as [(-> & Ht)|(-> & Ht)]; cbn -[dense_text sparse_text write_file append] in H2; rewrite Ht in H2; exact H2. }
  clear H2. destruct (write_file_ok _ _ _ _ K) as (K1 & K2 & K3). unfold export_row_column in H. apply bind_ok in H. destruct H as (fs3 & H3 & H).
  destruct (write_file_ok _ _ _ _ H) as (L1 & L2 & L3).
  assert (Nf : f <> "rows" /\ f <> "cols") by (destruct Hf as [(-> & _)|(-> & _)]; split; discriminate).
  assert (N1 : (prefix ++ "." ++ f)%string <> (prefix ++ ".rows")%string) by (apply suffix_neq; cbn; intros Q; injection Q; tauto).
  assert (N2 : (prefix ++ "." ++ f)%string <> (prefix ++ ".cols")%string) by (apply suffix_neq; cbn; intros Q; injection Q; tauto).
  assert (N3 : (prefix ++ ".cols")%string <> (prefix ++ ".rows")%string) by (apply suffix_neq; discriminate).
  unfold text_at. destruct (s_col2id s) as [|c cs] eqn:Ec.
  - injection H3 as <-. split; [rewrite L2 by assumption; exact K1|]. split; [exact L1|]. split; [congruence|]. intros q Q1 Q2 Q3. rewrite L2, K2 by assumption. reflexivity.
  - destruct (write_file_ok _ _ _ _ H3) as (M1 & M2 & M3). split; [rewrite L2, M2 by assumption; exact K1|]. split; [exact L1|]. split; [intros _; rewrite L2 by assumption; exact M1|].
    intros q Q1 Q2 Q3. rewrite L2, M2, K2 by assumption. reflexivity.
Qed.
Lemma export_parent fs s prefix f fs' : export fs s prefix f = Ok fs' -> exists fs1, create_parent_directories fs prefix = Ok fs1.
Proof. unfold export. intros H. apply bind_ok in H. destruct H as (fs1 & H & _). eauto. Qed.
Lemma consistent_cols s : consistent s -> (s_col2id s = [] <-> s_id2col s = []).
Proof. intros (_&_&_&_&_&(_&L&_)&_). split; intros K; rewrite K in L; [destruct (s_id2col s)|destruct (s_col2id s)]; try reflexivity; discriminate. Qed.

(** *** C47 *)
Section RT.
Variables (s : space) (Hs : consistent s) (Hw : Forall word (s_id2row s)).
Let n := m_nc (s_mat s).
Variable (Hx : forall i j, i < m_nr (s_mat s) -> j < n -> word (frepr (ment (s_mat s) i j)) /\ fparse (frepr (ment (s_mat s) i j)) = Some (ment (s_mat s) i j)).
Lemma dm_records : records (dm_bytes s) = map (dm_record s) (seq 0 (length (s_id2row s))).
Proof.
  unfold dm_bytes. apply records_lines; rewrite Forall_map, Forall_forall; intros i Hi; apply in_seq in Hi; [|discriminate].
  pose proof Hs as (_ & Hl & _). unfold dm_record. constructor.
  - rewrite Forall_forall in Hw. apply Hw, nth_In. lia.
  - rewrite Forall_map, Forall_forall. intros j Hj. apply in_seq in Hj. apply Hx; unfold n; lia.
Qed.
Lemma dm_heads : map (field 0) (map (dm_record s) (seq 0 (length (s_id2row s)))) = s_id2row s.
Proof.
  rewrite map_map. change (fun x => field 0 (dm_record s x)) with (fun i => nth i (s_id2row s) ""). clear. induction (s_id2row s) as [|w l IH]; [reflexivity|]. cbn [length seq map nth].
  rewrite <- seq_shift, map_map. cbn [nth]. f_equal. exact IH.
Qed.
Lemma dm_vocabulary : vocabulary (dm_bytes s) = s_id2row s.
Proof. unfold vocabulary. rewrite dm_records, dm_heads. apply distinct_id. apply Hs. Qed.
Lemma find_heads (rs : list (list string)) i r : NoDup (map (field 0) rs) -> nth_error rs i = Some r -> first_record rs (field 0 r) = Some r.
Proof.
  revert i. induction rs as [|x rs IH]; intros [|i] Hn Hi; try discriminate; unfold first_record; cbn [find] in *.
  - injection Hi as <-. rewrite String.eqb_refl. reflexivity.
  - cbn in Hn. inversion Hn as [|? ? Hx' Hn']; subst. cbn in Hi. destruct (String.eqb_spec (field 0 x) (field 0 r)) as [K|]; [|exact (IH i Hn' Hi)].
    exfalso. apply Hx'. rewrite K. apply in_map. eapply nth_error_In; eassumption.
Qed.
Lemma dm_first i w : nth_error (s_id2row s) i = Some w -> first_record (records (dm_bytes s)) w = Some (dm_record s i).
Proof.
  intros Hi. rewrite dm_records. pose proof (proj1 (nth_error_Some (s_id2row s) i) ltac:(congruence)) as Hlt.
  assert (Ew : w = field 0 (dm_record s i)) by (unfold dm_record, field; cbn [nth]; symmetry; apply nth_error_nth; exact Hi). rewrite Ew.
  apply (find_heads _ i); [rewrite dm_heads; apply Hs|]. rewrite nth_error_map. rewrite (nth_error_nth' (seq 0 (length (s_id2row s))) 0) by (rewrite seq_length; lia). rewrite seq_nth by lia. reflexivity.
Qed.
Lemma dm_record_length i : length (dm_record s i) = n + 1.
Proof. unfold dm_record. cbn [length]. rewrite map_length, seq_length. unfold n. lia. Qed.
Lemma dm_field i j : j < n -> field (S j) (dm_record s i) = frepr (ment (s_mat s) i j).
Proof.
  intros Hj. unfold field, dm_record. cbn [nth]. rewrite (nth_map_seq (fun j => frepr (ment (s_mat s) i j))) by exact Hj. reflexivity.
Qed.
Lemma dm_bytes_ok : dm_ok (s_id2row s) n (records (dm_bytes s)).
Proof.
  split.
  - rewrite dm_records, Forall_map. apply Forall_forall. intros; apply dm_record_length.
  - intros w r Hin Hr. apply In_nth_error in Hin. destruct Hin as (i & Hi). rewrite (dm_first i w Hi) in Hr. injection Hr as <-. unfold dm_record. cbn [tl].
    pose proof (proj1 (nth_error_Some (s_id2row s) i) ltac:(congruence)) as Hlt. pose proof Hs as (_ & Hl & _).
    rewrite Forall_map, Forall_forall. intros j Hj. apply in_seq in Hj. eexists. apply Hx; unfold n; lia.
Qed.
Lemma dm_first_line : first_line_fields (dm_bytes s) = Some (S n).
Proof.
  unfold first_line_fields, dm_bytes. pose proof Hs as (Hm & Hl & _).
  assert (0 < length (s_id2row s)) by (rewrite Hl; destruct (s_mat s); cbn in *; apply Hm).
  destruct (length (s_id2row s)) as [|k] eqn:Ek; [lia|]. cbn [seq map write_lines].
  assert (W : Forall word (dm_record s 0)).
  { constructor; [rewrite Forall_forall in Hw; apply Hw, nth_In; lia|]. rewrite Forall_map, Forall_forall. intros j Hj. apply in_seq in Hj. apply Hx; unfold n; lia. }
  unfold nl at 1, str1. cbn [append]. rewrite flines_line by (apply join_no_newline, W). rewrite split_line by exact W. rewrite dm_record_length. f_equal. lia.
Qed.
End RT.
Theorem C47_roundtrip fs s prefix fs' (use_rows use_cols : bool) : consistent s ->
  Forall word (s_id2row s) -> Forall word (s_id2col s) ->
  (forall i j, i < m_nr (s_mat s) -> j < m_nc (s_mat s) ->
     word (frepr (ment (s_mat s) i j)) /\ fparse (frepr (ment (s_mat s) i j)) = Some (ment (s_mat s) i j)) ->
  (use_cols = true -> s_id2col s <> []) ->
  export fs s prefix (Some "dm") = Ok fs' ->
  exists s', build fs' (Some (prefix ++ ".dm")%string) (Some "dm") (if use_rows then Some (prefix ++ ".rows")%string else None)
                   (if use_cols then Some (prefix ++ ".cols")%string else None) = Ok s' /\
    consistent s' /\ type_of (s_mat s') = TDense /\
    s_id2row s' = s_id2row s /\ s_id2col s' = (if use_cols then s_id2col s else []) /\
    positional (s_id2row s') (s_row2id s') /\ positional (s_id2col s') (s_col2id s') /\
    m_nr (s_mat s') = m_nr (s_mat s) /\ m_nc (s_mat s') = m_nc (s_mat s) /\
    forall i j, i < m_nr (s_mat s) -> j < m_nc (s_mat s) -> ment (s_mat s') i j = ment (s_mat s) i j.
Proof.
  intros Hs Hw Hc Hx Huse He. pose proof Hs as (Hm & Hl & Hlc & Hr2 & _ & Hc2 & _).
  destruct (export_parent _ _ _ _ _ He) as (fs1 & Hp). pose proof (dense_text_eq s Hs) as Ht. fold (dm_bytes s) in Ht.
  destruct (export_files fs s prefix "dm" (dm_bytes s) fs1 fs' Hp (or_introl (conj eq_refl Ht)) He) as (F1 & F2 & F3 & _). change ("." ++ "dm")%string with ".dm" in F1.
  assert (V1 : vocabulary (dm_bytes s) = s_id2row s) by (apply dm_vocabulary; assumption).
  assert (V2 : vocabulary (list_text (s_id2row s)) = s_id2row s) by (apply vocabulary_list; [assumption|apply Hr2]).
  assert (V3 : vocabulary (list_text (s_id2col s)) = s_id2col s) by (apply vocabulary_list; [assumption|apply Hc2]).
  set (rt := if use_rows then list_text (s_id2row s) else dm_bytes s).
  assert (Vr : vocabulary rt = s_id2row s) by (unfold rt; destruct use_rows; assumption).
  assert (Hpos : 0 < m_nr (s_mat s) /\ 0 < m_nc (s_mat s)) by (destruct (s_mat s); cbn in *; split; apply Hm).
  destruct (C46_build fs' (prefix ++ ".dm")%string (dm_bytes s) (if use_rows then Some (prefix ++ ".rows")%string else None) rt
             (if use_cols then Some (prefix ++ ".cols")%string else None) (if use_cols then Some (list_text (s_id2col s)) else None) (m_nc (s_mat s))) as (s' & Hb & Hcons & Hty & Hrow & Hcol & Pr & Pc & _ & Hnc & Hent).
  - exact F1.
  - unfold opt_text, rt. destruct use_rows; [exact F2|reflexivity].
  - destruct use_cols; [|exact I]. apply F3. intros K. apply consistent_cols in K; [|assumption]. apply Huse; auto.
  - rewrite Vr. intros K. rewrite K in Hl. cbn in Hl. lia.
  - apply dm_first_line; assumption.
  - lia.
  - rewrite Vr. apply dm_bytes_ok; assumption.
  - intros t Ht'. destruct use_cols; [|discriminate]. injection Ht' as <-. rewrite V3. destruct Hlc as [K|K]; [exfalso; apply Huse; auto|exact K].
  - exists s'. split; [exact Hb|]. split; [exact Hcons|]. split; [exact Hty|]. split; [congruence|].
    split; [rewrite Hcol; destruct use_cols; [exact V3|reflexivity]|]. split; [exact Pr|]. split; [exact Pc|].
    split; [destruct Hcons as (_ & K & _); rewrite <- K, Hrow, Vr; exact Hl|]. split; [exact Hnc|].
    intros i j Hi Hj. destruct (nth_error (s_id2row s') i) as [w|] eqn:Ew; [|apply nth_error_None in Ew; rewrite Hrow, Vr in Ew; lia].
    rewrite (Hent i j w Ew Hj). rewrite Hrow, Vr in Ew. rewrite (dm_first s Hs Hw Hx i w Ew), dm_field by assumption. unfold num. destruct (Hx i j Hi Hj) as (_ & ->). reflexivity.
Qed.

(** *** C48 *)
Theorem C48_roundtrip fs s prefix fs' : consistent s -> s_id2col s <> [] ->
  Forall word (s_id2row s) -> Forall word (s_id2col s) ->
  (forall x : F, fadd f0 x = x) -> num (ffmt f0) = f0 ->
  (forall i j, i < m_nr (s_mat s) -> j < m_nc (s_mat s) -> word (ffmt (ment (s_mat s) i j)) /\ is_num (ffmt (ment (s_mat s) i j))) ->
  export fs s prefix (Some "sm") = Ok fs' ->
  exists s', build fs' (Some (prefix ++ ".sm")%string) (Some "sm") (Some (prefix ++ ".rows")%string) (Some (prefix ++ ".cols")%string) = Ok s' /\
    consistent s' /\ type_of (s_mat s') = TSparse /\
    s_id2row s' = s_id2row s /\ s_id2col s' = s_id2col s /\
    positional (s_id2row s') (s_row2id s') /\ positional (s_id2col s') (s_col2id s') /\
    m_nr (s_mat s') = m_nr (s_mat s) /\ m_nc (s_mat s') = m_nc (s_mat s) /\
    forall i j, i < m_nr (s_mat s) -> j < m_nc (s_mat s) -> ment (s_mat s') i j = num (ffmt (ment (s_mat s) i j)).
Proof.
  intros Hs Hnc Hw Hc H0 Hz Hx He. pose proof Hs as (Hm & Hl & Hlc & Hr2 & _ & Hc2 & _). destruct Hlc as [Hlc|Hlc]; [contradiction|].
  destruct (export_parent _ _ _ _ _ He) as (fs1 & Hp). pose proof (sparse_text_eq (s_mat s) (s_id2row s) (s_id2col s) Hm Hl Hlc) as Ht. fold (sm_bytes s) in Ht.
  destruct (export_files fs s prefix "sm" (sm_bytes s) fs1 fs' Hp (or_intror (conj eq_refl Ht)) He) as (F1 & F2 & F3 & _). change ("." ++ "sm")%string with ".sm" in F1.
  assert (V2 : vocabulary (list_text (s_id2row s)) = s_id2row s) by (apply vocabulary_list; [assumption|apply Hr2]).
  assert (V3 : vocabulary (list_text (s_id2col s)) = s_id2col s) by (apply vocabulary_list; [assumption|apply Hc2]).
  assert (Hpos : 0 < m_nr (s_mat s) /\ 0 < m_nc (s_mat s)) by (destruct (s_mat s); cbn in *; split; apply Hm).
  set (c := as_csr (s_mat s)) in *. pose proof (as_csr_wf _ Hm) as Wc. fold c in Wc. pose proof (as_csr_nr (s_mat s)) as Nr. fold c in Nr. pose proof (as_csr_nc (s_mat s)) as Nc. fold c in Nc.
  set (R := s_id2row s) in *. set (C := s_id2col s) in *.
  assert (Hes : forall i j x, In (i, j, x) (coo_of_csr c) -> i < s_nr c /\ j < s_nc c /\ x = ment (s_mat s) i j).
  { intros i j x Hin. unfold coo_of_csr in Hin. apply in_concat in Hin. destruct Hin as (l & Hl' & Hin). apply in_map_iff in Hl'. destruct Hl' as (k & <- & Hk). apply in_seq in Hk.
    apply in_map_iff in Hin. destruct Hin as ([j' x'] & K & Hin). cbn in K. injection K as -> -> ->. split; [lia|].
    pose proof (srow_cols c i Wc ltac:(lia)) as Hcols. rewrite Forall_forall in Hcols. specialize (Hcols _ Hin). cbn in Hcols. split; [exact Hcols|].
    rewrite <- (as_csr_ent (s_mat s) i j Hm) by lia. fold c. unfold sent, rval. pose proof Wc as (_&_&_&_&_&_&_&_&Hn).
    rewrite (proj2 (rlookup_In (srow c i) j x (Hn i ltac:(lia))) Hin). reflexivity. }
  assert (Hrec : records (sm_bytes s) = map (entry_record R C) (coo_of_csr c)).
  { unfold sm_bytes. rewrite entries_lines. fold c R C. apply records_lines; rewrite Forall_map, Forall_forall; intros [[i j] x] Hin; [|discriminate].
    destruct (Hes _ _ _ Hin) as (Hi & Hj & ->). unfold entry_record. cbn [fst snd]. rewrite Forall_forall in Hw, Hc.
    repeat constructor; [apply Hw, nth_In; lia|apply Hw, nth_In; lia|apply Hc, nth_In; lia|apply Hc, nth_In; lia|apply Hx; lia|apply Hx; lia]. }
  destruct (C45_build fs' (prefix ++ ".sm")%string (sm_bytes s) (Some (prefix ++ ".rows")%string) (list_text R) (prefix ++ ".cols")%string (list_text C)) as (s' & Hb & Hcons & Hty & Hrow & Hcol & Pr & Pc & _ & Hent).
  - exact F1.
  - exact F2.
  - apply F3. intros K. apply consistent_cols in K; [|assumption]. contradiction.
  - rewrite V2. intros K. rewrite K in Hl. cbn in Hl. lia.
  - rewrite V3. exact Hnc.
  - rewrite Hrec, Forall_map, Forall_forall. intros [[i j] x] Hin. destruct (Hes _ _ _ Hin) as (Hi & Hj & ->). split; [cbn; lia|]. intros _ _. apply Hx; lia.
  - exists s'. rewrite V2 in Hrow. rewrite V3 in Hcol. split; [exact Hb|]. split; [exact Hcons|]. split; [exact Hty|]. split; [exact Hrow|]. split; [exact Hcol|]. split; [exact Pr|]. split; [exact Pc|].
    split; [destruct Hcons as (_ & K & _); rewrite <- K, Hrow; exact Hl|].
    split; [destruct Hcons as (_ & _ & [K|K] & _); [rewrite Hcol in K; contradiction|rewrite <- K, Hcol; exact Hlc]|].
    intros i j Hi Hj. destruct (nth_error R i) as [w1|] eqn:E1; [|apply nth_error_None in E1; lia]. destruct (nth_error C j) as [w2|] eqn:E2; [|apply nth_error_None in E2; lia].
    rewrite (Hent i j w1 w2) by (rewrite ?Hrow, ?Hcol; assumption). unfold counts. rewrite Hrec.
    assert (K : map (field 2) (filter (fun r => String.eqb (field 0 r) w1 && String.eqb (field 1 r) w2) (map (entry_record R C) (coo_of_csr c)))
                = map ffmt (map snd (filter (fun e : nat * nat * F => Nat.eqb (fst (fst e)) i && Nat.eqb (snd (fst e)) j) (coo_of_csr c)))).
    { assert (Hb' : forall e, In e (coo_of_csr c) -> fst (fst e) < length R /\ snd (fst e) < length C) by (intros [[a b] x] Hin; destruct (Hes _ _ _ Hin); cbn; lia).
      destruct Hr2 as (NR & _). destruct Hc2 as (NC & _). fold R in NR. fold C in NC. clear -Hb' E1 E2 NR NC.
      induction (coo_of_csr c) as [|[[a b] x] es IH]; [reflexivity|]. cbn [map filter]. destruct (Hb' _ (or_introl eq_refl)) as (Ha & Hb). cbn [fst snd] in *.
      assert (Q1 : String.eqb (nth a R "") w1 = Nat.eqb a i).
      { apply eq_true_iff_eq. rewrite String.eqb_eq, Nat.eqb_eq. split; [|intros ->; apply nth_error_nth; exact E1]. intros K. rewrite NoDup_nth_error in NR. apply NR; [exact Ha|].
        rewrite E1, <- K. apply nth_error_nth'. exact Ha. }
      assert (Q2 : String.eqb (nth b C "") w2 = Nat.eqb b j).
      { apply eq_true_iff_eq. rewrite String.eqb_eq, Nat.eqb_eq. split; [|intros ->; apply nth_error_nth; exact E2]. intros K. rewrite NoDup_nth_error in NC. apply NC; [exact Hb|].
        rewrite E2, <- K. apply nth_error_nth'. exact Hb. }
      change (field 0 (entry_record R C (a, b, x))) with (nth a R ""). change (field 1 (entry_record R C (a, b, x))) with (nth b C ""). rewrite Q1, Q2.
      destruct (Nat.eqb a i && Nat.eqb b j)%bool; cbn [map]; rewrite IH by (intros e He; apply Hb'; right; exact He); reflexivity. }
    rewrite K, (filter_coo_row c i j Wc) by lia. rewrite <- (as_csr_ent (s_mat s) i j Hm Hi Hj). fold c. unfold sent, rval.
    destruct (rlookup (srow c i) j) as [v|]; cbn [map suml fold_left]; unfold suml; cbn [fold_left]; [apply H0|symmetry; exact Hz].
Qed.
Theorem C48_no_columns fs s prefix fs' : s_id2col s = [] -> create_parent_directories fs prefix = Ok fs' -> export fs s prefix (Some "sm") = Err ValueError.
Proof. intros H Hd. unfold export. rewrite Hd. cbn [bind]. change (String.eqb "sm" "dm") with false. change (String.eqb "sm" "sm") with true. cbv iota. unfold sparse_text. rewrite H. reflexivity. Qed.

(** *** C49 *)
(** refuted: without the keyword [format] no matrix file is written, although dm is announced as the default *)
Theorem C49_default_format_refuted fs s prefix fs' fs1 : create_parent_directories fs prefix = Ok fs1 -> export fs s prefix None = Ok fs' ->
  fs_file fs' (prefix ++ ".dm")%string = fs_file fs1 (prefix ++ ".dm")%string /\ fs_file fs' (prefix ++ ".sm")%string = fs_file fs1 (prefix ++ ".sm")%string.
Proof.
  intros Hd. unfold export. rewrite Hd. cbn [bind]. unfold export_row_column. intros H. apply bind_ok in H. destruct H as (fs3 & H3 & H).
  destruct (write_file_ok _ _ _ _ H) as (_ & L2 & _).
  assert (N1 : (prefix ++ ".dm")%string <> (prefix ++ ".rows")%string) by (apply suffix_neq; discriminate).
  assert (N2 : (prefix ++ ".sm")%string <> (prefix ++ ".rows")%string) by (apply suffix_neq; discriminate).
  rewrite !L2 by assumption. destruct (s_col2id s); [injection H3 as <-; auto|]. destruct (write_file_ok _ _ _ _ H3) as (_ & M2 & _).
  rewrite !M2 by (apply suffix_neq; discriminate). auto.
Qed.
Lemma path_cut_noslash p : ~ In slash (chars p) -> path_cut p = ("", p).
Proof. intros H. pose proof (path_cut_app "" p H) as K. exact K. Qed.
(** refuted: a prefix in the current directory, written without a slash, is refused *)
Theorem C49_bare_prefix_refuted fs s prefix fmt : ~ In slash (chars prefix) -> export fs s prefix fmt = Err OSError.
Proof.
  intros H. unfold export, create_parent_directories, dirname, path_split. rewrite path_cut_noslash by assumption. reflexivity.
Qed.

(** ** creating directories *)
Definition name (c : string) : Prop := c <> "" /\ c <> "." /\ ~ In slash (chars c).
(** "/" ++ or "" ++ "a/b/c" *)
Definition path (root : string) (cs : list string) : string := (root ++ join "/" cs)%string.
Lemma join_snoc sep cs c : cs <> [] -> join sep (cs ++ [c]) = (join sep cs ++ sep ++ c)%string.
Proof.
  unfold join. induction cs as [|x cs IH]; [congruence|]. intros _. destruct cs as [|y cs]; [reflexivity|]. cbn [app] in *.
  change (String.concat sep (x :: y :: cs ++ [c])) with (x ++ sep ++ String.concat sep (y :: cs ++ [c]))%string. rewrite IH by discriminate.
  change (String.concat sep (x :: y :: cs)) with (x ++ sep ++ String.concat sep (y :: cs))%string. rewrite !sapp_assoc. reflexivity.
Qed.
Lemma rstrip_slash_app a : rstrip_slash (a ++ "/") = rstrip_slash a.
Proof. induction a as [|c a IH]; [reflexivity|]. cbn [append rstrip_slash]. rewrite IH. reflexivity. Qed.
Lemma rstrip_slash_name a c : name c -> rstrip_slash (a ++ c) = (a ++ c)%string.
Proof.
  intros (Hne & _ & Hs).
  assert (G : forall c, c <> "" -> ~ In slash (chars c) -> rstrip_slash c = c).
  { clear. induction c as [|x c IH]; intros H H'; [congruence|]. cbn [rstrip_slash]. destruct c as [|y c].
    - cbn. destruct (Ascii.eqb_spec x slash) as [->|]; [exfalso; apply H'; left; reflexivity|reflexivity].
    - rewrite IH by (try discriminate; intros K; apply H'; right; exact K). rewrite andb_false_r. reflexivity. }
  induction a as [|x a IH]; cbn [append rstrip_slash]; [apply G; assumption|]. rewrite IH. destruct (String.eqb_spec (a ++ c) "") as [K|]; [|rewrite andb_false_r; reflexivity].
  exfalso. destruct a; [apply Hne; exact K|discriminate].
Qed.
Lemma all_slashes_app a b : all_slashes (a ++ b) = (all_slashes a && all_slashes b)%bool.
Proof. induction a as [|x a IH]; [reflexivity|]. cbn [append all_slashes]. rewrite IH, andb_assoc. reflexivity. Qed.
Lemma all_slashes_name c : name c -> all_slashes c = false.
Proof. intros (Hne & _ & Hs). destruct c as [|x c]; [congruence|]. cbn. destruct (Ascii.eqb_spec x slash) as [->|]; [exfalso; apply Hs; left; reflexivity|reflexivity]. Qed.
Lemma path_cut_slash a c : ~ In slash (chars c) -> path_cut (a ++ "/" ++ c) = ((a ++ "/")%string, c).
Proof.
  intros Hc. induction a as [|x a IH].
  - cbn [append path_cut]. rewrite path_cut_noslash by assumption. reflexivity.
  - cbn [append path_cut] in *. rewrite IH. destruct a; reflexivity.
Qed.
Definition good_root (root : string) : Prop := root = "" \/ root = "/".
Lemma path_snoc root cs c : cs <> [] -> path root (cs ++ [c]) = (path root cs ++ "/" ++ c)%string.
Proof. intros H. unfold path. rewrite join_snoc by assumption. rewrite !sapp_assoc. reflexivity. Qed.
Lemma path_split_snoc root cs c : good_root root -> Forall name cs -> name c -> path_split (path root (cs ++ [c])) = (path root cs, c).
Proof.
  intros Hr Hcs Hc. pose proof Hc as (Hne & _ & Hs). destruct (list_eq_dec string_dec cs []) as [->|Hcs0].
  - cbn [app]. unfold path. cbn [join String.concat]. unfold path_split. destruct Hr as [-> | ->].
    + cbn [append]. rewrite path_cut_noslash by assumption. reflexivity.
    + pose proof (path_cut_slash "" c Hs) as K. cbn [append] in K |- *. rewrite K. reflexivity.
  - rewrite path_snoc by assumption. unfold path_split. rewrite path_cut_slash by assumption.
    destruct (exists_last Hcs0) as (cs' & c' & Ecs). rewrite Ecs in *. assert (Hc' : name c') by (rewrite Forall_app in Hcs; destruct Hcs as (_ & K); inversion K; assumption).
    assert (Q : exists a, path root (cs' ++ [c']) = (a ++ c')%string).
    { destruct (list_eq_dec string_dec cs' []) as [->|Hn]; [exists root; reflexivity|]. rewrite path_snoc by assumption. exists (path root cs' ++ "/")%string. rewrite sapp_assoc. reflexivity. }
    destruct Q as (a & Q). rewrite Q. rewrite !all_slashes_app, (all_slashes_name c' Hc'), andb_false_r. cbn [andb]. rewrite rstrip_slash_app, rstrip_slash_name by assumption. reflexivity.
Qed.
Lemma path_nonempty root cs c : name c -> path root (cs ++ [c]) <> "".
Proof.
  intros (Hne & _). destruct (list_eq_dec string_dec cs []) as [->|Hn].
  - unfold path. cbn. intros K. destruct root; [cbn in K; contradiction|discriminate].
  - rewrite path_snoc by assumption. intros K. destruct (path root cs); discriminate.
Qed.
(** no initial part of the path is a regular file *)
Definition no_file_on (fs : fsys) (root : string) (cs : list string) : Prop :=
  forall a b, cs = a ++ b -> a <> [] -> fs_file fs (path root a) = None.
Lemma makedirs_ok root : good_root root -> forall cs fs n, Forall name cs -> cs <> [] -> length cs <= n ->
  (root = "/" -> fs_dir fs "/" = true) -> no_file_on fs root cs -> exists_ fs (path root cs) = false ->
  exists fs', makedirs n fs (path root cs) = Ok fs' /\ fs_file fs' = fs_file fs /\ fs_dir fs' (path root cs) = true /\
    (forall q, fs_dir fs q = true -> fs_dir fs' q = true) /\
    (forall q, fs_dir fs' q = true -> fs_dir fs q = true \/ exists a b, cs = a ++ b /\ a <> [] /\ q = path root a).
Proof.
  intros Hr. induction cs as [|c cs IH] using rev_ind; intros fs n Hn Hne Hlen Hroot Hnf Hex; [congruence|]. rewrite Forall_app in Hn. destruct Hn as (Hcs & Hc). inversion Hc as [|? ? Hc' _]; subst. clear Hc.
  rewrite app_length in Hlen. cbn [length] in Hlen. destruct n as [|n]; [lia|]. cbn [makedirs]. rewrite path_split_snoc by assumption.
  pose proof Hc' as (Hcne & Hcdot & _). rewrite (proj2 (String.eqb_neq c "") Hcne). cbv iota. rewrite (proj2 (String.eqb_neq c "") Hcne).
  assert (Hmk : forall fs1, fs_file fs1 = fs_file fs -> (path root cs = "" \/ fs_dir fs1 (path root cs) = true) -> exists_ fs1 (path root (cs ++ [c])) = false ->
     mkdir fs1 (path root (cs ++ [c])) = Ok (FS (fs_file fs1) (fun q => String.eqb q (path root (cs ++ [c])) || fs_dir fs1 q))).
  { intros fs1 _ Hpar He. unfold mkdir. destruct (String.eqb_spec (path root (cs ++ [c])) "") as [K|]; [exfalso; exact (path_nonempty root cs c Hc' K)|]. rewrite He. cbn [orb].
    unfold dirname. rewrite path_split_snoc by assumption. cbn [fst]. replace (negb _) with false; [reflexivity|]. symmetry. apply negb_false_iff, orb_true_iff. rewrite String.eqb_eq. exact Hpar. }
  destruct (String.eqb_spec c "."); [contradiction|]. 
  destruct (negb (String.eqb (path root cs) "") && negb false && negb (exists_ fs (path root cs)))%bool eqn:Econd.
  - (* the parent has to be created *)
    apply andb_true_iff in Econd. destruct Econd as (Econd & E2). apply andb_true_iff in Econd. destruct Econd as (E1 & _). apply negb_true_iff in E1, E2. apply String.eqb_neq in E1.
    assert (Hcs0 : cs <> []). { intros ->. unfold path in *. cbn in *. rewrite sapp_nil_r in *. destruct Hr as [-> | ->]; [congruence|]. unfold exists_ in E2. rewrite Hroot in E2 by reflexivity. discriminate. }
    destruct (IH fs n Hcs Hcs0 ltac:(lia) Hroot) as (fs1 & Hm & Hf & Hd & Hmono & Hnew); [intros a b -> Ha; apply (Hnf a (b ++ [c])); [rewrite app_assoc; reflexivity|exact Ha]|exact E2|].
    rewrite Hm. cbn [bind].
    assert (He1 : exists_ fs1 (path root (cs ++ [c])) = false).
    { unfold exists_ in *. destruct (String.eqb (path root (cs ++ [c])) ""); [reflexivity|]. cbn [negb andb] in *. rewrite Hf. apply orb_false_iff in Hex. destruct Hex as (X1 & X2). rewrite X2, orb_false_r.
      destruct (fs_dir fs1 (path root (cs ++ [c]))) eqn:Ed; [|reflexivity]. exfalso. destruct (Hnew _ Ed) as [K|(a & b & Ea & Ha & Eq)]; [congruence|].
      assert (Hlt : String.length (path root a) < String.length (path root (cs ++ [c]))); [|rewrite Eq in Hlt; lia].
      subst cs. rewrite path_snoc by exact Hcs0. rewrite slength_app. cbn [String.length append]. unfold path. rewrite !slength_app.
      assert (G : String.length (join "/" a) <= String.length (join "/" (a ++ b))).
      { clear. destruct (list_eq_dec string_dec b []) as [->|Hb]; [rewrite app_nil_r; lia|]. unfold join. induction a as [|x a IH]; [cbn; lia|]. destruct a as [|y a].
        - destruct b as [|z b]; [congruence|]. change (String.concat "/" ([x] ++ z :: b)) with (x ++ "/" ++ String.concat "/" (z :: b))%string. cbn [String.concat]. rewrite slength_app. lia.
        - change (String.concat "/" ((x :: y :: a) ++ b)) with (x ++ "/" ++ String.concat "/" ((y :: a) ++ b))%string. change (String.concat "/" (x :: y :: a)) with (x ++ "/" ++ String.concat "/" (y :: a))%string.
          rewrite !slength_app. lia. }
      lia. }
    rewrite Hmk by auto. eexists. split; [reflexivity|]. cbn [fs_file fs_dir]. split; [exact Hf|]. split; [rewrite String.eqb_refl; reflexivity|]. split.
    + intros q Hq. rewrite (Hmono q Hq). apply orb_true_r.
    + intros q Hq. apply orb_true_iff in Hq. destruct Hq as [Hq|Hq].
      * apply String.eqb_eq in Hq. right. exists (cs ++ [c]), []. rewrite app_nil_r. split; [reflexivity|]. split; [destruct cs; discriminate|exact Hq].
      * destruct (Hnew q Hq) as [K|(a & b & -> & Ha & ->)]; [left; exact K|right]. exists a, (b ++ [c]). rewrite app_assoc. auto.
  - cbn [bind]. rewrite Hmk; [|reflexivity| |exact Hex].
    + eexists. split; [reflexivity|]. cbn [fs_file fs_dir]. split; [reflexivity|]. split; [rewrite String.eqb_refl; reflexivity|]. split; [intros q Hq; rewrite Hq; apply orb_true_r|].
      intros q Hq. apply orb_true_iff in Hq. destruct Hq as [Hq|Hq]; [|left; exact Hq]. apply String.eqb_eq in Hq. right. exists (cs ++ [c]), []. rewrite app_nil_r. split; [reflexivity|]. split; [destruct cs; discriminate|exact Hq].
    + destruct (String.eqb_spec (path root cs) "") as [K|K]; [left; exact K|right]. cbn [negb andb] in Econd. apply negb_false_iff in Econd.
      destruct (list_eq_dec string_dec cs []) as [->|Hcs0].
      * unfold path in *. cbn in K |- *. rewrite sapp_nil_r in *. destruct Hr as [-> | ->]; [congruence|]. apply Hroot. reflexivity.
      * unfold exists_ in Econd. apply andb_true_iff in Econd. destruct Econd as (_ & Econd). rewrite (Hnf cs [c] eq_refl Hcs0), orb_false_r in Econd. exact Econd.
Qed.


Lemma join_prefix_length (a b : list string) : String.length (join "/" a) <= String.length (join "/" (a ++ b)).
Proof.
  destruct (list_eq_dec string_dec b []) as [->|Hb]; [rewrite app_nil_r; lia|]. unfold join. induction a as [|x a IH]; [cbn; lia|]. destruct a as [|y a].
  - destruct b as [|z b]; [congruence|]. change (String.concat "/" ([x] ++ z :: b)) with (x ++ "/" ++ String.concat "/" (z :: b))%string. cbn [String.concat]. rewrite slength_app. lia.
  - change (String.concat "/" ((x :: y :: a) ++ b)) with (x ++ "/" ++ String.concat "/" ((y :: a) ++ b))%string. change (String.concat "/" (x :: y :: a)) with (x ++ "/" ++ String.concat "/" (y :: a))%string.
    rewrite !slength_app. lia.
Qed.
Lemma join_length cs : Forall name cs -> length cs <= String.length (join "/" cs).
Proof.
  unfold join. induction 1 as [|c cs (Hc & _) Hcs IH]; [cbn; lia|]. assert (1 <= String.length c) by (destruct c; [congruence|cbn; lia]). destruct cs as [|d cs]; [cbn; lia|].
  change (String.concat "/" (c :: d :: cs)) with (c ++ "/" ++ String.concat "/" (d :: cs))%string. rewrite !slength_app. cbn [length] in *. lia.
Qed.
(** what a prefix must look like: "a/b/name" or "/a/b/name", where no part of the directory is a regular file; the
    directories need not exist *)
Definition usable_prefix (fs : fsys) (root : string) (dirs : list string) (nm : string) : Prop :=
  good_root root /\ Forall name dirs /\ name nm /\ (root = "/" \/ dirs <> []) /\ (root = "/" -> fs_dir fs "/" = true) /\ no_file_on fs root dirs.
Lemma parent_created fs root dirs nm : usable_prefix fs root dirs nm ->
  exists fs1, create_parent_directories fs (path root (dirs ++ [nm])) = Ok fs1 /\ fs_file fs1 = fs_file fs /\ fs_dir fs1 (dirname (path root (dirs ++ [nm]))) = true /\
    forall q, fs_dir fs1 q = true -> fs_dir fs q = true \/ String.length q <= String.length (path root dirs).
Proof.
  intros (Hr & Hd & Hn & Hne & Hroot & Hnf). unfold create_parent_directories, dirname. rewrite path_split_snoc by assumption. cbn [fst].
  destruct (exists_ fs (path root dirs)) eqn:Ex.
  - exists fs. split; [reflexivity|]. split; [reflexivity|]. split; [|auto]. destruct (list_eq_dec string_dec dirs []) as [->|Hd0].
    + unfold path. cbn. rewrite sapp_nil_r. destruct Hne as [-> | K]; [apply Hroot; reflexivity|congruence].
    + unfold exists_ in Ex. apply andb_true_iff in Ex. destruct Ex as (_ & Ex). rewrite (Hnf dirs []), orb_false_r in Ex by (try rewrite app_nil_r; auto). exact Ex.
  - assert (Hd0 : dirs <> []).
    { intros ->. destruct Hne as [-> | K]; [|congruence]. unfold path, exists_ in Ex. cbn in Ex. rewrite Hroot in Ex by reflexivity. discriminate. }
    destruct (makedirs_ok root Hr dirs fs (S (String.length (path root dirs))) Hd Hd0) as (fs1 & Hm & Hf & Hdir & _ & Hnew); try assumption.
    { unfold path. rewrite slength_app. pose proof (join_length dirs Hd). lia. }
    exists fs1. split; [exact Hm|]. split; [exact Hf|]. split; [exact Hdir|]. intros q Hq. destruct (Hnew q Hq) as [K|(a & b & -> & _ & ->)]; [left; exact K|right].
    unfold path. rewrite !slength_app. pose proof (join_prefix_length a b). lia.
Qed.
(** with a format (and, for sm, columns) the three files are written with the right bytes, and nothing else *)
Theorem C49_export_partial fs s root dirs nm f : consistent s -> usable_prefix fs root dirs nm ->
  let prefix := path root (dirs ++ [nm]) in
  f = "dm" \/ (f = "sm" /\ s_id2col s <> []) ->
  fs_dir fs (prefix ++ "." ++ f) = false -> fs_dir fs (prefix ++ ".rows") = false -> fs_dir fs (prefix ++ ".cols") = false ->
  exists fs', export fs s prefix (Some f) = Ok fs' /\
    text_at fs' (prefix ++ "." ++ f) (if String.eqb f "dm" then dm_bytes s else sm_bytes s) /\
    text_at fs' (prefix ++ ".rows") (list_text (s_id2row s)) /\
    (s_id2col s <> [] -> text_at fs' (prefix ++ ".cols") (list_text (s_id2col s))) /\
    (forall q, q <> (prefix ++ "." ++ f)%string -> q <> (prefix ++ ".rows")%string -> q <> (prefix ++ ".cols")%string -> fs_file fs' q = fs_file fs q).
Proof.
  intros Hs Hu prefix Hf D1 D2 D3. destruct (parent_created fs root dirs nm Hu) as (fs1 & Hp & Hfile & Hdir & Hnew). fold prefix in Hp, Hdir. pose proof Hu as (Hr & Hd & Hn & _).
  assert (Hlen : String.length (path root dirs) <= String.length prefix).
  { unfold prefix, path. rewrite !slength_app. pose proof (join_prefix_length dirs [nm]). lia. }
  assert (Hndir : forall suf, suf <> "" -> fs_dir fs (prefix ++ suf) = false -> fs_dir fs1 (prefix ++ suf) = false).
  { intros suf Hsuf K. destruct (fs_dir fs1 (prefix ++ suf)) eqn:Ed; [|reflexivity]. destruct (Hnew _ Ed) as [K2|K2]; [congruence|]. rewrite slength_app in K2. destruct suf; [congruence|]. cbn in K2. lia. }
  assert (Hpne : prefix <> "") by apply path_nonempty, Hn.
  assert (Hwrite : forall fs0 suf c, fs_dir fs0 = fs_dir fs1 -> suf <> "" -> ~ In slash (chars suf) -> fs_dir fs1 (prefix ++ suf) = false -> exists fs2, write_file fs0 (prefix ++ suf) c = Ok fs2).
  { intros fs0 suf c E0 Hsuf Hsl K. apply write_file_total; rewrite ?E0; [intros Q; destruct prefix; [congruence|discriminate]|exact K|]. right. rewrite dirname_app by assumption. exact Hdir. }
  set (t := if String.eqb f "dm" then dm_bytes s else sm_bytes s).
  assert (Ht : (f = "dm" /\ dense_text (s_mat s) (s_id2row s) = Ok t) \/ (f = "sm" /\ sparse_text (s_mat s) (s_id2row s) (s_id2col s) = Ok t)).
  { destruct Hf as [-> | (-> & Hc)]; [left|right]; (split; [reflexivity|]); unfold t; [exact (dense_text_eq s Hs)|]. destruct Hs as (Hm & Hl & [K|K] & _); [contradiction|]. exact (sparse_text_eq (s_mat s) _ _ Hm Hl K). }
  assert (Hsf : ~ In slash (chars ("." ++ f))). { destruct Hf as [-> | (-> & _)]; cbn; intros K; repeat (destruct K as [K|K]; [discriminate|]); exact K. }
  destruct (Hwrite fs1 ("." ++ f)%string (Text t) eq_refl ltac:(discriminate) Hsf (Hndir ("." ++ f)%string ltac:(discriminate) D1)) as (fs2 & W2). destruct (write_file_ok _ _ _ _ W2) as (_ & _ & E2).
  assert (Hex : exists fs', export fs s prefix (Some f) = Ok fs').
  { unfold export. rewrite Hp. cbn [bind].
    assert (Q : (if String.eqb f "dm" then let* t0 := dense_text (s_mat s) (s_id2row s) in write_file fs1 (prefix ++ ".dm") (Text t0)
                 else if String.eqb f "sm" then let* t0 := sparse_text (s_mat s) (s_id2row s) (s_id2col s) in write_file fs1 (prefix ++ ".sm") (Text t0) else Err ValueError) = Ok fs2).
    { destruct Ht as [(-> & Ht)|(-> & Ht)]; [change (String.eqb "dm" "dm") with true|change (String.eqb "sm" "dm") with false; change (String.eqb "sm" "sm") with true]; cbv iota; rewrite Ht; exact W2. }
    rewrite Q. cbn [bind]. unfold export_row_column.
    assert (S3 : forall suf, suf = ".rows" \/ suf = ".cols" -> ~ In slash (chars suf)) by (intros suf [-> | ->]; cbn; intros K; repeat (destruct K as [K|K]; [discriminate|]); exact K).
    assert (Hmid : exists fs3, match s_col2id s with [] => Ok fs2 | _ => write_file fs2 (prefix ++ ".cols") (Text (list_text (s_id2col s))) end = Ok fs3 /\ fs_dir fs3 = fs_dir fs1).
    { destruct (s_col2id s); [eauto|]. destruct (Hwrite fs2 ".cols" (Text (list_text (s_id2col s))) E2 ltac:(discriminate) (S3 ".cols" (or_intror eq_refl)) (Hndir ".cols" ltac:(discriminate) D3)) as (fs3 & W3).
      exists fs3. split; [exact W3|]. destruct (write_file_ok _ _ _ _ W3) as (_ & _ & K). congruence. }
    destruct Hmid as (fs3 & -> & E3). cbn [bind].
    exact (Hwrite fs3 ".rows" (Text (list_text (s_id2row s))) E3 ltac:(discriminate) (S3 ".rows" (or_introl eq_refl)) (Hndir ".rows" ltac:(discriminate) D2)). }
  destruct Hex as (fs' & He). exists fs'. split; [exact He|]. destruct (export_files fs s prefix f t fs1 fs' Hp Ht He) as (F1 & F2 & F3 & F4).
  split; [exact F1|]. split; [exact F2|]. split; [intros K; apply F3; intros K2; apply K, (consistent_cols s Hs), K2|]. intros q Q1 Q2 Q3. rewrite F4, Hfile by assumption. reflexivity.
Qed.
End Export.

(** *** concrete cases *)
Section Ex.
#[local] Existing Instance QNum.
Context {E : Ext}.
Definition exp_sp : space :=
  SP (MS (CSR 3 2 [fofZ 4; fofZ 7] [1; 0] [0; 1; 1; 2])) ["car"; "pen"; "dog"] ["x"; "y"] [("car", 0%Z); ("pen", 1%Z); ("dog", 2%Z)] [("x", 0%Z); ("y", 1%Z)] [] [2].
Lemma exp_sp_consistent : consistent exp_sp.
Proof.
  eapply (mk_space_consistent (MS (CSR 3 2 [fofZ 4; fofZ 7] [1; 0] [0; 1; 1; 2])) ["car"; "pen"; "dog"] ["x"; "y"] None None [] None);
    [|constructor|exact I|exact I|reflexivity].
  cbn. unfold swf. cbn. repeat split; try lia.
  - intros i Hi. destruct i as [|[|[|i]]]; cbn; lia.
  - repeat constructor.
  - intros i Hi. destruct i as [|[|[|i]]]; try lia; cbn; repeat constructor; intros [].
Qed.
Lemma exp_words : Forall word (s_id2row exp_sp) /\ Forall word (s_id2col exp_sp).
Proof. split; repeat (apply Forall_cons; [split; [discriminate|repeat constructor]|]); apply Forall_nil. Qed.
Example C47_example : exists fs', export no_files exp_sp "out/a/sp" (Some "dm") = Ok fs' /\
  text_at fs' "out/a/sp.dm" ("car	0.0	4.0" ++ nl ++ "pen	0.0	0.0" ++ nl ++ "dog	7.0	0.0" ++ nl) /\
  usable_prefix no_files "" ["out"; "a"] "sp" /\
  (forall i j, i < 3 -> j < 2 -> word (frepr (ment (s_mat exp_sp) i j)) /\ fparse (frepr (ment (s_mat exp_sp) i j)) = Some (ment (s_mat exp_sp) i j)).
Proof.
  assert (U : usable_prefix no_files "" ["out"; "a"] "sp").
  { repeat split; try (left; reflexivity); try discriminate; try (repeat (apply Forall_cons; [repeat split; try discriminate; cbn; intros K; repeat (destruct K as [K|K]; [discriminate|]); exact K|]); apply Forall_nil).
    - cbn. intros K; repeat (destruct K as [K|K]; [discriminate|]); exact K.
    - right. discriminate. }
  destruct (C49_export_partial no_files exp_sp "" ["out"; "a"] "sp" "dm" exp_sp_consistent U (or_introl eq_refl) eq_refl eq_refl eq_refl) as (fs' & He & H1 & _).
  exists fs'. split; [exact He|]. split; [|split; [exact U|]].
  - change (text_at fs' "out/a/sp.dm" (dm_bytes exp_sp)) in H1. refine (eq_trans H1 _). vm_compute. reflexivity.
  - intros i j Hi Hj. destruct i as [|[|[|i]]]; try lia; destruct j as [|[|j]]; try lia; (split; [split; [discriminate|repeat constructor]|vm_compute; reflexivity]).
Qed.
Example C48_example : exists fs', export no_files exp_sp "out/a/sp" (Some "sm") = Ok fs' /\
  text_at fs' "out/a/sp.sm" ("car	y	4.000000" ++ nl ++ "dog	x	7.000000" ++ nl) /\
  (forall x : F, fadd f0 x = x) /\ num (ffmt f0) = f0 /\
  (forall i j, i < 3 -> j < 2 -> word (ffmt (ment (s_mat exp_sp) i j)) /\ is_num (ffmt (ment (s_mat exp_sp) i j))).
Proof.
  destruct C47_example as (_ & _ & _ & U & _).
  assert (Hc : "sm" = "dm" \/ "sm" = "sm" /\ s_id2col exp_sp <> []) by (right; split; [reflexivity|discriminate]).
  pose proof (C49_export_partial no_files exp_sp "" ["out"; "a"] "sp" "sm" exp_sp_consistent U Hc eq_refl eq_refl eq_refl) as Q. cbv zeta in Q. destruct Q as (fs' & He & H1 & _).
  exists fs'. split; [exact He|]. split; [|split; [apply Qcanon.Qcplus_0_l|split; [vm_compute; reflexivity|]]].
  - change (text_at fs' "out/a/sp.sm" (sm_bytes exp_sp)) in H1. refine (eq_trans H1 _). vm_compute. reflexivity.
  - intros i j Hi Hj. destruct i as [|[|[|i]]]; try lia; destruct j as [|[|j]]; try lia; (split; [split; [discriminate|repeat constructor]|eexists; vm_compute; reflexivity]).
Qed.
(** the same space exported without a format: no matrix file *)
Example C49_example : exists fs', export no_files exp_sp "out/a/sp" None = Ok fs' /\ fs_file fs' "out/a/sp.dm" = None /\ fs_file fs' "out/a/sp.sm" = None /\
  text_at fs' "out/a/sp.rows" ("car" ++ nl ++ "pen" ++ nl ++ "dog" ++ nl).
Proof. eexists. split; [reflexivity|]. repeat split. Qed.
End Ex.
