(** PExport.v -- lemmas about writing files. *)
From Coq Require Import Ascii.
From Verif Require Import Base PyList Dict Num Dense Sparse PSparse Matrix PMatrix PMatOps PShape PVals Scaling Linalg Operation Similarity Space Peripheral SpecSpace PSpace Prop_Periph Learner Composition Utils LexFun Str PStr IO SpecIO PIO.
Local Open Scope string_scope.
Local Open Scope list_scope.
Local Open Scope nat_scope.

Lemma concat_cons (x : string) l : String.concat "" (x :: l) = (x ++ String.concat "" l)%string.
Proof. destruct l as [|y l]; [cbn; rewrite sapp_nil_r|]; reflexivity. Qed.
Lemma concat_lines ls : String.concat "" (map (fun l => (l ++ nl)%string) ls) = write_lines ls.
Proof.
  induction ls as [|l ls IH]; [reflexivity|]. cbn [map write_lines]. rewrite concat_cons, IH, sapp_assoc. reflexivity.
Qed.
Lemma list_text_lines l : list_text l = write_lines l.
Proof. apply concat_lines. Qed.
Lemma records_lines (ws : list (list string)) : Forall (Forall word) ws -> Forall (fun r => r <> []) ws -> records (write_lines (map (join tabs) ws)) = ws.
Proof.
  intros Hw Hn. unfold records. rewrite flines_write.
  - rewrite !map_map. rewrite (map_ext_in _ (fun x => x)).
    + rewrite map_id. induction Hn as [|r ws Hr Hn IH]; [reflexivity|]. inversion Hw; subst. cbn. destruct r; [congruence|]. cbn. rewrite IH by assumption. reflexivity.
    + intros r Hr. apply split_line. rewrite Forall_forall in Hw. auto.
  - rewrite Forall_map. eapply Forall_impl; [|exact Hw]. intros r. apply join_no_newline.
Qed.
Lemma records_list l : Forall word l -> records (list_text l) = map (fun w => [w]) l.
Proof.
  intros H. rewrite list_text_lines. rewrite <- (map_id l) at 1. rewrite (map_ext id (fun w => join tabs [w])) by reflexivity. rewrite <- (map_map (fun w => [w]) (join tabs)).
  apply records_lines; rewrite Forall_map; [|rewrite Forall_forall; discriminate]. eapply Forall_impl; [|exact H]. intros w Hw. repeat constructor; apply Hw.
Qed.
Lemma vocabulary_list l : Forall word l -> NoDup l -> vocabulary (list_text l) = l.
Proof. intros H Hn. unfold vocabulary. rewrite records_list by assumption. rewrite map_map. cbn. rewrite map_id. apply distinct_id, Hn. Qed.

(** ** files *)
Lemma sapp_inj (p a b : string) : (p ++ a)%string = (p ++ b)%string -> a = b.
Proof. induction p as [|c p IH]; cbn; [auto|]. intros H. injection H as H. auto. Qed.
Section Exp.
Context {N : Num} {E : Ext} {FI : FloatIO}.
Lemma write_file_ok fs p c fs' : write_file fs p c = Ok fs' ->
  fs_file fs' p = Some c /\ (forall q, q <> p -> fs_file fs' q = fs_file fs q) /\ fs_dir fs' = fs_dir fs.
Proof.
  unfold write_file. destruct (_ || _)%bool; [discriminate|]. intros H. injection H as <-. cbn. rewrite String.eqb_refl. split; [reflexivity|]. split; [|reflexivity].
  intros q Hq. destruct (String.eqb_spec q p); [contradiction|reflexivity].
Qed.
Lemma write_file_total fs p c : p <> "" -> fs_dir fs p = false -> (dirname p = "" \/ fs_dir fs (dirname p) = true) -> exists fs', write_file fs p c = Ok fs'.
Proof.
  intros H1 H2 H3. unfold write_file. destruct (String.eqb_spec p ""); [contradiction|]. rewrite H2. cbn [orb].
  replace (negb _) with false; [eauto|]. symmetry. apply negb_false_iff, orb_true_iff. rewrite String.eqb_eq. exact H3.
Qed.

(** ** dense text *)
Definition dm_record (s : space) (i : nat) : list string := nth i (s_id2row s) "" :: map (fun j => frepr (ment (s_mat s) i j)) (seq 0 (m_nc (s_mat s))).
Lemma combine_seq_map {A} (d : A) (l : list A) a : combine (seq a (length l)) l = map (fun i => (i, nth (i - a) l d)) (seq a (length l)).
Proof.
  revert a. induction l as [|x l IH]; intros a; [reflexivity|]. cbn [length seq combine map]. rewrite Nat.sub_diag. cbn [nth]. f_equal. rewrite IH. apply map_ext_in. intros i Hi. apply in_seq in Hi.
  f_equal. replace (i - a) with (S (i - S a)) by lia. reflexivity.
Qed.
Lemma dense_text_eq s : consistent s -> dense_text (s_mat s) (s_id2row s) = Ok (write_lines (map (join tabs) (map (dm_record s) (seq 0 (length (s_id2row s)))))).
Proof.
  intros (Hm & Hl & _). unfold dense_text. rewrite (mapM_all_ok _ (fun ir => (join tabs (dm_record s (fst ir)) ++ nl)%string)).
  - cbn [bind]. f_equal. rewrite <- concat_lines. f_equal. rewrite (combine_seq_map ""), !map_map. reflexivity.
  - intros [i w] Hin. rewrite (combine_seq_map "") in Hin. apply in_map_iff in Hin. destruct Hin as (k & K & Hk). injection K as -> <-. rewrite Nat.sub_0_r.
    apply in_seq in Hk. unfold dense_row_text. cbn [fst snd]. destruct (vals_get_row (s_mat s) _ _ _ _ i (vals_self _ Hm)) as (z & -> & Vz); [lia|]. cbn [bind]. do 2 f_equal.
    unfold dm_record. rewrite map_map, (vals_nc _ _ _ _ _ Vz). do 2 f_equal. apply map_ext_in. intros j Hj. apply in_seq in Hj. rewrite (vals_ent _ _ _ _ _ 0 j Vz) by lia. reflexivity.
Qed.

(** ** sparse text *)
Lemma concat_nth {A} (g : nat -> list A) (p : nat -> nat) n : forall a i k, (forall i, a <= i < a + n -> p i <= p (S i) /\ length (g i) = p (S i) - p i) ->
  a <= i < a + n -> p i <= k < p (S i) -> nth_error (concat (map g (seq a n))) (k - p a) = nth_error (g i) (k - p i).
Proof.
  induction n as [|n IH]; intros a i k Hp Hi Hk; [lia|]. cbn [seq map concat]. destruct (Nat.eq_dec i a) as [->|Hne].
  - destruct (Hp a ltac:(lia)). rewrite nth_error_app1 by lia. reflexivity.
  - assert (Hmono : p (S a) <= p i).
    { assert (G : forall m, S a <= m -> m <= i -> p (S a) <= p m). { induction m; intros; [lia|]. destruct (Nat.eq_dec (S a) (S m)) as [->|]; [lia|]. specialize (IHm ltac:(lia) ltac:(lia)). destruct (Hp m ltac:(lia)). lia. } apply G; lia. }
    destruct (Hp a ltac:(lia)) as (M & L). rewrite nth_error_app2 by lia. rewrite L. replace (k - p a - (p (S a) - p a)) with (k - p (S a)) by lia.
    apply IH; [intros; apply Hp; lia|lia|lia].
Qed.
Lemma nth_error_combine {A B} (a : list A) (b : list B) k x y : nth_error a k = Some x -> nth_error b k = Some y -> nth_error (combine a b) k = Some (x, y).
Proof. revert b k. induction a as [|a0 a IH]; intros [|b0 b] [|k] H1 H2; try discriminate; cbn in *; [congruence|auto]. Qed.
Lemma nth_error_slice {A} a b (l : list A) k : a <= k < b -> nth_error (slice a b l) (k - a) = nth_error l k.
Proof.
  intros H. unfold slice.
  assert (G : forall n (l : list A) k, k < n -> nth_error (firstn n l) k = nth_error l k).
  { induction n as [|n IH]; intros m k' Hk; [lia|]. destruct m as [|x m]; [destruct k'; reflexivity|]. destruct k' as [|k']; [reflexivity|]. cbn. apply IH. lia. }
  rewrite G by lia.
  assert (G2 : forall a (l : list A) k, nth_error (skipn a l) k = nth_error l (a + k)).
  { induction a0 as [|a' IH]; intros m k'; [reflexivity|]. destruct m as [|x m]; [destruct k'; reflexivity|]. cbn. apply IH. }
  rewrite G2. f_equal. lia.
Qed.
Lemma ptr_bounds c : swf c -> forall i, i < s_nr c -> ptr c (S i) <= length (s_data c).
Proof. intros H i Hi. pose proof H as (_&_&_&_&_&He&_). rewrite <- He. apply ptr_le; [assumption|lia|lia]. Qed.
Lemma coo_nth c i k : swf c -> i < s_nr c -> ptr c i <= k < ptr c (S i) ->
  exists j x, nth_error (s_ind c) k = Some j /\ nth_error (s_data c) k = Some x /\ nth_error (coo_of_csr c) k = Some (i, j, x) /\ j < s_nc c.
Proof.
  intros H Hi Hk. pose proof H as (_&_&Hlp&H0&Hm&He&Hl&Hf&_). pose proof (ptr_bounds c H i Hi).
  destruct (nth_error (s_ind c) k) as [j|] eqn:Ej; [|apply nth_error_None in Ej; lia].
  destruct (nth_error (s_data c) k) as [x|] eqn:Ex; [|apply nth_error_None in Ex; lia].
  exists j, x. split; [reflexivity|]. split; [reflexivity|]. split.
  - unfold coo_of_csr. replace k with (k - ptr c 0) by lia. rewrite (concat_nth _ (ptr c) (s_nr c) 0 i k).
    + rewrite nth_error_map. unfold srow. erewrite nth_error_combine; [|rewrite nth_error_slice by assumption; exact Ej|rewrite nth_error_slice by assumption; exact Ex]. reflexivity.
    + intros i' Hi'. split; [apply Hm; lia|]. rewrite map_length. apply srow_length; [assumption|lia].
    + lia.
    + exact Hk.
  - rewrite Forall_forall in Hf. apply Hf. eapply nth_error_In; eassumption.
Qed.
Lemma coo_length c : swf c -> length (coo_of_csr c) = length (s_data c).
Proof.
  intros H. rewrite (data_concat c H). unfold coo_of_csr, srows. rewrite !map_map.
  induction (seq 0 (s_nr c)) as [|i l IH]; [reflexivity|]. cbn. rewrite !app_length, !map_length, IH. reflexivity.
Qed.
Definition entry_text (R C : list string) (e : nat * nat * F) : string := cell_text (nth (fst (fst e)) R "") (nth (snd (fst e)) C "") (snd e).
Definition entries_text (R C : list string) (es : list (nat * nat * F)) : string := String.concat "" (map (entry_text R C) es).
Lemma concat_snoc (l : list string) x : String.concat "" (l ++ [x]) = (String.concat "" l ++ x)%string.
Proof.
  induction l as [|y l IH]; [reflexivity|]. cbn [app]. rewrite !concat_cons, IH, sapp_assoc. reflexivity.
Qed.
Lemma py_nth_nat {A} (l : list A) k x : nth_error l k = Some x -> py_nth l (Z.of_nat k) = Ok x.
Proof. intros H. rewrite py_nth_index, PyList.py_index_nat by (apply nth_error_Some; congruence). rewrite H. reflexivity. Qed.
Lemma firstn_snoc {A} (l : list A) k x : nth_error l k = Some x -> firstn (S k) l = firstn k l ++ [x].
Proof. revert k. induction l as [|y l IH]; intros [|k] H; try discriminate; cbn in *; [congruence|]. f_equal. apply IH, H. Qed.
Lemma advance_ok c R k : swf c -> length R = s_nr c -> k < length (s_data c) -> forall n ri, s_nr c - ri <= n -> ri < s_nr c -> ptr c ri <= k <= ptr c (S ri) ->
  exists ri', advance n (s_ptr c) R k ri (ptr c (S ri)) (nth ri R "") = Ok (ri', ptr c (S ri'), nth ri' R "") /\ ri' < s_nr c /\ ptr c ri' <= k < ptr c (S ri').
Proof.
  intros H HR Hk. pose proof H as (_&_&Hlp&H0&Hm&He&_). induction n as [|n IH]; intros ri Hn Hri Hp; [lia|]. cbn [advance].
  destruct (Nat.eqb_spec k (ptr c (S ri))) as [Ek|Ek].
  - assert (S ri < s_nr c). { destruct (Nat.eq_dec (S ri) (s_nr c)) as [Eq|]; [rewrite Eq in Ek; lia|lia]. }
    rewrite (py_nth_nat (s_ptr c) (ri + 2) (ptr c (S (S ri)))).
    + cbn [bind]. rewrite (py_nth_nat R (ri + 1) (nth (S ri) R "")).
      * cbn [bind]. replace (ri + 1) with (S ri) by lia. apply IH; [lia|lia|]. specialize (Hm (S ri) ltac:(lia)). lia.
      * replace (ri + 1) with (S ri) by lia. apply nth_error_nth'. lia.
    + replace (ri + 2) with (S (S ri)) by lia. unfold ptr. apply nth_error_nth'. lia.
  - exists ri. split; [reflexivity|]. split; [exact Hri|]. lia.
Qed.
Lemma sparse_walk c R C : swf c -> length R = s_nr c -> length C = s_nc c -> forall n k ri, k + n = length (s_data c) -> ri < s_nr c -> ptr c ri <= k <= ptr c (S ri) ->
  exists st, foldM (sparse_cell c R C) (seq k n) (entries_text R C (firstn k (coo_of_csr c)), (ri, ptr c (S ri), nth ri R "")) = Ok (entries_text R C (firstn (k + n) (coo_of_csr c)), st).
Proof.
  intros H HR HC. induction n as [|n IH]; intros k ri Hkn Hri Hp; cbn [seq foldM].
  - rewrite Nat.add_0_r. eexists. reflexivity.
  - assert (Hk : k < length (s_data c)) by lia. unfold sparse_cell at 1. pose proof H as (_&_&Hlp&_).
    destruct (advance_ok c R k H HR Hk (length (s_ptr c)) ri ltac:(lia) Hri Hp) as (ri' & -> & Hri' & Hp'). cbn [bind].
    destruct (coo_nth c ri' k H Hri' Hp') as (j & x & Ej & Ex & Ec & Hj). rewrite (py_nth_nat _ _ _ Ej). cbn [bind].
    rewrite (py_nth_nat C j (nth j C "")) by (apply nth_error_nth'; lia). cbn [bind]. rewrite (py_nth_nat _ _ _ Ex). cbn [bind].
    assert (Ht : (entries_text R C (firstn k (coo_of_csr c)) ++ cell_text (nth ri' R "") (nth j C "") x)%string = entries_text R C (firstn (S k) (coo_of_csr c))).
    { rewrite (firstn_snoc _ _ _ Ec). unfold entries_text. rewrite map_app. cbn [map]. rewrite concat_snoc. reflexivity. }
    rewrite Ht. destruct (IH (S k) ri' ltac:(lia) Hri' ltac:(lia)) as (st & Hst). rewrite Hst. rewrite Nat.add_succ_r. eexists. reflexivity.
Qed.
Lemma sparse_text_sparse c R C : swf c -> length R = s_nr c -> length C = s_nc c -> sparse_text (MS c) R C = Ok (entries_text R C (coo_of_csr c)).
Proof.
  intros H HR HC. pose proof H as (Hr&Hc&Hlp&H0&Hm&_). unfold sparse_text. destruct (Nat.eqb_spec (length C) 0); [lia|]. cbn [negb check bind].
  change 1%Z with (Z.of_nat 1). change 0%Z with (Z.of_nat 0). rewrite (py_nth_nat (s_ptr c) 1 (ptr c 1)) by (apply nth_error_nth'; lia). cbn [bind]. rewrite (py_nth_nat R 0 (nth 0 R "")) by (apply nth_error_nth'; lia). cbn [bind].
  destruct (sparse_walk c R C H HR HC (length (s_data c)) 0 0 eq_refl Hr) as (st & Hst); [specialize (Hm 0 Hr); lia|].
  cbn [firstn entries_text map String.concat Nat.add] in Hst. change (entries_text R C []) with "" in Hst. rewrite Hst. cbn [bind].
  rewrite <- (coo_length c H), firstn_all. reflexivity.
Qed.
(** ** dense matrix, sparse text *)
Lemma entries_text_app R C a b : entries_text R C (a ++ b) = (entries_text R C a ++ entries_text R C b)%string.
Proof.
  unfold entries_text. induction a as [|x a IH]; [reflexivity|]. cbn [app map]. rewrite !concat_cons, IH, sapp_assoc. reflexivity.
Qed.
Lemma sparse_text_dense d R C : dwfm d -> length R = d_nr d -> length C = d_nc d -> sparse_text (MD d) R C = Ok (entries_text R C (coo_of_csr (csr_of_dense d))).
Proof.
  intros H HR HC. pose proof H as (Hr&Hc&_). unfold sparse_text. destruct (Nat.eqb_spec (length C) 0); [lia|]. cbn [negb check bind].
  assert (G : forall l out, (forall i, In i l -> i < d_nr d) ->
     foldM (fun out i => foldM (fun out j => if feqb (dent d i j) f0 then Ok out else
                 let* r := py_nth R (Z.of_nat i) in let* c := py_nth C (Z.of_nat j) in Ok (out ++ cell_text r c (dent d i j))%string) (seq 0 (d_nc d)) out) l out
     = Ok (out ++ entries_text R C (concat (map (fun i => map (fun p => (i, fst p, snd p)) (filter nz (map (fun j => (j, dent d i j)) (seq 0 (d_nc d))))) l)))%string).
  { induction l as [|i l IH]; intros out Hl; cbn [foldM map concat]; [unfold entries_text; cbn; rewrite sapp_nil_r; reflexivity|].
    assert (G2 : forall js out, (forall j, In j js -> j < d_nc d) ->
      foldM (fun out j => if feqb (dent d i j) f0 then Ok out else
                 let* r := py_nth R (Z.of_nat i) in let* c := py_nth C (Z.of_nat j) in Ok (out ++ cell_text r c (dent d i j))%string) js out
      = Ok (out ++ entries_text R C (map (fun p => (i, fst p, snd p)) (filter nz (map (fun j => (j, dent d i j)) js))))%string).
    { induction js as [|j js IHj]; intros o Hj; cbn [foldM map filter]; [unfold entries_text; cbn; rewrite sapp_nil_r; reflexivity|].
      unfold nz at 1. cbn [snd]. destruct (feqb (dent d i j) f0); cbn [negb bind].
      - apply IHj. intros; apply Hj; right; assumption.
      - rewrite (py_nth_nat R i (nth i R "")) at 1 by (apply nth_error_nth'; specialize (Hl i (or_introl eq_refl)); lia). cbn [bind].
        rewrite (py_nth_nat C j (nth j C "")) by (apply nth_error_nth'; specialize (Hj j (or_introl eq_refl)); lia). cbn [bind].
        rewrite IHj by (intros; apply Hj; right; assumption). cbn [map fst snd]. f_equal. unfold entries_text. cbn [map]. rewrite concat_cons, sapp_assoc. reflexivity. }
    rewrite G2 by (intros j Hj; apply in_seq in Hj; lia). cbn [bind]. rewrite IH by (intros; apply Hl; right; assumption). rewrite entries_text_app, sapp_assoc. reflexivity. }
  rewrite G by (intros i Hi; apply in_seq in Hi; lia). cbn [append]. unfold coo_of_csr. rewrite csr_of_dense_nr. do 3 f_equal. apply map_ext_in. intros i Hi. apply in_seq in Hi.
  rewrite srow_csr_of_dense by lia. reflexivity.
Qed.
(** the stored entries that are printed *)
Definition as_csr (m : matrix) : csr := match m with MS c => c | MD d => csr_of_dense d end.
Lemma as_csr_wf m : mwf m -> swf (as_csr m).
Proof. destruct m; cbn; intros H; [apply csr_of_dense_wf, H|exact H]. Qed.
Lemma as_csr_nr m : s_nr (as_csr m) = m_nr m.
Proof. destruct m; cbn [as_csr m_nr]; [apply csr_of_dense_nr|reflexivity]. Qed.
Lemma as_csr_nc m : s_nc (as_csr m) = m_nc m.
Proof. destruct m; cbn [as_csr m_nc]; reflexivity. Qed.
Lemma as_csr_ent m i j : mwf m -> i < m_nr m -> j < m_nc m -> sent (as_csr m) i j = ment m i j.
Proof. destruct m; cbn; intros H Hi Hj; [apply sent_csr_of_dense; assumption|reflexivity]. Qed.
Lemma sparse_text_eq m R C : mwf m -> length R = m_nr m -> length C = m_nc m -> sparse_text m R C = Ok (entries_text R C (coo_of_csr (as_csr m))).
Proof. destruct m; cbn [as_csr m_nr m_nc mwf]; [apply sparse_text_dense|apply sparse_text_sparse]. Qed.

(** reading the printed entries *)
Definition entry_record (R C : list string) (e : nat * nat * F) : list string := [nth (fst (fst e)) R ""; nth (snd (fst e)) C ""; ffmt (snd e)].
Lemma entries_lines R C es : entries_text R C es = write_lines (map (join tabs) (map (entry_record R C) es)).
Proof.
  rewrite <- concat_lines. unfold entries_text. f_equal. rewrite !map_map. apply map_ext. intros [[i j] x]. unfold entry_text, cell_text, entry_record, join. cbn [String.concat fst snd]. rewrite !sapp_assoc. reflexivity.
Qed.
Lemma filter_coo_row c i j : swf c -> i < s_nr c ->
  map snd (filter (fun e : nat * nat * F => Nat.eqb (fst (fst e)) i && Nat.eqb (snd (fst e)) j) (coo_of_csr c)) = match rlookup (srow c i) j with Some v => [v] | None => [] end.
Proof.
  intros H Hi. unfold coo_of_csr.
  assert (Row : forall k, map snd (filter (fun e : nat * nat * F => Nat.eqb (fst (fst e)) i && Nat.eqb (snd (fst e)) j) (map (fun p => (k, fst p, snd p)) (srow c k)))
                          = if Nat.eqb k i then map snd (filter (fun p => Nat.eqb (fst p) j) (srow c i)) else []).
  { intros k. destruct (Nat.eqb_spec k i) as [->|Hne].
    - induction (srow c i) as [|p r IH]; [reflexivity|]. cbn. rewrite Nat.eqb_refl. cbn. destruct (Nat.eqb (fst p) j); cbn; rewrite IH; reflexivity.
    - induction (srow c k) as [|p r IH]; [reflexivity|]. cbn. destruct (Nat.eqb_spec k i); [contradiction|]. cbn. exact IH. }
  assert (G : forall l, NoDup l -> map snd (filter (fun e : nat * nat * F => Nat.eqb (fst (fst e)) i && Nat.eqb (snd (fst e)) j) (concat (map (fun k => map (fun p => (k, fst p, snd p)) (srow c k)) l)))
     = if existsb (Nat.eqb i) l then map snd (filter (fun p => Nat.eqb (fst p) j) (srow c i)) else []).
  { induction l as [|k l IH]; intros Hn; [reflexivity|]. inversion Hn; subst. cbn [map concat existsb]. rewrite filter_app, map_app, Row, IH by assumption.
    rewrite (Nat.eqb_sym i k). destruct (Nat.eqb_spec k i) as [->|]; [|reflexivity]. cbn [orb].
    replace (existsb (Nat.eqb i) l) with false; [apply app_nil_r|]. symmetry. apply not_true_is_false. intros K. apply existsb_exists in K. destruct K as (y & Hy & K). apply Nat.eqb_eq in K. subst. contradiction. }
  rewrite G by apply seq_NoDup. replace (existsb (Nat.eqb i) _) with true by (symmetry; apply existsb_exists; exists i; split; [apply in_seq; lia|apply Nat.eqb_refl]).
  pose proof H as (_&_&_&_&_&_&_&_&Hn). specialize (Hn i Hi). clear Row G H Hi. induction (srow c i) as [|[k v] r IH]; [reflexivity|]. cbn in Hn. inversion Hn as [|? ? Hk2 Hr2]; subst. cbn. rewrite (Nat.eqb_sym k j).
  destruct (Nat.eqb_spec j k) as [->|]; [|apply IH; assumption]. cbn. f_equal.
  assert (K : filter (fun p : nat * F => Nat.eqb (fst p) k) r = []); [|rewrite K; reflexivity].
  clear -Hk2. induction r as [|[k' v'] r IH]; [reflexivity|]. cbn in *. destruct (Nat.eqb_spec k' k); [exfalso; apply Hk2; left; assumption|]. apply IH. intros K; apply Hk2; right; exact K.
Qed.
End Exp.
