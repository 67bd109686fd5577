(** Prop_IO.v -- C44, C45, C46, C58: reading files. *)
From Coq Require Import Ascii.
From Verif Require Import Base PyList Dict Num Dense Sparse PSparse Matrix Scaling Linalg Operation Similarity Space Peripheral SpecSpace PSpace Prop_Periph Learner Composition Utils LexFun Str PStr IO SpecIO PIO Qio PShape.
Local Open Scope string_scope.
Local Open Scope list_scope.
Local Open Scope nat_scope.

(** *** C44 *)
(** what [distinct] means: the same elements, once each, and an element comes before another iff its first occurrence does *)
Theorem C44_distinct l :
  NoDup (distinct l) /\ (forall w, In w (distinct l) <-> In w l) /\
  (forall a b l1 l2, l = l1 ++ a :: l2 -> ~ In a l1 -> ~ In b l1 -> In b l2 -> b <> a -> exists d1 d2 d3, distinct l = d1 ++ a :: d2 ++ b :: d3).
Proof.
  split; [apply distinct_NoDup|]. split; [intros; apply distinct_In|]. intros a b l1 l2 -> Ha Hb Hb2 Hne.
  induction l1 as [|x l1 IH]; cbn [app distinct].
  - assert (K : In b (filter (fun y => negb (String.eqb a y)) (distinct l2))).
    { apply filter_In. rewrite distinct_In. split; [exact Hb2|]. destruct (String.eqb_spec a b); [congruence|reflexivity]. }
    apply in_split in K. destruct K as (d2 & d3 & ->). exists [], d2, d3. reflexivity.
  - destruct IH as (d1 & d2 & d3 & ->); [intros K; apply Ha; right; exact K|intros K; apply Hb; right; exact K|].
    rewrite filter_app. cbn [filter]. destruct (String.eqb_spec x a) as [->|]; [exfalso; apply Ha; left; reflexivity|]. cbn [negb].
    rewrite filter_app. cbn [filter]. destruct (String.eqb_spec x b) as [->|]; [exfalso; apply Hb; left; reflexivity|]. cbn [negb].
    eexists (x :: _), _, _. reflexivity.
Qed.
Theorem C44_indexing text fields : fields <> [] -> Forall (fun f => (0 <= f)%Z) fields ->
  let valid := filter (long fields) (records text) in
  (valid = [] -> extract_indexing_structs text fields = Err ValueError) /\
  (valid <> [] -> exists ids dicts, extract_indexing_structs text fields = Ok (ids, dicts) /\
     ids = map (fun f => distinct (map (fieldz f) valid)) fields /\
     Forall2 (fun l d => dwf d /\ mutually_inverse l d /\ positional l d) ids dicts).
Proof.
  intros Hne Hf valid. pose proof (extract_eq text fields Hne Hf) as H. cbv zeta in H. fold valid in H. split.
  - intros K. rewrite K in H. exact H.
  - intros K. exists (map (fun f => distinct (map (fieldz f) valid)) fields), (map (fun f => numbered (distinct (map (fieldz f) valid))) fields).
    split; [destruct valid; [congruence|exact H]|]. split; [reflexivity|].
    generalize valid. clear. intros valid. induction fields as [|f fields IH]; constructor; [|exact IH]. pose proof (distinct_NoDup (map (fieldz f) valid)) as Hd.
    split; [apply numbered_wf|split; [apply numbered_inverse|apply numbered_positional]]; exact Hd.
Qed.
(** an empty list of fields: max([]) *)
Theorem C44_no_field text : extract_indexing_structs text [] = Err ValueError.
Proof. reflexivity. Qed.
Example C44_example : extract_indexing_structs ("car red" ++ nl ++ nl ++ "dog" ++ nl ++ " book  red x" ++ nl ++ "car blue") [1%Z; 0%Z]
  = Ok ([["red"; "blue"]; ["car"; "book"]], [[("red", 0%Z); ("blue", 1%Z)]; [("car", 0%Z); ("book", 1%Z)]]).
Proof. reflexivity. Qed.

Section IO2.
Context {N : Num} {E : Ext} {FI : FloatIO}.
Lemma mk_space_numbered m R C : NoDup R -> NoDup C -> length R = m_nr m -> (C = [] \/ length C = m_nc m) ->
  mk_space m R C (Some (numbered R)) (Some (numbered C)) [] None = Ok (SP m R C (numbered R) (numbered C) [] [m_nc m]).
Proof.
  intros HR HC Lr Lc. destruct (mk_space_total m R C (Some (numbered R)) (Some (numbered C)) [] None HR HC Lr Lc) as (s & Hs).
  - split; [apply numbered_wf|apply numbered_inverse]; assumption.
  - split; [apply numbered_wf|apply numbered_inverse]; assumption.
  - exact I.
  - rewrite Hs. pose proof (mk_space_ok m R C (Some (numbered R)) (Some (numbered C)) [] None s (numbered_wf R HR) (numbered_wf C HC) Hs) as (dr & dc & e & -> & Ar & Ac & _ & _ & _ & He).
    cbn in He. subst e. destruct Ar as (_ & _ & Ar), Ac as (_ & _ & Ac). cbn in Ar, Ac. subst. reflexivity.
Qed.
Definition opt_text (fs : fsys) (rows : option string) (data_text rows_text : string) : Prop :=
  match rows with Some p => text_at fs p rows_text | None => rows_text = data_text end.
Lemma read_index_at fs p t : text_at fs p t -> read_index fs p = match vocabulary t with [] => Err ValueError | l => Ok (l, numbered l) end.
Proof. intros H. unfold read_index, read_text. rewrite H. cbn [bind]. apply extract0_eq. Qed.

Lemma build_sm fs data dt rows rt cols ct : text_at fs data dt -> opt_text fs rows dt rt -> text_at fs cols ct ->
  build fs (Some data) (Some "sm") rows (Some cols) =
  let R := vocabulary rt in let C := vocabulary ct in
  if negb (nonblank R && nonblank C) then Err ValueError else
            let* m := read_sparse_space_data dt (numbered R) (numbered C) in
            let* _ := check (Nat.eqb (length C) (m_nc m)) ValueError in mk_space m R C (Some (numbered R)) (Some (numbered C)) [] None.
Proof.
  intros Hd Hr Hc. unfold build. change (String.eqb "dm" "dm") with true; change (String.eqb "dm" "sm") with false; change (String.eqb "sm" "dm") with false; change (String.eqb "sm" "sm") with true; cbn [orb check bind]; cbv iota.
  rewrite (read_index_at fs cols ct Hc). unfold read_text. rewrite Hd. destruct rows as [p|]; cbn [opt_text] in Hr.
  - rewrite (read_index_at fs p rt Hr). destruct (vocabulary rt) as [|r0 R]; [reflexivity|]. cbn [bind]. destruct (vocabulary ct) as [|c0 C]; reflexivity.
  - subst rt. cbn [bind]. rewrite (read_index_at fs data dt Hd). destruct (vocabulary ct) as [|c0 C]; [destruct (vocabulary dt); reflexivity|]. cbn [bind].
    destruct (vocabulary dt) as [|r0 R]; [reflexivity|]. reflexivity.
Qed.

(** *** C45 *)
Theorem C45_build fs data dt rows rt cols ct : text_at fs data dt -> opt_text fs rows dt rt -> text_at fs cols ct ->
  vocabulary rt <> [] -> vocabulary ct <> [] -> Forall (sm_ok (vocabulary rt) (vocabulary ct)) (records dt) ->
  exists s, build fs (Some data) (Some "sm") rows (Some cols) = Ok s /\ consistent s /\ type_of (s_mat s) = TSparse /\
    s_id2row s = vocabulary rt /\ s_id2col s = vocabulary ct /\ positional (s_id2row s) (s_row2id s) /\ positional (s_id2col s) (s_col2id s) /\ s_ops s = [] /\
    forall i j w1 w2, nth_error (s_id2row s) i = Some w1 -> nth_error (s_id2col s) j = Some w2 ->
      ment (s_mat s) i j = suml (map num (counts dt w1 w2)).
Proof.
  intros Hd Hr Hc NR NC Hok. pose proof (build_sm fs data dt rows rt cols ct Hd Hr Hc) as Hb. cbv zeta in Hb. pose proof (vocabulary_NoDup rt) as DR. pose proof (vocabulary_NoDup ct) as DC.
  set (R := vocabulary rt) in *. set (C := vocabulary ct) in *. rewrite (read_sparse_eq dt R C DR DC NR NC Hok) in Hb. cbn [bind m_nc s_nc] in Hb.
  set (m := MS (csr_of_coo (length R) (length C) (flat_map (coo_of R C) (records dt)))) in *.
  assert (Hp : 0 < length R /\ 0 < length C) by (destruct R, C; cbn; try congruence; lia).
  assert (Hm : mk_space m R C (Some (numbered R)) (Some (numbered C)) [] None = Ok (SP m R C (numbered R) (numbered C) [] [m_nc m])).
  { apply mk_space_numbered; try assumption; [cbn [m m_nr]; rewrite csr_of_coo_nr; reflexivity|right; reflexivity]. }
  exists (SP m R C (numbered R) (numbered C) [] [m_nc m]). cbn [s_mat s_id2row s_id2col s_row2id s_col2id s_ops].
  split. { rewrite Hb. destruct R as [|r0 R']; [congruence|]. destruct C as [|c0 C']; [congruence|]. change (s_nc _) with (length (c0 :: C')). rewrite Nat.eqb_refl. cbn [check bind]. exact Hm. }
  split. { refine (mk_space_consistent m R C (Some (numbered R)) (Some (numbered C)) [] None _ _ _ (numbered_wf R DR) (numbered_wf C DC) Hm); [|constructor]. apply csr_of_coo_wf; tauto. }
  split; [reflexivity|]. do 2 (split; [reflexivity|]). split; [apply numbered_positional, DR|]. split; [apply numbered_positional, DC|]. split; [reflexivity|].
  intros i j w1 w2 Hi Hj. unfold m. cbn [ment].
  pose proof (proj1 (nth_error_Some R i) ltac:(congruence)). pose proof (proj1 (nth_error_Some C j) ltac:(congruence)).
  rewrite sent_csr_of_coo by assumption. apply coo_val_counts; assumption.
Qed.
Theorem C45_invalid fs data dt rows rt cols ct : text_at fs data dt -> opt_text fs rows dt rt -> text_at fs cols ct ->
  vocabulary rt = [] \/ vocabulary ct = [] \/ ~ Forall (sm_ok (vocabulary rt) (vocabulary ct)) (records dt) ->
  build fs (Some data) (Some "sm") rows (Some cols) = Err ValueError.
Proof.
  intros Hd Hr Hc H. rewrite (build_sm fs data dt rows rt cols ct Hd Hr Hc). cbv zeta. destruct H as [->|[->|H]]; [reflexivity|destruct (vocabulary rt); reflexivity|].
  rewrite (read_sparse_err dt _ _ (vocabulary_NoDup rt) (vocabulary_NoDup ct) H). destruct (vocabulary rt); [reflexivity|]. destruct (vocabulary ct); reflexivity.
Qed.
Theorem C45_needs_columns fs data dt rows rt : text_at fs data dt -> opt_text fs rows dt rt ->
  build fs (Some data) (Some "sm") rows None = Err ValueError.
Proof.
  intros Hd Hr. unfold build. change (String.eqb "dm" "dm") with true; change (String.eqb "dm" "sm") with false; change (String.eqb "sm" "dm") with false; change (String.eqb "sm" "sm") with true; cbn [orb check bind]; cbv iota. destruct rows as [p|]; [|reflexivity]. cbn [opt_text] in Hr. rewrite (read_index_at fs p rt Hr).
  destruct (vocabulary rt); reflexivity.
Qed.

(** *** C46 *)
Definition opt_cols (fs : fsys) (cols ct : option string) : Prop :=
  match cols, ct with Some p, Some t => text_at fs p t | None, None => True | _, _ => False end.
Definition cols_vocabulary (ct : option string) : list string := match ct with Some t => vocabulary t | None => [] end.
Lemma build_dm fs data dt rows rt cols ct : text_at fs data dt -> opt_text fs rows dt rt -> opt_cols fs cols ct ->
  (forall t, ct = Some t -> vocabulary t <> []) -> vocabulary rt <> [] ->
  build fs (Some data) (Some "dm") rows cols =
  let R := vocabulary rt in let C := cols_vocabulary ct in
  let* m := read_dense_space_data dt (numbered R) in
  let* _ := check (Nat.eqb (length C) 0 || Nat.eqb (length C) (m_nc m)) ValueError in mk_space m R C (Some (numbered R)) (Some (numbered C)) [] None.
Proof.
  intros Hd Hr Hc NC NR. unfold build. change (String.eqb "dm" "dm") with true; change (String.eqb "dm" "sm") with false; change (String.eqb "sm" "dm") with false; change (String.eqb "sm" "sm") with true; cbn [orb check bind]; cbv iota. unfold read_text. rewrite Hd.
  assert (Kr : match rows with Some p => let* x := read_index fs p in Ok (Some x) | None => Ok None end = Ok (match rows with Some _ => Some (vocabulary rt, numbered (vocabulary rt)) | None => None end)).
  { destruct rows as [p|]; [|reflexivity]. cbn [opt_text] in Hr. rewrite (read_index_at fs p rt Hr). destruct (vocabulary rt); [congruence|reflexivity]. }
  assert (Kc : match cols with Some p => let* x := read_index fs p in Ok (Some x) | None => Ok None end = Ok (match ct with Some t => Some (vocabulary t, numbered (vocabulary t)) | None => None end)).
  { destruct cols as [p|], ct as [t|]; try contradiction; [|reflexivity]. cbn [opt_cols] in Hc. rewrite (read_index_at fs p t Hc). specialize (NC t eq_refl). destruct (vocabulary t); [congruence|reflexivity]. }
  rewrite Kr, Kc. cbn [bind]. cbv zeta.
  assert (Kd : match (match rows with Some _ => Some (vocabulary rt, numbered (vocabulary rt)) | None => None end) with Some x => Ok x | None => read_index fs data end = Ok (vocabulary rt, numbered (vocabulary rt))).
  { destruct rows as [p|]; [reflexivity|]. cbn [opt_text] in Hr. subst rt. rewrite (read_index_at fs data dt Hd). destruct (vocabulary dt); [congruence|reflexivity]. }
  rewrite Kd. cbn [bind]. destruct (read_dense_space_data dt (numbered (vocabulary rt))) as [m|e]; [|reflexivity]. cbn [bind].
  destruct ct as [t|]; cbn [cols_vocabulary]; reflexivity.
Qed.
Theorem C46_build fs data dt rows rt cols ct n : text_at fs data dt -> opt_text fs rows dt rt -> opt_cols fs cols ct ->
  vocabulary rt <> [] -> first_line_fields dt = Some (S n) -> 0 < n -> dm_ok (vocabulary rt) n (records dt) ->
  (forall t, ct = Some t -> length (vocabulary t) = n) ->
  exists s, build fs (Some data) (Some "dm") rows cols = Ok s /\ consistent s /\ type_of (s_mat s) = TDense /\
    s_id2row s = vocabulary rt /\ s_id2col s = cols_vocabulary ct /\ positional (s_id2row s) (s_row2id s) /\ positional (s_id2col s) (s_col2id s) /\ s_ops s = [] /\
    m_nc (s_mat s) = n /\
    forall i j w, nth_error (s_id2row s) i = Some w -> j < n ->
      ment (s_mat s) i j = match first_record (records dt) w with Some r => num (field (S j) r) | None => f0 end.
Proof.
  intros Hd Hr Hc NR Hf Hn Hok Hlen.
  assert (NC : forall t, ct = Some t -> vocabulary t <> []) by (intros t Ht K; specialize (Hlen t Ht); rewrite K in Hlen; cbn in Hlen; lia).
  pose proof (build_dm fs data dt rows rt cols ct Hd Hr Hc NC NR) as Hb. pose proof (vocabulary_NoDup rt) as DR. cbv zeta in Hb.
  rewrite (read_dense_eq dt _ n DR Hf Hn Hok) in Hb. cbn [bind m_nc] in Hb. set (R := vocabulary rt) in *. set (m := MD (tab (length R) n (dm_entry (records dt) R))) in *.
  assert (DC : NoDup (cols_vocabulary ct)) by (destruct ct; [apply vocabulary_NoDup|constructor]).
  assert (LC : cols_vocabulary ct = [] \/ length (cols_vocabulary ct) = n) by (destruct ct; [right; apply Hlen; reflexivity|left; reflexivity]).
  set (C := cols_vocabulary ct) in *.
  assert (Hm : mk_space m R C (Some (numbered R)) (Some (numbered C)) [] None = Ok (SP m R C (numbered R) (numbered C) [] [m_nc m])).
  { apply mk_space_numbered; try assumption. reflexivity. }
  assert (Hp : 0 < length R) by (destruct R; cbn; [congruence|lia]).
  exists (SP m R C (numbered R) (numbered C) [] [m_nc m]). cbn [s_mat s_id2row s_id2col s_row2id s_col2id s_ops].
  split. { rewrite Hb. change (d_nc _) with n. replace (_ || _)%bool with true; [exact Hm|]. symmetry. apply orb_true_iff. rewrite !Nat.eqb_eq. destruct LC as [K|K]; [left; rewrite K; reflexivity|right; exact K]. }
  split. { refine (mk_space_consistent m R C (Some (numbered R)) (Some (numbered C)) [] None _ _ _ (numbered_wf R DR) (numbered_wf C DC) Hm); [|constructor]. apply tab_wf; assumption. }
  split; [reflexivity|]. do 2 (split; [reflexivity|]). split; [apply numbered_positional, DR|]. split; [apply numbered_positional, DC|]. do 2 (split; [reflexivity|]).
  intros i j w Hi Hj. unfold m. cbn [ment]. pose proof (proj1 (nth_error_Some R i) ltac:(congruence)). rewrite dent_tab by assumption. unfold dm_entry.
  rewrite (nth_error_nth R i "" Hi). reflexivity.
Qed.
(** wrong files: an unusable data line, an empty vocabulary, or a column file of another size *)
Theorem C46_invalid fs data dt rows rt cols ct n : text_at fs data dt -> opt_text fs rows dt rt -> opt_cols fs cols ct ->
  first_line_fields dt = Some n ->
  vocabulary rt = [] \/ (exists t, ct = Some t /\ length (vocabulary t) <> n - 1) \/ ~ (2 <= n /\ dm_ok (vocabulary rt) (n - 1) (records dt)) ->
  build fs (Some data) (Some "dm") rows cols = Err ValueError.
Proof.
  intros Hd Hr Hc Hf H.
  assert (Dec : {exists t, ct = Some t /\ vocabulary t = []} + {forall t, ct = Some t -> vocabulary t <> []}).
  { destruct ct as [t|]; [|right; discriminate]. destruct (vocabulary t) eqn:Et; [left; eauto|right; intros t' K; injection K as <-; congruence]. }
  assert (Err1 : vocabulary rt = [] \/ (exists t, ct = Some t /\ vocabulary t = []) -> build fs (Some data) (Some "dm") rows cols = Err ValueError).
  { clear H Hf. intros H. unfold build. change (String.eqb "dm" "dm") with true; change (String.eqb "dm" "sm") with false; change (String.eqb "sm" "dm") with false; change (String.eqb "sm" "sm") with true; cbn [orb check bind]; cbv iota. unfold read_text. rewrite Hd. destruct rows as [p|]; cbn [opt_text] in Hr.
    - rewrite (read_index_at fs p rt Hr). destruct (vocabulary rt) as [|r0 R]; [reflexivity|]. cbn [bind]. destruct H as [H|(t & -> & Ht)]; [discriminate|].
      destruct cols as [q|]; [|contradiction]. cbn [opt_cols] in Hc. rewrite (read_index_at fs q t Hc), Ht. reflexivity.
    - subst rt. cbn [bind]. destruct cols as [q|], ct as [t|]; try contradiction; cbn [opt_cols] in Hc.
      + rewrite (read_index_at fs q t Hc). destruct (vocabulary t) eqn:Et; [reflexivity|]. cbn [bind]. rewrite (read_index_at fs data dt Hd).
        destruct H as [H|(t' & K & Ht)]; [rewrite H; reflexivity|]. injection K as <-. congruence.
      + cbn [bind]. rewrite (read_index_at fs data dt Hd). destruct H as [H|(t' & K & _)]; [rewrite H; reflexivity|discriminate]. }
  destruct Dec as [Hv|NC]; [apply Err1; auto|]. destruct (vocabulary rt) eqn:Er; [apply Err1; auto|]. rewrite <- Er in *.
  assert (NR : vocabulary rt <> []) by congruence. clear Er Err1.
  rewrite (build_dm fs data dt rows rt cols ct Hd Hr Hc NC NR). cbv zeta.
  destruct (read_dense_space_data dt (numbered (vocabulary rt))) as [m|e] eqn:Em.
  - assert (Hok : 2 <= n /\ dm_ok (vocabulary rt) (n - 1) (records dt)).
    { destruct (le_dec 2 n) as [L|L]; [|exfalso; rewrite (read_dense_err dt _ n (vocabulary_NoDup rt) Hf ltac:(tauto)) in Em; discriminate].
      split; [exact L|]. destruct (dense_fold (vocabulary rt) (n - 1) (flines dt) (vocabulary_NoDup rt) [] ([], []) (dinv_init _) (dm_ok_nil _ _)) as [(K & _)|(K & _)]; [exact K|].
      exfalso. rewrite (read_dense_err dt _ n (vocabulary_NoDup rt) Hf) in Em; [discriminate|]. intros (_ & K2). apply K, K2. }
    destruct Hok as (L & Hok). destruct n as [|n]; [lia|]. cbn [Nat.sub] in *. rewrite Nat.sub_0_r in *.
    rewrite (read_dense_eq dt _ n (vocabulary_NoDup rt) Hf ltac:(lia) Hok) in Em. injection Em as <-. cbn [bind m_nc]. change (d_nc _) with n.
    destruct H as [H|[(t & -> & Ht)|H]]; [congruence| |exfalso; apply H; auto]. cbn [cols_vocabulary]. specialize (NC t eq_refl).
    destruct (Nat.eqb_spec (length (vocabulary t)) 0) as [K|K]; [destruct (vocabulary t); [congruence|discriminate]|]. destruct (Nat.eqb_spec (length (vocabulary t)) n); [contradiction|]. reflexivity.
  - assert (K : read_dense_space_data dt (numbered (vocabulary rt)) = Err ValueError); [|rewrite K in Em; injection Em as <-; reflexivity].
    destruct (le_dec 2 n) as [L|L]; [|apply (read_dense_err dt _ n (vocabulary_NoDup rt) Hf); tauto].
    destruct (dense_fold (vocabulary rt) (n - 1) (flines dt) (vocabulary_NoDup rt) [] ([], []) (dinv_init _) (dm_ok_nil _ _)) as [(K & _)|(K & _)].
    + exfalso. destruct n as [|n]; [lia|]. cbn [Nat.sub] in K. rewrite Nat.sub_0_r in K. rewrite (read_dense_eq dt _ n (vocabulary_NoDup rt) Hf ltac:(lia) K) in Em. discriminate.
    + apply (read_dense_err dt _ n (vocabulary_NoDup rt) Hf). intros (_ & K2). apply K, K2.
Qed.
(** an empty data file with a rows file: f.next() raises StopIteration *)
Theorem C46_empty_file fs data rows rt cols ct : text_at fs data "" -> text_at fs rows rt -> vocabulary rt <> [] -> opt_cols fs cols ct ->
  (forall t, ct = Some t -> vocabulary t <> []) -> build fs (Some data) (Some "dm") (Some rows) cols = Err StopIteration.
Proof. intros Hd Hr NR Hc NC. rewrite (build_dm fs data "" (Some rows) rt cols ct Hd Hr Hc NC NR). reflexivity. Qed.
(** the keyword arguments *)
Theorem C46_arguments fs data fmt rows cols :
  build fs None fmt rows cols = Err ValueError /\ build fs (Some data) None rows cols = Err ValueError /\
  (forall f, f <> "dm" -> f <> "sm" -> build fs (Some data) (Some f) rows cols = Err ValueError).
Proof.
  split; [reflexivity|]. split; [reflexivity|]. intros f H1 H2. unfold build. destruct (String.eqb_spec f "dm"); [contradiction|]. destruct (String.eqb_spec f "sm"); [contradiction|]. reflexivity.
Qed.
End IO2.

(** *** C58 *)
(** field number f (counted from the end if negative) of the record exists, and is x *)
Definition has_field (r : list string) (f : Z) (x : string) : Prop := exists p, denotes (length r) f p /\ nth_error r p = Some x.
Lemma py_index_denotes n f p : py_index n f = Some p <-> denotes n f p.
Proof.
  unfold py_index, denotes. destruct (Z.ltb_spec f 0); destruct (_ || _)%bool eqn:Eb; try (apply orb_true_iff in Eb; rewrite Z.ltb_lt, Z.leb_le in Eb); try (apply orb_false_iff in Eb; rewrite Z.ltb_ge, Z.leb_gt in Eb);
    (split; [intros K; inversion K; subst; lia || idtac|intros (K1 & K2); try (exfalso; lia); f_equal; lia]).
Qed.
Lemma py_nth_field_iff r f x : py_nth r f = Ok x <-> has_field r f x.
Proof.
  rewrite py_nth_index. unfold has_field. split.
  - destruct (py_index (length r) f) as [p|] eqn:Ep; [|discriminate]. destruct (nth_error r p) eqn:En; [|discriminate]. intros K. injection K as <-. exists p. split; [apply py_index_denotes, Ep|exact En].
  - intros (p & Hp & Hx). apply py_index_denotes in Hp. rewrite Hp, Hx. reflexivity.
Qed.
Lemma py_nth_no_field r f : (forall x, ~ has_field r f x) -> py_nth r f = Err IndexError.
Proof.
  intros H. destruct (py_nth r f) as [x|e] eqn:K; [exfalso; apply (H x), py_nth_field_iff, K|]. rewrite py_nth_index in K. destruct (py_index _ _) as [p|]; [destruct (nth_error r p)|]; congruence.
Qed.
Lemma tuple_line_rec fields acc l : tuple_line fields acc l = if nonblank (split l) then let* x := (let* y := match fields with [] => Ok (split l) | _ => mapM (py_nth (split l)) fields end in Ok [y]) in Ok (acc ++ x) else Ok acc.
Proof.
  unfold tuple_line. rewrite strip_emptyb, split_strip. destruct (split l); [reflexivity|]. cbn [nonblank]. destruct fields; [reflexivity|]. destruct (mapM _ _); reflexivity.
Qed.
Lemma concat_single {A} (l : list A) : concat (map (fun x => [x]) l) = l.
Proof. induction l as [|x l IH]; [reflexivity|]. cbn. rewrite IH. reflexivity. Qed.
Lemma read_tuples_eq text fields : read_tuple_list text fields = mapM (fun r => match fields with [] => Ok r | _ => mapM (py_nth r) fields end) (records text).
Proof.
  unfold read_tuple_list. rewrite (foldM_records _ (fun r => let* y := match fields with [] => Ok r | _ => mapM (py_nth r) fields end in Ok [y]) _ (tuple_line_rec fields)). fold (records text).
  induction (records text) as [|r rs IH]; [reflexivity|]. cbn [mapM]. destruct (match fields with [] => _ | _ => _ end) as [y|e]; [|reflexivity]. cbn [bind].
  destruct (mapM _ rs) as [a|e] eqn:Ea, (mapM (fun r => match fields with [] => Ok r | _ => _ end) rs) as [b|e'] eqn:Eb; cbn [bind app concat] in *; congruence.
Qed.
Theorem C58_tuples_all text : read_tuple_list text [] = Ok (records text).
Proof. rewrite read_tuples_eq. induction (records text) as [|r rs IH]; [reflexivity|]. cbn. rewrite IH. reflexivity. Qed.
(** one tuple per non-blank line, in order, with exactly the requested fields *)
Theorem C58_tuples text fields : fields <> [] ->
  (forall res, read_tuple_list text fields = Ok res <-> Forall2 (fun r t => Forall2 (has_field r) fields t) (records text) res) /\
  ((exists r f, In r (records text) /\ In f fields /\ forall x, ~ has_field r f x) <-> read_tuple_list text fields = Err IndexError) /\
  (forall e, read_tuple_list text fields = Err e -> e = IndexError).
Proof.
  intros Hne. rewrite read_tuples_eq. assert (K : forall r : list string, match fields with [] => Ok r | _ => mapM (py_nth r) fields end = mapM (py_nth r) fields) by (intros; destruct fields; [congruence|reflexivity]).
  rewrite (mapM_same _ (fun r => mapM (py_nth r) fields)) by (intros; apply K). clear K Hne.
  assert (Hin : forall r fs t, mapM (py_nth r) fs = Ok t <-> Forall2 (has_field r) fs t).
  { intros r fs. induction fs as [|f fs IH]; intros t; cbn [mapM].
    - split; [intros H; injection H as <-; constructor|intros H; inversion H; reflexivity].
    - split.
      + intros H. apply bind_ok in H. destruct H as (x & Hx & H). apply bind_ok in H. destruct H as (xs & Hxs & H). injection H as <-. constructor; [apply py_nth_field_iff, Hx|apply IH, Hxs].
      + intros H. inversion H as [|? x ? xs Hx Hxs]; subst. apply py_nth_field_iff in Hx. rewrite Hx. cbn [bind]. apply IH in Hxs. rewrite Hxs. reflexivity. }
  assert (Herr : forall r fs e, mapM (py_nth r) fs = Err e -> e = IndexError /\ exists f, In f fs /\ forall x, ~ has_field r f x).
  { intros r fs e. induction fs as [|f fs IH]; cbn [mapM]; [discriminate|]. destruct (py_nth r f) as [x|e'] eqn:Ef; cbn [bind].
    - destruct (mapM _ fs) as [xs|e'']; cbn [bind]; [discriminate|]. intros H. destruct (IH H) as (-> & f' & Hf & Hn). split; [reflexivity|]. exists f'. split; [right; exact Hf|exact Hn].
    - intros H. injection H as ->. split; [rewrite py_nth_index in Ef; destruct (py_index _ _) as [p|]; [destruct (nth_error r p)|]; congruence|]. exists f. split; [left; reflexivity|].
      intros x Hx. apply py_nth_field_iff in Hx. congruence. }
  assert (Hgen : forall rs e, mapM (fun r => mapM (py_nth r) fields) rs = Err e -> e = IndexError /\ exists r f, In r rs /\ In f fields /\ forall x, ~ has_field r f x).
  { intros rs e. induction rs as [|r rs IH]; cbn [mapM]; [discriminate|]. destruct (mapM (py_nth r) fields) as [x|e'] eqn:Ef; cbn [bind].
    - destruct (mapM _ rs) as [xs|e'']; cbn [bind]; [discriminate|]. intros H. destruct (IH H) as (-> & r' & f & Hr & Hf & Hn). split; [reflexivity|]. exists r', f. split; [right; exact Hr|auto].
    - intros H. injection H as ->. destruct (Herr _ _ _ Ef) as (-> & f & Hf & Hn). split; [reflexivity|]. exists r, f. split; [left; reflexivity|auto]. }
  split; [|split].
  - induction (records text) as [|r rs IH]; intros res; cbn [mapM].
    + split; [intros H; injection H as <-; constructor|intros H; inversion H; reflexivity].
    + split.
      * intros H. apply bind_ok in H. destruct H as (x & Hx & H). apply bind_ok in H. destruct H as (xs & Hxs & H). injection H as <-. constructor; [apply Hin, Hx|apply IH, Hxs].
      * intros H. inversion H as [|? x ? xs Hx Hxs]; subst. apply Hin in Hx. rewrite Hx. cbn [bind]. apply IH in Hxs. rewrite Hxs. reflexivity.
  - split.
    + intros (r & f & Hr & Hf & Hn). apply mapM_err_in.
      * intros r' _. destruct (mapM (py_nth r') fields) as [x|e] eqn:Ee; [left; eauto|right]. destruct (Herr _ _ _ Ee) as (-> & _). reflexivity.
      * exists r. split; [exact Hr|]. apply mapM_err_in.
        -- intros f' _. destruct (py_nth r f') as [x|e] eqn:Ee; [left; eauto|right]. rewrite py_nth_index in Ee. destruct (py_index _ _) as [p|]; [destruct (nth_error r p)|]; congruence.
        -- exists f. split; [exact Hf|apply py_nth_no_field, Hn].
    + intros H. apply (Hgen _ _ H).
  - intros e H. apply (Hgen _ _ H).
Qed.

(** the stripped non-blank lines *)
Definition stripped (text : string) : list string := filter (fun l => negb (String.eqb l "")) (map strip (flines text)).
Lemma stripped_records text : map split (stripped text) = records text.
Proof.
  unfold stripped, records. induction (flines text) as [|l ls IH]; [reflexivity|]. cbn [map filter]. rewrite strip_emptyb. destruct (split l) eqn:El; cbn [nonblank negb]; [exact IH|].
  cbn [map]. rewrite IH, split_strip, El. reflexivity.
Qed.
Lemma read_list_eq text fld : read_list text fld = mapM (fun l => match fld with Some f => py_nth (split l) f | None => Ok l end) (stripped text).
Proof.
  unfold read_list, stripped. assert (G : forall ls acc, foldM (list_line fld) ls acc = let* xs := mapM (fun l => match fld with Some f => py_nth (split l) f | None => Ok l end) (filter (fun l => negb (String.eqb l "")) (map strip ls)) in Ok (acc ++ xs)).
  { induction ls as [|l ls IH]; intros acc; cbn [foldM map filter mapM bind]; [rewrite app_nil_r; reflexivity|]. unfold list_line at 1. destruct (String.eqb (strip l) ""); cbn [negb bind]; [apply IH|]. cbn [mapM].
    destruct (match fld with Some f => py_nth (split (strip l)) f | None => Ok (strip l) end) as [x|e]; cbn [bind]; [|reflexivity]. rewrite IH. destruct (mapM _ _) as [xs|e]; cbn [bind]; [|reflexivity]. rewrite <- app_assoc. reflexivity. }
  rewrite G. destruct (mapM _ _); reflexivity.
Qed.
Theorem C58_list_lines text : read_list text None = Ok (stripped text).
Proof. rewrite read_list_eq. induction (stripped text) as [|r rs IH]; [reflexivity|]. cbn. rewrite IH. reflexivity. Qed.
Theorem C58_list_field text f :
  (forall res, read_list text (Some f) = Ok res <-> Forall2 (fun r x => has_field r f x) (records text) res) /\
  ((exists r, In r (records text) /\ forall x, ~ has_field r f x) <-> read_list text (Some f) = Err IndexError).
Proof.
  rewrite read_list_eq, <- stripped_records. split.
  - induction (stripped text) as [|l ls IH]; intros res; cbn [mapM map].
    + split; [intros H; injection H as <-; constructor|intros H; inversion H; reflexivity].
    + split.
      * intros H. apply bind_ok in H. destruct H as (x & Hx & H). apply bind_ok in H. destruct H as (xs & Hxs & H). injection H as <-. constructor; [apply py_nth_field_iff, Hx|apply IH, Hxs].
      * intros H. inversion H as [|? x ? xs Hx Hxs]; subst. apply py_nth_field_iff in Hx. rewrite Hx. cbn [bind]. apply IH in Hxs. rewrite Hxs. reflexivity.
  - split.
    + intros (r & Hr & Hn). apply in_map_iff in Hr. destruct Hr as (l & <- & Hl). apply mapM_err_in.
      * intros l' _. destruct (py_nth (split l') f) as [x|e] eqn:Ee; [left; eauto|right]. rewrite py_nth_index in Ee. destruct (py_index _ _) as [p|]; [destruct (nth_error (split l') p)|]; congruence.
      * exists l. split; [exact Hl|apply py_nth_no_field, Hn].
    + intros H. apply mapM_err in H. destruct H as (l & Hl & He). exists (split l). split; [apply in_map, Hl|]. intros x Hx. apply py_nth_field_iff in Hx. congruence.
Qed.
Example C58_example : read_tuple_list ("a b c" ++ nl ++ "  " ++ nl ++ "d	e f g" ++ nl) [2%Z; 0%Z; (-1)%Z] = Ok [["c"; "a"; "c"]; ["f"; "d"; "g"]].
Proof. reflexivity. Qed.

(** *** concrete cases *)
Section Ex.
#[local] Existing Instance QNum.
Context {E : Ext}.
Definition one_file (p t : string) (fs : fsys) : fsys := FS (fun q => if String.eqb q p then Some (Text t) else fs_file fs q) (fs_dir fs).
Definition no_files : fsys := FS (fun _ => None) (fun _ => false).
Definition ex_sm : string := ("car red 3" ++ nl ++ "dog red 1.0 x" ++ nl ++ nl ++ "book blue oops" ++ nl ++ "car	blue	2" ++ nl ++ "car red 4.0")%string.
Definition ex_fs : fsys := one_file "d.sm" ex_sm (one_file "r" ("car" ++ nl ++ "dog" ++ nl ++ "pen")%string (one_file "c" ("blue x" ++ nl ++ "red" ++ nl)%string no_files)).
Lemma ex_sm_ok : Forall (sm_ok ["car"; "dog"; "pen"] ["blue"; "red"]) (records ex_sm).
Proof.
  let r := eval vm_compute in (records ex_sm) in change (records ex_sm) with r.
    repeat (apply Forall_cons; [split; [cbn; lia|cbn; intros H1 H2; first [eexists; vm_compute; reflexivity | exfalso; repeat match goal with H : _ \/ _ |- _ => destruct H end; first [contradiction|discriminate]]]|]). apply Forall_nil.
Qed.
Example C45_example :
  text_at ex_fs "d.sm" ex_sm /\ vocabulary ("car" ++ nl ++ "dog" ++ nl ++ "pen") = ["car"; "dog"; "pen"] /\
  Forall (sm_ok ["car"; "dog"; "pen"] ["blue"; "red"]) (records ex_sm) /\
  exists s, build ex_fs (Some "d.sm") (Some "sm") (Some "r") (Some "c") = Ok s /\
    s_id2row s = ["car"; "dog"; "pen"] /\ s_id2col s = ["blue"; "red"] /\
    ment (s_mat s) 0 1 = fofZ 7 /\ ment (s_mat s) 0 0 = fofZ 2 /\ ment (s_mat s) 1 1 = fofZ 1 /\ ment (s_mat s) 2 0 = fofZ 0.
Proof.
  split; [reflexivity|]. split; [reflexivity|]. split.
  - exact ex_sm_ok.
  - destruct (C45_build ex_fs "d.sm" ex_sm (Some "r") ("car" ++ nl ++ "dog" ++ nl ++ "pen") "c" ("blue x" ++ nl ++ "red" ++ nl)) as (s & Hb & _ & _ & Hr & Hc & _ & _ & _ & He);
      try reflexivity; try discriminate; [exact ex_sm_ok|]. exists s. split; [exact Hb|]. split; [exact Hr|]. split; [exact Hc|]. rewrite Hr, Hc in He.
    rewrite (He 0 1 "car" "red"), (He 0 0 "car" "blue"), (He 1 1 "dog" "red"), (He 2 0 "pen" "blue") by reflexivity. repeat split; apply Qceqb_eq; vm_compute; reflexivity.
Qed.
Definition ex_dm : string := ("car 3 5" ++ nl ++ "dog 1.0 2" ++ nl ++ nl ++ "car oops 9" ++ nl ++ "book a b" ++ nl)%string.
Definition ex_fs2 : fsys := one_file "d.dm" ex_dm (one_file "r" ("dog" ++ nl ++ "pen" ++ nl ++ "car")%string no_files).
Lemma ex_dm_ok : dm_ok ["dog"; "pen"; "car"] 2 (records ex_dm).
Proof.
  split; [repeat constructor|]. intros w r Hw Hr. cbn in Hw. destruct Hw as [<-|[<-|[<-|[]]]]; vm_compute in Hr; try discriminate; injection Hr as <-; repeat (apply Forall_cons; [eexists; vm_compute; reflexivity|]); apply Forall_nil.
Qed.
Example C46_example :
  text_at ex_fs2 "d.dm" ex_dm /\ first_line_fields ex_dm = Some 3 /\ dm_ok ["dog"; "pen"; "car"] 2 (records ex_dm) /\
  exists s, build ex_fs2 (Some "d.dm") (Some "dm") (Some "r") None = Ok s /\
    s_id2row s = ["dog"; "pen"; "car"] /\ s_id2col s = [] /\
    ment (s_mat s) 0 0 = fofZ 1 /\ ment (s_mat s) 0 1 = fofZ 2 /\ ment (s_mat s) 1 1 = fofZ 0 /\ ment (s_mat s) 2 0 = fofZ 3.
Proof.
  split; [reflexivity|]. split; [reflexivity|]. split.
  - exact ex_dm_ok.
  - destruct (C46_build ex_fs2 "d.dm" ex_dm (Some "r") ("dog" ++ nl ++ "pen" ++ nl ++ "car") None None 2) as (s & Hb & _ & _ & Hr & Hc & _ & _ & _ & _ & He);
      try reflexivity; try discriminate; try exact I; [lia|exact ex_dm_ok|]. exists s. split; [exact Hb|]. split; [exact Hr|]. split; [exact Hc|]. rewrite Hr in He.
    rewrite (He 0 0 "dog"), (He 0 1 "dog"), (He 1 1 "pen"), (He 2 0 "car") by (try reflexivity; lia). repeat split; apply Qceqb_eq; vm_compute; reflexivity.
Qed.
Example C46_bad_line : build (one_file "d.dm" ("car 3 5" ++ nl ++ "dog 1.0" ++ nl) no_files) (Some "d.dm") (Some "dm") None None = Err ValueError.
Proof. reflexivity. Qed.
End Ex.
