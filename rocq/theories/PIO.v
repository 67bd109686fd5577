(** PIO.v -- lemmas about reading indexing files. *)
From Coq Require Import Ascii.
From Verif Require Import Base PyList Dict Num Dense Sparse Matrix Scaling Linalg Operation Similarity Space Peripheral SpecSpace PSpace Prop_Periph Learner Composition Utils LexFun Str PStr SpecIO IO.
Local Open Scope string_scope.
Local Open Scope list_scope.
Local Open Scope nat_scope.

(** ** distinct *)
Lemma filter_comm {A} (p q : A -> bool) l : filter p (filter q l) = filter q (filter p l).
Proof. induction l as [|x l IH]; [reflexivity|]. cbn. destruct (p x) eqn:Hp, (q x) eqn:Hq; cbn; rewrite ?Hp, ?Hq, IH; reflexivity. Qed.
Lemma distinct_In w l : In w (distinct l) <-> In w l.
Proof.
  induction l as [|x l IH]; [reflexivity|]. cbn. rewrite filter_In, IH. destruct (String.eqb_spec x w) as [->|H]; [tauto|].
  split; [tauto|]. intros [K|K]; [contradiction|]. right. split; [exact K|]. reflexivity.
Qed.
Lemma distinct_NoDup l : NoDup (distinct l).
Proof.
  induction l as [|x l IH]; cbn; constructor; [|apply NoDup_filter, IH].
  rewrite filter_In, String.eqb_refl. intros (_ & H). discriminate.
Qed.
Lemma distinct_id l : NoDup l -> distinct l = l.
Proof.
  induction 1 as [|x l Hx Hl IH]; [reflexivity|]. cbn. rewrite IH. f_equal. clear IH Hl.
  induction l as [|y l IH]; [reflexivity|]. cbn. destruct (String.eqb_spec x y) as [->|H]; [exfalso; apply Hx; left; reflexivity|].
  cbn. f_equal. apply IH. intros K; apply Hx; right; exact K.
Qed.
Lemma distinct_snoc l x : distinct (l ++ [x]) = if existsb (String.eqb x) l then distinct l else distinct l ++ [x].
Proof.
  induction l as [|y l IH]; [reflexivity|]. cbn. rewrite IH. destruct (String.eqb_spec x y) as [->|H]; cbn.
  - destruct (existsb (String.eqb y) l); [reflexivity|]. rewrite filter_app. cbn. rewrite String.eqb_refl. cbn. rewrite app_nil_r. reflexivity.
  - destruct (existsb (String.eqb x) l); [reflexivity|]. rewrite filter_app. cbn. destruct (String.eqb_spec y x); [congruence|]. reflexivity.
Qed.
Lemma distinct_nil l : distinct l = [] <-> l = [].
Proof. destruct l; cbn; split; congruence. Qed.

(** ** numbered dictionaries *)
Lemma numbered_snoc l x : numbered (l ++ [x]) = numbered l ++ [(x, Z.of_nat (length l))].
Proof. rewrite numbered_app. cbn. rewrite Z.add_0_r. reflexivity. Qed.
Lemma dmem_numbered l x : dmem (numbered l) x = existsb (String.eqb x) l.
Proof.
  destruct (existsb (String.eqb x) l) eqn:E.
  - apply dmem_In. rewrite numbered_keys. apply existsb_exists in E. destruct E as (y & Hy & E). apply String.eqb_eq in E. subst; assumption.
  - apply dmem_false. rewrite numbered_keys. intros H. rewrite <- not_true_iff_false in E. apply E. apply existsb_exists. exists x. split; [exact H|apply String.eqb_refl].
Qed.
Lemma existsb_distinct x l : existsb (String.eqb x) (distinct l) = existsb (String.eqb x) l.
Proof.
  apply eq_true_iff_eq. rewrite !existsb_exists. split; intros (y & Hy & E); exists y; (split; [|exact E]); apply distinct_In; assumption.
Qed.
Lemma numbered_wf l : NoDup l -> dwf (numbered l).
Proof. intros H. unfold dwf. rewrite numbered_keys. exact H. Qed.
Lemma numbered_positional l : NoDup l -> positional l (numbered l).
Proof.
  intros H w k. rewrite dget_In_iff by (apply numbered_wf, H). unfold numbered. clear H.
  assert (G : forall s, In (w, k) (combine l (map Z.of_nat (seq s (length l)))) <-> exists p, k = Z.of_nat (s + p) /\ nth_error l p = Some w).
  { induction l as [|x l IH]; intros s; cbn [length seq map combine].
    - split; [intros []|intros (p & _ & K); destruct p; discriminate].
    - cbn [In]. rewrite IH. split.
      + intros [K|(p & -> & K)]; [injection K as -> <-; exists 0; split; [f_equal; lia|reflexivity]|exists (S p); split; [f_equal; lia|exact K]].
      + intros ([|p] & -> & K); [left; injection K as ->; f_equal; f_equal; lia|right; exists p; split; [f_equal; lia|exact K]]. }
  exact (G 0).
Qed.
Lemma numbered_inverse l : NoDup l -> mutually_inverse l (numbered l).
Proof.
  intros H. split; [exact H|]. split; [apply numbered_length|]. split; [intros w; rewrite numbered_keys; reflexivity|].
  intros w k Hk. apply numbered_positional in Hk; [|exact H]. destruct Hk as (p & -> & K). exists p. split; [|exact K].
  split; [apply nth_error_Some; congruence|left; reflexivity].
Qed.

(** ** extract_indexing_structs *)
Section Ix.
Definition ixval (vs : list string) : ixst := (numbered (distinct vs), distinct vs, Z.of_nat (length (distinct vs))).

Lemma py_nth_field (r : list string) f : (0 <= f)%Z -> (f < Z.of_nat (length r))%Z -> py_nth r f = Ok (fieldz f r).
Proof.
  intros H0 H1. rewrite <- (Z2Nat.id f) at 1 by assumption. rewrite py_nth_index, py_index_nat by lia.
  rewrite (nth_error_nth' r "") by lia. reflexivity.
Qed.
Lemma ix_step_val r f vs : (0 <= f)%Z -> (f < Z.of_nat (length r))%Z -> ix_step r f (ixval vs) = Ok (ixval (vs ++ [fieldz f r])).
Proof.
  intros H0 H1. unfold ix_step. rewrite py_nth_field by assumption. cbn [bind]. unfold ixval.
  rewrite dmem_numbered, existsb_distinct, distinct_snoc.
  destruct (existsb (String.eqb (fieldz f r)) vs) eqn:E; [reflexivity|].
  rewrite dset_new by (rewrite dmem_numbered, existsb_distinct; exact E). rewrite numbered_snoc, app_length. cbn [length]. do 2 f_equal. lia.
Qed.
Lemma zmax_spec l m : zmax l = Ok m -> forall n, forallb (fun f => (f <? n)%Z) l = (m <? n)%Z.
Proof.
  destruct l as [|x l]; [discriminate|]. cbn [zmax]. intros K n. injection K as <-. revert x. induction l as [|y l IH]; intros x; cbn [forallb fold_left].
  - apply andb_true_r.
  - rewrite <- IH. cbn [forallb]. rewrite andb_assoc. f_equal. apply eq_true_iff_eq. rewrite andb_true_iff, !Z.ltb_lt. lia.
Qed.
Lemma ix_line_val fields m rs line : zmax fields = Ok m -> Forall (fun f => (0 <= f)%Z) fields ->
  ix_line fields m (map (fun f => ixval (map (fieldz f) rs)) fields) line =
  Ok (map (fun f => ixval (map (fieldz f) (rs ++ (if nonblank (split line) && long fields (split line) then [split line] else [])))) fields).
Proof.
  intros Hm Hf. unfold ix_line. rewrite strip_emptyb, split_strip. destruct (split line) as [|w ws] eqn:Es.
  - cbn. rewrite app_nil_r. reflexivity.
  - rewrite <- Es at 1. rewrite Es. cbn [nonblank andb]. unfold long. rewrite (zmax_spec _ _ Hm).
    destruct (m <? _)%Z eqn:El.
    + replace (_ <=? m)%Z with false by (symmetry; apply Z.leb_gt; apply Z.ltb_lt in El; lia).
      assert (Hl : Forall (fun f => (0 <= f < Z.of_nat (length (w :: ws)))%Z) fields).
      { pose proof (zmax_spec _ _ Hm (Z.of_nat (length (w :: ws)))) as K. rewrite El in K. rewrite forallb_forall in K. rewrite Forall_forall in *.
        intros f Hin. split; [auto|]. apply Z.ltb_lt, K, Hin. }
      clear -Hl. remember (w :: ws) as r eqn:Er. clear Er. induction Hl as [|f fields Hf Hl IH]; [reflexivity|]. cbn [map combine mapM fst snd].
      rewrite ix_step_val by tauto. cbn [bind]. rewrite IH. cbn [bind]. rewrite map_app. reflexivity.
    + replace (_ <=? m)%Z with true by (symmetry; apply Z.leb_le; apply Z.ltb_ge in El; lia). rewrite app_nil_r. reflexivity.
Qed.
Lemma filter_filter_and {A} (p q : A -> bool) l : filter q (filter p l) = filter (fun x => p x && q x) l.
Proof. induction l as [|x l IH]; [reflexivity|]. cbn. destruct (p x); cbn; [destruct (q x); rewrite IH; reflexivity|exact IH]. Qed.
Lemma ix_fold fields m ls : zmax fields = Ok m -> Forall (fun f => (0 <= f)%Z) fields -> forall rs,
  foldM (ix_line fields m) ls (map (fun f => ixval (map (fieldz f) rs)) fields) =
  Ok (map (fun f => ixval (map (fieldz f) (rs ++ filter (long fields) (filter nonblank (map split ls))))) fields).
Proof.
  intros Hm Hf. induction ls as [|l ls IH]; intros rs; cbn [foldM map].
  - cbn. rewrite app_nil_r. reflexivity.
  - rewrite ix_line_val by assumption. cbn [bind]. rewrite IH. do 2 f_equal. 
    rewrite <- app_assoc. f_equal. f_equal. f_equal. f_equal. cbn [filter]. destruct (nonblank (split l)); cbn [andb]; [|reflexivity]. cbn [filter].
    destruct (long fields (split l)); reflexivity.
Qed.
Lemma extract_eq text fields : fields <> [] -> Forall (fun f => (0 <= f)%Z) fields ->
  let rs := filter (long fields) (records text) in
  extract_indexing_structs text fields =
    match rs with
    | [] => Err ValueError
    | _ => Ok (map (fun f => distinct (map (fieldz f) rs)) fields, map (fun f => numbered (distinct (map (fieldz f) rs))) fields)
    end.
Proof.
  intros Hne Hf rs. unfold extract_indexing_structs. destruct (zmax fields) as [m|e] eqn:Hm; [|destruct fields; [congruence|discriminate]].
  cbn [bind]. change (map (fun _ : Z => ([], [], 0%Z)) fields) with (map (fun f => ixval (map (fieldz f) [])) fields).
  rewrite (ix_fold _ _ _ Hm Hf). cbn [bind app]. fold (records text). fold rs. rewrite !map_map. cbn [ixval fst snd].
  destruct rs as [|r rs'] eqn:Er.
  - destruct fields as [|f fields]; [congruence|]. reflexivity.
  - replace (forallb _ _) with true; [reflexivity|]. symmetry. apply forallb_forall. intros st Hin. apply in_map_iff in Hin. destruct Hin as (f & <- & _). reflexivity.
Qed.
Lemma long0 r : long [0%Z] r = nonblank r.
Proof. destruct r; reflexivity. Qed.
Lemma extract0_eq text : extract_indexing0 text = match vocabulary text with [] => Err ValueError | l => Ok (l, numbered l) end.
Proof.
  unfold extract_indexing0. rewrite extract_eq; [|discriminate|repeat constructor; lia].
  assert (K : filter (long [0%Z]) (records text) = records text).
  { unfold records. rewrite filter_filter_and. apply filter_ext. intros r. rewrite long0. destruct (nonblank r); reflexivity. }
  rewrite K. unfold vocabulary. change (fieldz 0) with (field 0). destruct (records text) as [|r rs]; [reflexivity|]. cbn [bind map]. reflexivity.
Qed.
Lemma vocabulary_NoDup text : NoDup (vocabulary text).
Proof. apply distinct_NoDup. Qed.
End Ix.

(** a fold over the lines that appends something for every record *)
Lemma foldM_records {B} (f : list B -> string -> res (list B)) (k : list string -> res (list B)) ls :
  (forall acc l, f acc l = if nonblank (split l) then let* x := k (split l) in Ok (acc ++ x) else Ok acc) ->
  forall acc, foldM f ls acc = let* xs := mapM k (filter nonblank (map split ls)) in Ok (acc ++ concat xs).
Proof.
  intros H. induction ls as [|l ls IH]; intros acc; cbn [foldM map filter mapM bind concat].
  - rewrite app_nil_r. reflexivity.
  - rewrite H. destruct (nonblank (split l)); [|cbn [bind]; apply IH]. cbn [mapM]. destruct (k (split l)) as [x|e]; [|reflexivity]. cbn [bind].
    rewrite IH. destruct (mapM k _) as [xs|e]; [|reflexivity]. cbn [bind concat]. rewrite app_assoc. reflexivity.
Qed.
Lemma mapM_err_in {A B} (f : A -> res B) l e : (forall x, In x l -> (exists y, f x = Ok y) \/ f x = Err e) -> (exists x, In x l /\ f x = Err e) -> mapM f l = Err e.
Proof.
  induction l as [|x l IH]; intros H (y & Hy & Ey); [contradiction|]. cbn [mapM]. destruct (H x (or_introl eq_refl)) as [(z & Hz)|Hz].
  - rewrite Hz. cbn [bind]. rewrite IH; [reflexivity|intros; apply H; right; assumption|]. destruct Hy as [->|Hy]; [congruence|eauto].
  - rewrite Hz. reflexivity.
Qed.
Lemma mapM_same {A B} (f g : A -> res B) l : (forall x, In x l -> f x = g x) -> mapM f l = mapM g l.
Proof. induction l as [|x l IH]; intros H; [reflexivity|]. cbn. rewrite H by (left; reflexivity). rewrite IH by (intros; apply H; right; assumption). reflexivity. Qed.
Lemma concat_map_flat {A B} (g : A -> list B) l : concat (map g l) = flat_map g l.
Proof. induction l as [|x l IH]; [reflexivity|]. cbn. rewrite IH. reflexivity. Qed.

Lemma dget_numbered l w k : NoDup l -> (dget (numbered l) w = Some k <-> exists p, k = Z.of_nat p /\ nth_error l p = Some w).
Proof. intros H. apply (numbered_positional l H w k). Qed.
Lemma dget_numbered_none l w : dget (numbered l) w = None <-> ~ In w l.
Proof. rewrite dget_None, numbered_keys. reflexivity. Qed.
(** position of a word in a list *)
Fixpoint posn (l : list string) (w : string) : nat := match l with [] => 0 | x :: r => if String.eqb x w then 0 else S (posn r w) end.
Lemma posn_lt l w : In w l -> posn l w < length l.
Proof. induction l as [|x l IH]; [intros []|]. cbn. destruct (String.eqb_spec x w); [lia|]. intros [K|K]; [contradiction|]. apply IH in K. lia. Qed.
Lemma posn_nth l w : In w l -> nth_error l (posn l w) = Some w.
Proof. induction l as [|x l IH]; [intros []|]. cbn. destruct (String.eqb_spec x w) as [->|]; [reflexivity|]. intros [K|K]; [contradiction|]. apply IH, K. Qed.
Lemma posn_eq l i w v : NoDup l -> In w l -> nth_error l i = Some v -> (posn l w = i <-> w = v).
Proof.
  intros Hn Hw Hi. split.
  - intros <-. rewrite posn_nth in Hi by assumption. congruence.
  - intros ->. rewrite NoDup_nth_error in Hn. apply Hn; [apply posn_lt; assumption|]. rewrite posn_nth by assumption. symmetry; assumption.
Qed.
Lemma dget_numbered_pos l w : NoDup l -> In w l -> dget (numbered l) w = Some (Z.of_nat (posn l w)).
Proof. intros H K. apply dget_numbered; [assumption|]. exists (posn l w). split; [reflexivity|apply posn_nth, K]. Qed.
Lemma in_dec_s (w : string) l : {In w l} + {~ In w l}.
Proof. apply in_dec, string_dec. Qed.

Section Sm.
Context {N : Num} {E : Ext} {FI : FloatIO}.
Lemma parse_num_ok s : is_num s -> parse_num s = Ok (num s).
Proof. intros (x & H). unfold parse_num, num. rewrite H. reflexivity. Qed.
Lemma parse_num_err s : ~ is_num s -> parse_num s = Err ValueError.
Proof. intros H. unfold parse_num. destruct (fparse s) eqn:K; [|reflexivity]. exfalso. apply H. exists f; assumption. Qed.
Lemma is_num_dec s : {is_num s} + {~ is_num s}.
Proof. unfold is_num. destruct (fparse s) as [x|]; [left; eauto|right; intros (x & H); discriminate]. Qed.

Lemma sm_ok_dec R C r : {sm_ok R C r} + {~ sm_ok R C r}.
Proof.
  unfold sm_ok. destruct (le_dec 3 (length r)); [|right; tauto].
  destruct (in_dec_s (field 0 r) R); [|left; tauto]. destruct (in_dec_s (field 1 r) C); [|left; tauto]. destruct (is_num_dec (field 2 r)); [left|right]; tauto.
Qed.
Definition sm_rec (r2i c2i : dict Z) (r : list string) : res (list (Z * Z * F)) :=
  match r with
  | w1 :: w2 :: count :: _ =>
      match dget r2i w1, dget c2i w2 with
      | Some i, Some j => let* x := parse_num count in Ok [(i, j, x)]
      | _, _ => Ok []
      end
  | _ => Err ValueError
  end.
Definition sm_ent (R C : list string) (r : list string) : list (Z * Z * F) :=
  if in_dec_s (field 0 r) R then if in_dec_s (field 1 r) C then [(Z.of_nat (posn R (field 0 r)), Z.of_nat (posn C (field 1 r)), num (field 2 r))] else [] else [].
Lemma sm_rec_ok R C r : NoDup R -> NoDup C -> sm_ok R C r -> sm_rec (numbered R) (numbered C) r = Ok (sm_ent R C r).
Proof.
  intros HR HC (Hl & Hn). destruct r as [|w1 [|w2 [|c r]]]; cbn in Hl; try lia. unfold sm_rec, sm_ent, field in *. cbn [nth] in *.
  destruct (in_dec_s w1 R) as [K1|K1]; [rewrite dget_numbered_pos by assumption|apply dget_numbered_none in K1; rewrite K1; reflexivity].
  destruct (in_dec_s w2 C) as [K2|K2]; [rewrite dget_numbered_pos by assumption|apply dget_numbered_none in K2; rewrite K2; reflexivity].
  rewrite parse_num_ok by auto. reflexivity.
Qed.
Lemma sm_rec_err R C r : NoDup R -> NoDup C -> ~ sm_ok R C r -> sm_rec (numbered R) (numbered C) r = Err ValueError.
Proof.
  intros HR HC H. unfold sm_ok in H. destruct r as [|w1 [|w2 [|c r]]]; try reflexivity. unfold sm_rec, field in *. cbn [nth length] in *.
  destruct (in_dec_s w1 R) as [K1|K1]; [rewrite dget_numbered_pos by assumption|exfalso; apply H; split; [lia|tauto]].
  destruct (in_dec_s w2 C) as [K2|K2]; [rewrite dget_numbered_pos by assumption|exfalso; apply H; split; [lia|tauto]].
  rewrite parse_num_err; [reflexivity|]. intros K. apply H. split; [lia|tauto].
Qed.
Lemma sparse_line_rec r2i c2i acc l : sparse_line r2i c2i acc l = if nonblank (split l) then let* x := sm_rec r2i c2i (split l) in Ok (acc ++ x) else Ok acc.
Proof.
  unfold sparse_line. rewrite strip_emptyb, split_strip. destruct (split l) as [|w1 [|w2 [|c r]]]; try reflexivity. cbn [nonblank sm_rec].
  destruct (dget r2i w1) as [i|]; [destruct (dget c2i w2) as [j|]|]; cbn [bind]; rewrite ?app_nil_r; try reflexivity.
  destruct (parse_num c); reflexivity.
Qed.
Definition coo_of (R C : list string) (r : list string) : list (nat * nat * F) :=
  if in_dec_s (field 0 r) R then if in_dec_s (field 1 r) C then [(posn R (field 0 r), posn C (field 1 r), num (field 2 r))] else [] else [].
Lemma coo_check_all R C rs : mapM (coo_check (length R) (length C)) (flat_map (sm_ent R C) rs) = Ok (flat_map (coo_of R C) rs).
Proof.
  induction rs as [|r rs IH]; [reflexivity|]. cbn [flat_map]. rewrite mapM_app, IH. unfold sm_ent, coo_of.
  destruct (in_dec_s (field 0 r) R) as [K1|]; [|reflexivity]. destruct (in_dec_s (field 1 r) C) as [K2|]; [|reflexivity].
  cbn [mapM coo_check]. pose proof (posn_lt _ _ K1). pose proof (posn_lt _ _ K2).
  replace (_ && _ && _ && _)%bool with true; [cbn; rewrite !Nat2Z.id; reflexivity|].
  symmetry. rewrite !andb_true_iff, !Z.leb_le, !Z.ltb_lt. lia.
Qed.
Lemma coo_val_counts R C i j w1 w2 rs : NoDup R -> NoDup C -> nth_error R i = Some w1 -> nth_error C j = Some w2 ->
  coo_val (flat_map (coo_of R C) rs) i j = suml (map num (map (field 2) (filter (fun r => String.eqb (field 0 r) w1 && String.eqb (field 1 r) w2) rs))).
Proof.
  intros HR HC Hi Hj. unfold coo_val. f_equal. induction rs as [|r rs IH]; [reflexivity|]. cbn [flat_map filter].
  rewrite filter_app, map_app, IH. clear IH.
  assert (K : map snd (filter (fun e : nat * nat * F => Nat.eqb (fst (fst e)) i && Nat.eqb (snd (fst e)) j) (coo_of R C r)) =
              if String.eqb (field 0 r) w1 && String.eqb (field 1 r) w2 then [num (field 2 r)] else []).
  { unfold coo_of. destruct (in_dec_s (field 0 r) R) as [K1|K1].
    - destruct (in_dec_s (field 1 r) C) as [K2|K2].
      + cbn [filter fst snd]. replace (Nat.eqb (posn R (field 0 r)) i) with (String.eqb (field 0 r) w1).
        * replace (Nat.eqb (posn C (field 1 r)) j) with (String.eqb (field 1 r) w2); [destruct (_ && _)%bool; reflexivity|].
          apply eq_true_iff_eq. rewrite String.eqb_eq, Nat.eqb_eq. symmetry. apply posn_eq; assumption.
        * apply eq_true_iff_eq. rewrite String.eqb_eq, Nat.eqb_eq. symmetry. apply posn_eq; assumption.
      + destruct (String.eqb_spec (field 1 r) w2) as [Ew|]; [|rewrite andb_false_r; reflexivity]. exfalso. apply K2. rewrite Ew. eapply nth_error_In; eassumption.
    - destruct (String.eqb_spec (field 0 r) w1) as [Ew|]; [|reflexivity]. exfalso. apply K1. rewrite Ew. eapply nth_error_In; eassumption. }
  rewrite K. destruct (_ && _)%bool; reflexivity.
Qed.
Lemma read_sparse_eq dt R C : NoDup R -> NoDup C -> R <> [] -> C <> [] -> Forall (sm_ok R C) (records dt) ->
  read_sparse_space_data dt (numbered R) (numbered C) = Ok (MS (csr_of_coo (length R) (length C) (flat_map (coo_of R C) (records dt)))).
Proof.
  intros HR HC NR NC H. unfold read_sparse_space_data. rewrite (foldM_records _ (sm_rec (numbered R) (numbered C)) _ (sparse_line_rec _ _)). fold (records dt).
  rewrite (mapM_all_ok _ (sm_ent R C)) by (rewrite Forall_forall in H; intros r Hr; apply sm_rec_ok; auto). cbn [bind app].
  rewrite !numbered_length, concat_map_flat. destruct R as [|r0 R]; [congruence|]. destruct C as [|c0 C]; [congruence|]. cbn [length Nat.eqb negb andb check bind].
  change (S (length R)) with (length (r0 :: R)). change (S (length C)) with (length (c0 :: C)). rewrite coo_check_all. reflexivity.
Qed.
Lemma read_sparse_err dt R C : NoDup R -> NoDup C -> ~ Forall (sm_ok R C) (records dt) ->
  read_sparse_space_data dt (numbered R) (numbered C) = Err ValueError.
Proof.
  intros HR HC H. unfold read_sparse_space_data. rewrite (foldM_records _ (sm_rec (numbered R) (numbered C)) _ (sparse_line_rec _ _)). fold (records dt).
  rewrite (mapM_err_in _ _ ValueError); [reflexivity| |].
  - intros r _. destruct (sm_ok_dec R C r); [left; eexists; apply sm_rec_ok; assumption|right; apply sm_rec_err; assumption].
  - apply neg_Forall_Exists_neg in H; [|apply sm_ok_dec]. apply Exists_exists in H. destruct H as (r & Hr & Hn). exists r. split; [exact Hr|apply sm_rec_err; assumption].
Qed.
End Sm.

(** ** dense files *)
Section Dm.
Context {N : Num} {E : Ext} {FI : FloatIO}.
Lemma find_app_ {A} (p : A -> bool) a b : find p (a ++ b) = match find p a with Some x => Some x | None => find p b end.
Proof. induction a as [|x a IH]; [reflexivity|]. cbn. destruct (p x); [reflexivity|exact IH]. Qed.
Lemma find_map_none rs w : first_record rs w = None <-> ~ In w (map (field 0) rs).
Proof.
  induction rs as [|r rs IH]; cbn; [tauto|]. destruct (String.eqb_spec (field 0 r) w) as [Ew|Ew]; [|tauto]. split; [discriminate|tauto].
Qed.
Lemma mapM_parse xs : Forall is_num xs -> mapM parse_num xs = Ok (map num xs).
Proof. intros H. apply mapM_all_ok. rewrite Forall_forall in H. intros x Hx. apply parse_num_ok, H, Hx. Qed.
Lemma mapM_parse_err xs : ~ Forall is_num xs -> mapM parse_num xs = Err ValueError.
Proof.
  intros H. apply mapM_err_in.
  - intros x _. destruct (is_num_dec x); [left; eexists; apply parse_num_ok; assumption|right; apply parse_num_err; assumption].
  - apply neg_Forall_Exists_neg in H; [|apply is_num_dec]. apply Exists_exists in H. destruct H as (x & Hx & Hn). exists x. split; [exact Hx|apply parse_num_err, Hn].
Qed.
Definition dinv (R : list string) (rs : list (list string)) (st : list (nat * list F) * list string) : Prop :=
  (forall w, existsb (String.eqb w) (snd st) = true <-> In w R /\ In w (map (field 0) rs)) /\
  (forall i w, nth_error R i = Some w -> assigned (fst st) i = match first_record rs w with Some r => map num (tl r) | None => [] end).
Lemma dinv_skip R rs st r : dinv R rs st -> (In (field 0 r) R -> In (field 0 r) (map (field 0) rs)) -> dinv R (rs ++ [r]) st.
Proof.
  intros (H1 & H2) Hr. split.
  - intros w. rewrite H1, map_app, in_app_iff. cbn. split; [tauto|]. intros (Hw & [K|[<-|[]]]); tauto.
  - intros i w Hw. rewrite (H2 i w Hw). unfold first_record. rewrite find_app_. fold (first_record rs w). destruct (first_record rs w) eqn:Ef; [reflexivity|].
    cbn. destruct (String.eqb_spec (field 0 r) w) as [Ew|]; [|reflexivity]. exfalso. apply find_map_none in Ef. apply Ef. rewrite <- Ew. apply Hr. rewrite Ew. eapply nth_error_In; eassumption.
Qed.
Lemma dinv_add R rs m seen r : NoDup R -> dinv R rs (m, seen) -> In (field 0 r) R -> ~ In (field 0 r) (map (field 0) rs) ->
  dinv R (rs ++ [r]) ((posn R (field 0 r), map num (tl r)) :: m, field 0 r :: seen).
Proof.
  intros HR (H1 & H2) Hin Hno. cbn [fst snd] in *. split; cbn [fst snd].
  - intros w. cbn [existsb]. rewrite orb_true_iff, H1, String.eqb_eq, map_app, in_app_iff. cbn. split.
    + intros [->|K]; [split; [exact Hin|auto]|tauto].
    + intros (Hw & [K|[<-|[]]]); tauto.
  - intros i w Hw. cbn [assigned]. unfold first_record. rewrite find_app_. fold (first_record rs w). cbn [find].
    pose proof (posn_eq R i (field 0 r) w HR Hin Hw) as Hp. destruct (Nat.eqb_spec i (posn R (field 0 r))) as [Ei|Ei].
    + assert (Ew : field 0 r = w) by (apply Hp; auto). rewrite <- Ew. apply find_map_none in Hno. rewrite Hno, String.eqb_refl. reflexivity.
    + rewrite (H2 i w Hw). destruct (first_record rs w); [reflexivity|]. destruct (String.eqb_spec (field 0 r) w) as [Ew|]; [|reflexivity]. exfalso. apply Ei. symmetry. apply Hp, Ew.
Qed.
Lemma dense_line_blank n nr r2i st l : nonblank (split l) = false -> dense_line n nr r2i st l = Ok st.
Proof. intros H. unfold dense_line. rewrite strip_emptyb. destruct (split l); [reflexivity|discriminate]. Qed.
Lemma dense_line_cases R n rs st l : NoDup R -> nonblank (split l) = true -> dinv R rs st ->
  let r := split l in
  (length r = n + 1 /\ (In (field 0 r) R -> ~ In (field 0 r) (map (field 0) rs) -> Forall is_num (tl r)) /\
   exists st', dense_line n (length R) (numbered R) st l = Ok st' /\ dinv R (rs ++ [r]) st') \/
  ((length r <> n + 1 \/ (In (field 0 r) R /\ ~ In (field 0 r) (map (field 0) rs) /\ ~ Forall is_num (tl r))) /\
   dense_line n (length R) (numbered R) st l = Err ValueError).
Proof.
  intros HR Hb Hi r. destruct st as [m seen]. unfold dense_line. rewrite strip_emptyb, split_strip. fold r. destruct r as [|w rest] eqn:Er; [subst r; rewrite Er in Hb; discriminate|].
  assert (Hf : field 0 (w :: rest) = w) by reflexivity. rewrite Hf. cbn [tl]. change (match w :: rest with [] => true | _ :: _ => false end) with false. cbv iota.
  destruct (Nat.eqb_spec (length (w :: rest)) (n + 1)) as [Hl|Hl]; cbn [check bind]; [|right; split; [left; exact Hl|reflexivity]].
  destruct (in_dec_s w R) as [K|K].
  - rewrite dget_numbered_pos by assumption. destruct (existsb (String.eqb w) seen) eqn:Es.
    + assert (K2 : In w (map (field 0) rs)) by (apply (proj1 Hi w), Es). left. split; [exact Hl|]. split; [tauto|]. exists (m, seen). split; [reflexivity|]. apply dinv_skip; [exact Hi|auto].
    + assert (K2 : ~ In w (map (field 0) rs)). { intros K2. assert (existsb (String.eqb w) seen = true) by (apply (proj1 Hi w); split; assumption). congruence. }
      pose proof (posn_lt _ _ K). rewrite py_index_nat by assumption. cbn [bind]. destruct (Forall_dec _ is_num_dec rest) as [Hn|Hn].
      * rewrite mapM_parse by assumption. cbn [bind]. left. split; [exact Hl|]. split; [auto|]. eexists. split; [reflexivity|]. apply (dinv_add R rs m seen (w :: rest)); assumption.
      * rewrite mapM_parse_err by assumption. right. split; [right; auto|reflexivity].
  - pose proof K as K'. apply dget_numbered_none in K'. rewrite K'. left. split; [exact Hl|]. split; [tauto|]. exists (m, seen). split; [reflexivity|]. apply dinv_skip; [exact Hi|]. rewrite Hf. tauto.
Qed.
Lemma dm_ok_snoc R n rs r : dm_ok R n rs -> (dm_ok R n (rs ++ [r]) <-> length r = n + 1 /\ (In (field 0 r) R -> ~ In (field 0 r) (map (field 0) rs) -> Forall is_num (tl r))).
Proof.
  intros (H1 & H2). unfold dm_ok. rewrite Forall_app. split.
  - intros ((_ & A) & B). inversion A; subst. split; [assumption|]. intros K1 K2. apply (B (field 0 r)); [exact K1|].
    unfold first_record. rewrite find_app_. apply find_map_none in K2. unfold first_record in K2. rewrite K2. cbn. rewrite String.eqb_refl. reflexivity.
  - intros (A & B). split; [split; [assumption|repeat constructor; assumption]|]. intros w r' Hw. unfold first_record. rewrite find_app_. fold (first_record rs w).
    destruct (first_record rs w) eqn:Ef; [intros K; injection K as <-; eauto|]. cbn. destruct (String.eqb_spec (field 0 r) w) as [Ew|]; [|discriminate].
    intros K; injection K as <-. apply B; rewrite Ew; [exact Hw|]. apply find_map_none, Ef.
Qed.
Lemma dm_ok_prefix R n a b : dm_ok R n (a ++ b) -> dm_ok R n a.
Proof.
  intros (H1 & H2). split; [apply Forall_app in H1; tauto|]. intros w r Hw Hf. apply (H2 w r Hw). unfold first_record in *. rewrite find_app_, Hf. reflexivity.
Qed.
Lemma dense_fold R n ls : NoDup R -> forall rs st, dinv R rs st -> dm_ok R n rs ->
  let all := rs ++ filter nonblank (map split ls) in
  (dm_ok R n all /\ exists st', foldM (dense_line n (length R) (numbered R)) ls st = Ok st' /\ dinv R all st') \/
  (~ dm_ok R n all /\ foldM (dense_line n (length R) (numbered R)) ls st = Err ValueError).
Proof.
  intros HR. induction ls as [|l ls IH]; intros rs st Hi Hok; cbn [map filter foldM].
  - rewrite app_nil_r. left. split; [exact Hok|]. eauto.
  - destruct (nonblank (split l)) eqn:Hb.
    + destruct (dense_line_cases R n rs st l HR Hb Hi) as [(A & B & st' & Hl & Hi')|(A & Hl)]; rewrite Hl; cbn [bind].
      * assert (Hok' : dm_ok R n (rs ++ [split l])) by (apply dm_ok_snoc; auto). specialize (IH _ _ Hi' Hok'). rewrite <- app_assoc in IH. exact IH.
      * right. split; [|reflexivity]. intros K. change (split l :: filter nonblank (map split ls)) with ([split l] ++ filter nonblank (map split ls)) in K.
        rewrite app_assoc in K. apply dm_ok_prefix in K. apply dm_ok_snoc in K; [|exact Hok]. destruct K as (K1 & K2). destruct A as [A|(A1 & A2 & A3)]; [contradiction|auto].
    + rewrite dense_line_blank by assumption. cbn [bind]. apply IH; assumption.
Qed.
Lemma dinv_init R : dinv R [] ([], []).
Proof. split; cbn; [intros w; split; [discriminate|tauto]|reflexivity]. Qed.
Lemma dm_ok_nil R n : dm_ok R n [].
Proof. split; [constructor|discriminate]. Qed.

Lemma read_dense_eq dt R n : NoDup R -> first_line_fields dt = Some (S n) -> 0 < n -> dm_ok R n (records dt) ->
  read_dense_space_data dt (numbered R) = Ok (MD (tab (length R) n (dm_entry (records dt) R))).
Proof.
  intros HR Hf Hn Hok. unfold read_dense_space_data, first_line_fields in *. destruct (flines dt) as [|l ls] eqn:El; [discriminate|]. injection Hf as Hf.
  rewrite split_strip, Hf, numbered_length. cbn [Nat.sub]. rewrite Nat.sub_0_r. destruct (Nat.eqb_spec n 0); [lia|]. cbn [negb check bind].
  destruct (dense_fold R n (l :: ls) HR [] ([], []) (dinv_init R) (dm_ok_nil R n)) as [(_ & [m seen] & Hm & Hi)|(K & _)].
  - rewrite Hm. cbn [bind]. do 2 f_equal. apply tab_ext. intros i j Hi' Hj. unfold dm_entry. destruct Hi as (_ & H2).
    specialize (H2 i (nth i R "") (nth_error_nth' R "" Hi')). cbn [fst app] in H2. rewrite H2. unfold records. rewrite El.
    destruct (first_record _ (nth i R "")) as [r|] eqn:Er; [|destruct j; reflexivity].
    unfold field. destruct r as [|w rest].
    + exfalso. unfold first_record in Er. apply find_some in Er. destruct Er as (K & _). apply filter_In in K. destruct K as (_ & K). discriminate.
    + cbn [tl nth]. change f0 with (@f0 N). assert (Hlen : j < length rest).
      { destruct Hok as (Hl & _). unfold records in Hl. rewrite El in Hl. rewrite Forall_forall in Hl. unfold first_record in Er. apply find_some in Er. destruct Er as (K & _). apply Hl in K. cbn in K. lia. }
      rewrite (nth_indep _ f0 (num "")) by (rewrite map_length; exact Hlen). apply map_nth.
  - exfalso. apply K. unfold records in Hok. rewrite El in Hok. exact Hok.
Qed.
Lemma read_dense_err dt R n : NoDup R -> first_line_fields dt = Some n -> ~ (2 <= n /\ dm_ok R (n - 1) (records dt)) ->
  read_dense_space_data dt (numbered R) = Err ValueError.
Proof.
  intros HR Hf Hno. unfold read_dense_space_data, first_line_fields in *. destruct (flines dt) as [|l ls] eqn:El; [discriminate|]. injection Hf as Hf.
  rewrite split_strip, Hf, numbered_length. destruct (Nat.eqb_spec (n - 1) 0); [reflexivity|]. cbn [negb check bind].
  destruct (dense_fold R (n - 1) (l :: ls) HR [] ([], []) (dinv_init R) (dm_ok_nil R (n - 1))) as [(K & _)|(_ & Hm)].
  - exfalso. apply Hno. split; [lia|]. unfold records. rewrite El. exact K.
  - rewrite Hm. reflexivity.
Qed.
Lemma read_dense_empty R : read_dense_space_data "" R = Err StopIteration.
Proof. reflexivity. Qed.
End Dm.
