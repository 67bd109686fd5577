(** PConc.v -- programs on a shared disk: agreement with Crash.v, confinement, independence of the schedule. *)
From Coq Require Import Ascii FunctionalExtensionality.
From Verif Require Import Base PyList Dict Num Dense Sparse Matrix Scaling Linalg Operation Similarity Space Peripheral Learner Composition Utils LexFun Str PStr IO Pipe Crash SpecCrash PCrash PCrash2 Conc.
Local Open Scope string_scope.
Local Open Scope list_scope.
Local Open Scope nat_scope.

Section PConc.
Context {N : Num} {E : Ext} {FI : FloatIO} {PI : PipeIO} {KI : PickleIO}.

(** ** a program that is alone *)
Definition finish (fs : fsys) (t : list event * res unit) : tr fsys :=
  (fst t, match snd t with Ok _ => Ok (replay fs (fst t)) | Err e => Err e end).
Definition refines (P : prog unit) (t : fsys -> tr fsys) : Prop := forall fs, t fs = finish fs (alone P fs).
Definition answers {A} (P : prog A) (r : fsys -> res A) : Prop := forall fs, alone P fs = ([], r fs).
Lemma alone_bind {A B} (m : prog A) (k : A -> prog B) : forall fs, alone (pbind m k) fs =
  match snd (alone m fs) with
  | Ok a => (fst (alone m fs) ++ fst (alone (k a) (replay fs (fst (alone m fs)))), snd (alone (k a) (replay fs (fst (alone m fs)))))
  | Err e => (fst (alone m fs), Err e) end.
Proof.
  induction m as [a|e|X f c IH|f c IH]; intros fs; cbn [pbind alone fst snd app replay fold_left].
  - apply surjective_pairing.
  - reflexivity.
  - destruct (f fs) as [x|e]; [apply IH|reflexivity].
  - destruct (f fs) as [l|e]; [|reflexivity]. cbn [fst snd]. rewrite !IH. destruct (snd (alone c (replay fs l))); cbn [fst snd]; [|reflexivity].
    rewrite !replay_app, app_assoc. reflexivity.
Qed.
Lemma answers_pure {A} (r : res A) : answers (pure r) (fun _ => r).
Proof. intros fs. destruct r; reflexivity. Qed.
Lemma answers_look {A} (f : fsys -> res A) : answers (look f) f.
Proof. intros fs. cbn. destruct (f fs); reflexivity. Qed.
Lemma answers_ret {A} (a : A) : answers (Ret a) (fun _ => Ok a).
Proof. intros fs. reflexivity. Qed.
Lemma answers_bind {A B} (m : prog A) r (k : A -> prog B) s : answers m r -> (forall a, answers (k a) (s a)) -> answers (pbind m k) (fun fs => let* a := r fs in s a fs).
Proof.
  intros H K fs. rewrite alone_bind, (H fs). cbn [fst snd]. destruct (r fs) as [a|e]; [|reflexivity]. change (replay fs []) with fs. rewrite (K a fs). reflexivity.
Qed.
Lemma answers_ext {A} (m : prog A) r s : (forall fs, r fs = s fs) -> answers m r -> answers m s.
Proof. intros H K fs. rewrite (K fs), H. reflexivity. Qed.
Lemma refines_ret : refines (Ret tt) (fun fs => lift (Ok fs)).
Proof. intros fs. reflexivity. Qed.
Lemma refines_raise e : refines (Raise e) (fun fs => lift (Err e)).
Proof. intros fs. reflexivity. Qed.
Lemma refines_ext P t u : (forall fs, t fs = u fs) -> refines P t -> refines P u.
Proof. intros H K fs. rewrite <- H. apply K. Qed.
Lemma refines_read {A} (m : prog A) r k t : answers m r -> (forall a, refines (k a) (t a)) -> refines (pbind m k) (fun fs => tbind (lift (r fs)) (fun a => t a fs)).
Proof.
  intros H K fs. rewrite alone_bind, (H fs). cbn [fst snd]. unfold tbind, lift. destruct (r fs) as [a|e]; [|reflexivity]. change (replay fs []) with fs.
  rewrite (K a fs). cbn [app]. rewrite <- !surjective_pairing. reflexivity.
Qed.
Lemma refines_pure {A} (r : res A) k t : (forall a, refines (k a) (t a)) -> refines (pbind (pure r) k) (fun fs => tbind (lift r) (fun a => t a fs)).
Proof. intros K. exact (refines_read (pure r) (fun _ => r) k t (answers_pure r) K). Qed.
Lemma refines_bind (m : prog unit) t k u : refines m t -> refines k u -> refines (pbind m (fun _ => k)) (fun fs => tbind (t fs) u).
Proof.
  intros H K fs. rewrite (H fs), alone_bind. unfold finish at 1. destruct (snd (alone m fs)) as [[]|e]; cbn [tbind fst snd]; [|reflexivity].
  rewrite (K (replay fs (fst (alone m fs)))). unfold finish. cbn [fst snd]. destruct (snd (alone k _)); [|reflexivity]. rewrite replay_app. reflexivity.
Qed.
Lemma refines_fold {A} (f : A -> prog unit) t l : (forall x, refines (f x) (fun fs => t fs x)) -> refines (p_fold f l) (fun fs => foldT t l fs).
Proof.
  intros H. induction l as [|x l IH]; [apply refines_ret|]. cbn [p_fold foldT]. apply (refines_bind (f x) (fun fs => t fs x) (p_fold f l) (foldT t l)); [apply H|exact IH].
Qed.
Lemma refines_act f t : (forall fs, t fs = match f fs with Ok l => (l, Ok (replay fs l)) | Err e => ([], Err e) end) -> refines (act f) t.
Proof. intros H fs. rewrite H. unfold act. cbn. destruct (f fs) as [l|e]; [|reflexivity]. unfold finish. cbn [fst snd]. rewrite app_nil_r. reflexivity. Qed.

(** *** writing *)
Lemma r_exists p : answers (p_exists p) (fun fs => Ok (exists_ fs p)).
Proof. apply answers_look. Qed.
Lemma r_mkdir p : refines (p_mkdir p) (fun fs => t_mkdir fs p).
Proof. apply refines_act. intros fs. unfold t_mkdir, mkdir. destruct (_ || _)%bool; reflexivity. Qed.
Lemma r_open p : refines (p_open p) (fun fs => t_open fs p).
Proof. apply refines_act. intros fs. unfold t_open, write_file. destruct (_ || _)%bool; reflexivity. Qed.
Lemma tb_ok {A B} (a : A) (k : A -> tr B) : tbind (lift (Ok a)) k = k a.
Proof. cbn. symmetry. apply surjective_pairing. Qed.
Lemma r_makedirs n : forall p, refines (p_makedirs n p) (fun fs => t_makedirs n fs p).
Proof.
  induction n as [|n IH]; intros p; [apply refines_raise|]. cbn [p_makedirs t_makedirs]. destruct (path_split p) as [h0 t0].
  destruct (if String.eqb t0 "" then path_split h0 else (h0, t0)) as [h t].
  apply (refines_bind _ (fun fs => if negb (String.eqb h "") && negb (String.eqb t "") && negb (exists_ fs h) then t_makedirs n fs h else lift (Ok fs)) (if String.eqb t "." then Ret tt else p_mkdir p) (fun fs => if String.eqb t "." then lift (Ok fs) else t_mkdir fs p)).
  - destruct (negb (String.eqb h "") && negb (String.eqb t "")); cbn [andb]; [|apply refines_ret].
    eapply refines_ext; [|apply (refines_read (p_exists h) _ (fun b : bool => if b then Ret tt else p_makedirs n h) (fun (b : bool) fs => if b then lift (Ok fs) else t_makedirs n fs h) (r_exists h))].
    + intros fs. cbv beta. rewrite tb_ok. destruct (exists_ fs h); reflexivity.
    + intros []; [apply refines_ret|apply IH].
  - destruct (String.eqb t "."); [apply refines_ret|apply r_mkdir].
Qed.
Lemma r_parents p : refines (p_parents p) (fun fs => t_parents fs p).
Proof.
  unfold p_parents, t_parents. cbv zeta. eapply refines_ext; [|apply (refines_read (p_exists (dirname p)) _ (fun b : bool => if b then Ret tt else p_makedirs (S (String.length (dirname p))) (dirname p)) (fun (b : bool) fs => if b then lift (Ok fs) else t_makedirs (S (String.length (dirname p))) fs (dirname p)) (r_exists (dirname p)))].
  - intros fs. cbv beta. rewrite tb_ok. destruct (exists_ fs (dirname p)); reflexivity.
  - intros []; [apply refines_ret|apply r_makedirs].
Qed.
Lemma r_put p s : refines (p_put p s) (fun fs => t_put fs p s).
Proof.
  intros fs. unfold p_put, t_put. revert fs. induction (list_ascii_of_string s) as [|c l IH]; intros fs; [reflexivity|]. cbn [p_fold map]. rewrite alone_bind. cbn [act alone fst snd app].
  specialize (IH (replay fs [Eput p c])). apply (f_equal fst) in IH as I1. apply (f_equal snd) in IH as I2. cbn [fst snd finish] in I1, I2. unfold finish. cbn [fst snd]. rewrite <- I1. f_equal.
  destruct (snd (alone (p_fold _ l) _)) as [[]|]; [|discriminate]. reflexivity.
Qed.
Lemma r_scan {A S} p (g : S -> A -> res (S * string)) l : forall st, refines (p_scan p g l st) (fun fs => t_scan p g l st fs).
Proof.
  induction l as [|x l IH]; intros st; [apply refines_ret|]. cbn [p_scan t_scan].
  apply (refines_pure (g st x) (fun y => let (st', s) := y in pbind (p_put p s) (fun _ => p_scan p g l st')) (fun y fs => let (st', s) := y in tbind (t_put fs p s) (t_scan p g l st'))).
  intros (st' & s). apply (refines_bind (p_put p s) (fun fs => t_put fs p s)); [apply r_put|apply IH].
Qed.
Lemma r_write {A S} p (g : S -> A -> res (S * string)) l st : refines (p_write p g l st) (fun fs => t_write fs p g l st).
Proof. apply (refines_bind (p_open p) (fun fs => t_open fs p)); [apply r_open|apply r_scan]. Qed.
Lemma r_dump p o : refines (p_dump p o) (fun fs => t_dump fs p o).
Proof.
  apply (refines_bind (p_open p) (fun fs => t_open fs p) _ (fun fs => tbind (t_put fs p (dump_bytes o)) (fun fs => ([Eseal p o], Ok (effect fs (Eseal p o)))))); [apply r_open|].
  apply (refines_bind (p_put p (dump_bytes o)) (fun fs => t_put fs p (dump_bytes o))); [apply r_put|]. apply refines_act. intros fs. reflexivity.
Qed.
Lemma r_save o p : refines (p_save o p) (fun fs => t_save fs o p).
Proof. apply (refines_bind (p_parents p) (fun fs => t_parents fs p) _ (fun fs => t_dump fs p o)); [apply r_parents|apply r_dump]. Qed.
Lemma r_print_sparse m r c p : refines (p_print_sparse m r c p) (fun fs => t_print_sparse fs m r c p).
Proof.
  unfold p_print_sparse, t_print_sparse.
  apply (refines_pure (check (negb (Nat.eqb (length c) 0)) ValueError) _ (fun _ fs => match m with MD d => _ | MS x => _ end)). intros _. destruct m as [d|x]; [apply r_write|].
  apply (refines_bind (p_open p) (fun fs => t_open fs p) _ (fun fs => tbind (lift (py_nth (s_ptr x) 1%Z)) (fun next_row => tbind (lift (py_nth r 0%Z)) (fun row => t_scan p (stored_cell x r c) (seq 0 (length (s_data x))) (0, next_row, row) fs)))); [apply r_open|].
  apply (refines_pure (py_nth (s_ptr x) 1%Z) _ (fun next_row fs => tbind (lift (py_nth r 0%Z)) (fun row => t_scan p (stored_cell x r c) (seq 0 (length (s_data x))) (0, next_row, row) fs))). intros nr.
  apply (refines_pure (py_nth r 0%Z) _ (fun row fs => t_scan p (stored_cell x r c) (seq 0 (length (s_data x))) (0, nr, row) fs)). intros row. apply r_scan.
Qed.
Lemma r_export s p f : refines (p_export s p f) (fun fs => t_export fs s p f).
Proof.
  unfold p_export, t_export. apply (refines_bind (p_parents p) (fun fs => t_parents fs p) _ (fun fs => tbind (match f with
              | None => lift (Ok fs)
              | Some f =>
                  if String.eqb f "dm" then t_print_dense fs (s_mat s) (s_id2row s) (p ++ ".dm")
                  else if String.eqb f "sm" then t_print_sparse fs (s_mat s) (s_id2row s) (s_id2col s) (p ++ ".sm")
                  else lift (Err ValueError)
              end) (fun fs => t_export_row_column fs s p))); [apply r_parents|].
  apply (refines_bind _ (fun fs => match f with
              | None => lift (Ok fs)
              | Some f =>
                  if String.eqb f "dm" then t_print_dense fs (s_mat s) (s_id2row s) (p ++ ".dm")
                  else if String.eqb f "sm" then t_print_sparse fs (s_mat s) (s_id2row s) (s_id2col s) (p ++ ".sm")
                  else lift (Err ValueError)
              end) _ (fun fs => t_export_row_column fs s p)).
  - destruct f as [f|]; [|apply refines_ret]. destruct (String.eqb f "dm"); [apply r_write|]. destruct (String.eqb f "sm"); [apply r_print_sparse|apply refines_raise].
  - unfold p_export_row_column, t_export_row_column. apply (refines_bind _ (fun fs => match s_col2id s with [] => lift (Ok fs) | _ => t_print_list fs (s_id2col s) (p ++ ".cols") end) _ (fun fs => t_print_list fs (s_id2row s) (p ++ ".rows"))); [|apply r_write].
    destruct (s_col2id s); [apply refines_ret|apply r_write].
Qed.
Lemma r_save_export s out fmt : refines (p_save_export s out fmt) (fun fs => t_save_export fs s out fmt).
Proof.
  apply (refines_bind (p_save (OSpace s) (out ++ ".pkl")) (fun fs => t_save fs (OSpace s) (out ++ ".pkl")) _ (fun fs => match fmt with None => lift (Ok fs) | Some f => t_export fs s out (Some f) end)); [apply r_save|].
  destruct fmt; [apply r_export|apply refines_ret].
Qed.

Lemma r_log p : refines (p_log p) (fun fs => t_config_logging fs (Some p)).
Proof.
  apply (refines_bind (p_parents p) (fun fs => t_parents fs p) _ (fun fs => match fs_file fs p with Some _ => lift (Ok fs) | None => t_open fs p end)); [apply r_parents|].
  apply refines_act. intros fs. destruct (fs_file fs p); [reflexivity|]. unfold t_open, write_file. destruct (_ || _)%bool; reflexivity.
Qed.

(** *** reading *)
Lemma r_read_text p : answers (p_read_text p) (fun fs => read_text fs p).
Proof. apply answers_look. Qed.
Lemma r_load_space p : answers (p_load_space p) (fun fs => load_space fs p).
Proof. apply answers_look. Qed.
Lemma r_load_model p : answers (p_load_model p) (fun fs => load_model fs p).
Proof. apply answers_look. Qed.
Lemma r_load_second files : answers (p_load_second files) (fun fs => load_second fs files).
Proof.
  destruct files as [|f [|g [|]]]; try apply answers_ret. apply (answers_bind (p_load_space g) (fun fs => load_space fs g) _ (fun s _ => Ok (Some s))); [apply r_load_space|]. intros s. apply answers_ret.
Qed.
Lemma r_read_tuples p : answers (p_read_tuples p) (fun fs => read_tuples fs p).
Proof. apply (answers_bind (p_read_text p) (fun fs => read_text fs p) _ (fun t _ => let* l := read_tuple_list t [0%Z; 1%Z; 2%Z] in mapM to_tuple3 l)); [apply r_read_text|]. intros t. apply answers_pure. Qed.
Lemma r_read_index p : answers (p_read_index p) (fun fs => read_index fs p).
Proof. apply (answers_bind (p_read_text p) (fun fs => read_text fs p) _ (fun t _ => extract_indexing0 t)); [apply r_read_text|]. intros t. apply answers_pure. Qed.
Lemma r_build data fmt rows cols : answers (p_build data fmt rows cols) (fun fs => build fs (Some data) (Some fmt) rows cols).
Proof.
  unfold p_build, build.
  apply (answers_bind (pure (check (String.eqb fmt "dm" || String.eqb fmt "sm") ValueError)) (fun _ => check (String.eqb fmt "dm" || String.eqb fmt "sm") ValueError)); [apply answers_pure|]. intros _.
  apply (answers_bind _ (fun fs => match rows with Some p => let* x := read_index fs p in Ok (Some x) | None => Ok None end)).
  { destruct rows as [p|]; [|apply answers_ret]. apply (answers_bind (p_read_index p) (fun fs => read_index fs p) _ (fun x _ => Ok (Some x))); [apply r_read_index|]. intros x. apply answers_ret. }
  intros ri. apply (answers_bind _ (fun fs => match cols with Some p => let* x := read_index fs p in Ok (Some x) | None => if String.eqb fmt "sm" then Err ValueError else Ok None end)).
  { destruct cols as [p|]; [|destruct (String.eqb fmt "sm"); [exact (answers_pure (Err ValueError))|apply answers_ret]]. apply (answers_bind (p_read_index p) (fun fs => read_index fs p) _ (fun x _ => Ok (Some x))); [apply r_read_index|]. intros x. apply answers_ret. }
  intros ci. apply (answers_bind _ (fun fs => match ri with Some x => Ok x | None => read_index fs data end) _ (fun x fs => let (id2row, row2id) := x in _)).
  { destruct ri; [apply answers_ret|apply r_read_index]. }
  intros (id2row & row2id). apply (answers_bind (p_read_text data) (fun fs => read_text fs data)); [apply r_read_text|]. intros t. apply (answers_pure (let* mat := _ in _)).
Qed.
Lemma r_load_input prefix fmt gz : answers (p_load_input prefix fmt gz) (fun fs => load_input fs prefix fmt gz).
Proof.
  unfold p_load_input, load_input. cbv zeta.
  apply (answers_bind (pure (check (String.eqb fmt "sm" || String.eqb fmt "dm" || String.eqb fmt "pkl") ValueError)) (fun _ => check (String.eqb fmt "sm" || String.eqb fmt "dm" || String.eqb fmt "pkl") ValueError)); [apply answers_pure|]. intros _.
  destruct (String.eqb fmt "pkl"); [apply r_load_space|].
  set (data := if gz then _ else _).
  eapply answers_ext; [|apply (answers_bind (p_exists (prefix ++ ".rows")) _ _ (fun (r : bool) fs => let* c := Ok (exists_ fs (prefix ++ ".cols")) in
    let* cols := (if c : bool then Ok (Some (prefix ++ ".cols")%string) else if String.eqb fmt "sm" then Err ValueError else Ok None) in
    build fs (Some data) (Some fmt) (if r then Some (prefix ++ ".rows")%string else None) cols) (r_exists _))].
  - intros fs. cbn [bind]. reflexivity.
  - intros r. apply (answers_bind (p_exists (prefix ++ ".cols")) (fun fs => Ok (exists_ fs (prefix ++ ".cols"))) _ (fun (c : bool) fs => let* cols := (if c : bool then Ok (Some (prefix ++ ".cols")%string) else if String.eqb fmt "sm" then Err ValueError else Ok None) in
    build fs (Some data) (Some fmt) (if r then Some (prefix ++ ".rows")%string else None) cols)); [apply r_exists|]. intros c.
    apply (answers_bind _ (fun _ => if c : bool then Ok (Some (prefix ++ ".cols")%string) else if String.eqb fmt "sm" then Err ValueError else Ok None) _ (fun cols fs => build fs (Some data) (Some fmt) (if r then Some (prefix ++ ".rows")%string else None) cols)).
    + destruct c; [apply answers_ret|]. destruct (String.eqb fmt "sm"); [exact (answers_pure (Err ValueError))|apply answers_ret].
    + intros cols. apply r_build.
Qed.

(** *** the tools *)
Lemma r_combinations s out descr fmt ws xs rs ns : refines (p_combinations s out descr fmt ws xs rs ns) (fun fs => t_combinations fs s out descr fmt ws xs rs ns).
Proof.
  unfold p_combinations, t_combinations. apply refines_fold. intros w. apply (refines_pure (apply_weighting s w) _ (fun a fs => foldT _ xs fs)). intros a.
  apply refines_fold. intros x. apply (refines_pure (apply_selection a x) _ (fun b fs => foldT _ rs fs)). intros b.
  apply refines_fold. intros r. apply (refines_pure (apply_reduction b r) _ (fun c fs => foldT _ ns fs)). intros c.
  apply refines_fold. intros n. apply (refines_pure (apply_normalization c n) _ (fun d fs => t_print_space fs d out [Some descr; w; x; r; n] fmt)). intros d. apply r_save_export.
Qed.
Lemma r_build_spaces a b c d ws xs rs ns gz : refines (p_build_spaces a b c d ws xs rs ns gz) (fun fs => t_build_spaces fs a b c d ws xs rs ns gz).
Proof. unfold p_build_spaces, t_build_spaces. apply (refines_read (p_load_input a b gz) (fun fs => load_input fs a b gz) _ (fun s fs => t_combinations fs s c ("CORE_SS." ++ base_name a) d ws xs rs ns)); [apply r_load_input|]. intros s. apply r_combinations. Qed.
Lemma r_transform raw a c d e : refines (p_transform_raw raw a c d e) (fun fs => t_transform_raw fs raw a c d e).
Proof.
  unfold p_transform_raw, t_transform_raw.
  apply (refines_read (p_load_space e) (fun fs => load_space fs e) _ (fun core fs => tbind (lift (mk_peripheral core (s_mat raw) (s_id2row raw) (Some (s_row2id raw)))) (fun s => t_save_export fs s _ d))); [apply r_load_space|]. intros core.
  apply (refines_pure (mk_peripheral core (s_mat raw) (s_id2row raw) (Some (s_row2id raw))) _ (fun s fs => t_save_export fs s _ d)). intros s. apply r_save_export.
Qed.
Lemma r_per_space a b c d e gz : refines (p_build_per_space a b c d e gz) (fun fs => t_build_per_space fs a b c d e gz).
Proof.
  unfold p_build_per_space, t_build_per_space. apply (refines_read (p_load_input a b gz) (fun fs => load_input fs a b gz) _ (fun raw fs => t_transform_raw fs raw a c d e)); [apply r_load_input|]. intros raw. apply r_transform.
Qed.
(** a directory is looked for and listed *)
Lemma r_listed in_dir d f t : (forall x, refines (f x) (fun fs => t fs x)) ->
  refines (pbind (p_exists in_dir) (fun b => pbind (pure (check b ValueError)) (fun _ => pbind (look (fun fs => Ok (listdir fs d))) (fun l => p_fold f l))))
    (fun fs => tbind (lift (check (exists_ fs in_dir) ValueError)) (fun _ => foldT t (listdir fs d) fs)).
Proof.
  intros H. eapply refines_ext; [|apply (refines_read (p_exists in_dir) _ _ (fun (b : bool) fs => tbind (lift (check b ValueError)) (fun _ => tbind (lift (Ok (listdir fs d))) (fun l => foldT t l fs))) (r_exists in_dir))].
  - intros fs. cbv beta. rewrite tb_ok. destruct (check (exists_ fs in_dir) ValueError); [|reflexivity]. rewrite !tb_ok. reflexivity.
  - intros b. apply (refines_pure (check b ValueError) _ (fun _ fs => tbind (lift (Ok (listdir fs d))) (fun l => foldT t l fs))). intros _.
    apply (refines_read (look (fun fs => Ok (listdir fs d))) (fun fs => Ok (listdir fs d)) _ (fun l fs => foldT t l fs) (answers_look _)). intros l. apply refines_fold, H.
Qed.
Lemma r_per_batch a b c d e f gz : refines (p_build_per_batch a b c d e f gz) (fun fs => t_build_per_batch fs a b c d e f gz).
Proof.
  unfold p_build_per_batch, t_build_per_batch. cbv zeta. apply (refines_read (p_load_input a b gz) (fun fs => load_input fs a b gz) _ (fun raw fs => tbind (lift (check (exists_ fs e) ValueError)) (fun _ => foldT _ (listdir fs (with_slash e)) fs))); [apply r_load_input|]. intros raw.
  apply (r_listed e (with_slash e)). intros x. destruct (contains f x && ends_with x ".pkl")%bool; [apply r_transform|apply refines_ret].
Qed.
Lemma r_export_model o p : refines (p_export_model o p) (fun fs => t_export_model fs o p).
Proof.
  unfold p_export_model, t_export_model.
  apply (refines_pure (match o with OSpace _ => Err AttributeError | OComp m => match cm_kind m with Mult => Err IllegalOperationError | _ => Ok tt end | OLex _ => Ok tt end) _ (fun _ fs => tbind (t_parents fs p) _)). intros _.
  apply (refines_bind (p_parents p) (fun fs => t_parents fs p)); [apply r_parents|]. destruct o as [s|m|m]; [apply refines_raise| |destruct (lf_fs m); [apply r_export|apply refines_raise]].
  destruct (cm_kind m) as [x y| |x|[[x y]|] icpt L]; try apply refines_raise; apply r_write.
Qed.
Lemma r_train a b c d e f g h i k l : refines (p_train_model a b c d e f g h i k l) (fun fs => t_train_model fs a b c d e f g h i k l).
Proof.
  unfold p_train_model, t_train_model. cbv zeta.
  apply (refines_pure (head_file d) _ (fun f1 fs => tbind (lift (load_space fs f1)) _)). intros f1.
  apply (refines_read (p_load_space f1) (fun fs => load_space fs f1) _ (fun arg fs => tbind (lift (load_second fs d)) _)); [apply r_load_space|]. intros arg.
  apply (refines_read (p_load_second d) (fun fs => load_second fs d) _ (fun arg2 fs => tbind (lift (load_space fs e)) _)); [apply r_load_second|]. intros arg2.
  apply (refines_read (p_load_space e) (fun fs => load_space fs e) _ (fun ph fs => tbind (lift (make_model c f g h i k)) _)); [apply r_load_space|]. intros ph.
  apply (refines_pure (make_model c f g h i k) _ (fun o fs => tbind (lift (read_tuples fs a)) _)). intros o.
  apply (refines_read (p_read_tuples a) (fun fs => read_tuples fs a) _ (fun data fs => tbind (lift (train_obj o data arg arg2 ph)) _)); [apply r_read_tuples|]. intros data.
  apply (refines_pure (train_obj o data arg arg2 ph) _ (fun o' fs => tbind (t_save fs o' _) _)). intros o'.
  set (p := join "." _). apply (refines_bind (p_save o' (p ++ ".pkl")) (fun fs => t_save fs o' (p ++ ".pkl")) _ (fun fs => if l then t_export_model fs o' (p ++ ".params") else lift (Ok fs))); [apply r_save|].
  destruct l; [apply r_export_model|apply refines_ret].
Qed.
Lemma r_apply a b c d e f g h i : refines (p_apply_model a b c d e f g h i) (fun fs => t_apply_model fs a b c d e f g h i).
Proof.
  unfold p_apply_model, t_apply_model.
  apply (refines_read _ (fun fs => match c with Some m => create_model m f g h | None => let* q := require d in load_model fs q end) _ (fun o fs => tbind (lift (head_file e)) _)).
  { destruct c as [m|]; [apply answers_pure|]. apply (answers_bind (pure (require d)) (fun _ => require d) _ (fun q fs => load_model fs q)); [apply answers_pure|]. intros q. apply r_load_model. }
  intros o. apply (refines_pure (head_file e) _ (fun f1 fs => tbind (lift (load_space fs f1)) _)). intros f1.
  apply (refines_read (p_load_space f1) (fun fs => load_space fs f1) _ (fun arg fs => tbind (lift (load_second fs e)) _)); [apply r_load_space|]. intros arg.
  apply (refines_read (p_load_second e) (fun fs => load_second fs e) _ (fun arg2 fs => tbind (lift (read_tuples fs a)) _)); [apply r_load_second|]. intros arg2.
  apply (refines_read (p_read_tuples a) (fun fs => read_tuples fs a) _ (fun data fs => tbind (lift (compose_obj o data arg arg2)) _)); [apply r_read_tuples|]. intros data.
  apply (refines_pure (compose_obj o data arg arg2) _ (fun s fs => t_save_export fs s _ i)). intros s. apply r_save_export.
Qed.
Lemma r_sim a cs c ms fls : refines (p_compute_sim a cs c ms fls) (fun fs => t_compute_sim fs a cs c ms fls).
Proof.
  unfold p_compute_sim, t_compute_sim. destruct cs as [|c0 [|c1 [|]]]; try apply refines_raise.
  apply (refines_pure (parse_int c0) _ (fun i0 fs => tbind (lift (parse_int c1)) _)). intros i0.
  apply (refines_pure (parse_int c1) _ (fun i1 fs => tbind (lift (head_file fls)) _)). intros i1.
  apply (refines_pure (head_file fls) _ (fun f fs => match load_space fs f with Err TypeError => lift (Ok fs) | Err e => lift (Err e) | Ok s => _ end)). intros f.
  eapply refines_ext; [|apply (refines_read (look (fun fs => Ok (load_space fs f))) (fun fs => Ok (load_space fs f)) _ (fun r fs => match r with Err TypeError => lift (Ok fs) | Err e => lift (Err e) | Ok s =>
          tbind (lift (load_second fs fls)) (fun s2 => tbind (lift (sims_descr "SIMS" a fls)) (fun descr => foldT (t_sim_measure a c descr s s2 (i0 - 1) (i1 - 1)) ms fs)) end) (answers_look _))].
  { intros fs. cbv beta. rewrite tb_ok. reflexivity. }
  intros [s|ex]; [|destruct ex; first [apply refines_ret|apply refines_raise]].
  apply (refines_read (p_load_second fls) (fun fs => load_second fs fls) _ (fun s2 fs => tbind (lift (sims_descr "SIMS" a fls)) _)); [apply r_load_second|]. intros s2.
  apply (refines_pure (sims_descr "SIMS" a fls) _ (fun descr fs => foldT _ ms fs)). intros descr. apply refines_fold. intros m. unfold p_sim_measure, t_sim_measure. destruct (measure m) as [sim|]; [|apply refines_ret]. cbv zeta.
  set (out := (c ++ _)%string). apply (refines_bind (p_parents out) (fun fs => t_parents fs out) _ (fun fs => tbind (lift (read_text fs a)) (fun t => t_write fs out (sim_piece s s2 sim (i0 - 1) (i1 - 1)) (flines t) tt))); [apply r_parents|].
  apply (refines_read (p_read_text a) (fun fs => read_text fs a) _ (fun t fs => t_write fs out _ (flines t) tt)); [apply r_read_text|]. intros t. apply r_write.
Qed.
Lemma r_sim_batch a cs c ms d : refines (p_compute_sim_batch a cs c ms d) (fun fs => t_compute_sim_batch fs a cs c ms d).
Proof.
  unfold p_compute_sim_batch, t_compute_sim_batch. cbv zeta. apply (r_listed d (with_slash d)). intros x. destruct (ends_with x ".pkl"); [apply r_sim|apply refines_ret].
Qed.
Lemma r_neighbours a k c m fls : refines (p_compute_neighbours a k c m fls) (fun fs => t_compute_neighbours fs a k c m fls).
Proof.
  unfold p_compute_neighbours, t_compute_neighbours. destruct (measure m) as [sim|]; [|apply refines_raise]. cbv zeta.
  apply (refines_pure (head_file fls) _ (fun f fs => tbind (lift (load_space fs f)) _)). intros f.
  apply (refines_read (p_load_space f) (fun fs => load_space fs f) _ (fun s fs => tbind (lift (load_second fs fls)) _)); [apply r_load_space|]. intros s.
  apply (refines_read (p_load_second fls) (fun fs => load_second fs fls) _ (fun s2 fs => tbind (lift (sims_descr "NEIGHBOURS" a fls)) _)); [apply r_load_second|]. intros s2.
  apply (refines_pure (sims_descr "NEIGHBOURS" a fls) _ (fun descr fs => tbind (t_parents fs (c ++ "/" ++ descr ++ "." ++ m)%string) _)). intros descr.
  set (out := (c ++ _)%string). apply (refines_bind (p_parents out) (fun fs => t_parents fs out) _ (fun fs => tbind (lift (read_text fs a)) (fun t => tbind (lift (read_list t None)) (fun data => t_write fs out (neigh_piece s s2 sim k) (flat_map (fun w => [(w, false); (w, true)]) data) tt)))); [apply r_parents|].
  apply (refines_read (p_read_text a) (fun fs => read_text fs a) _ (fun t fs => tbind (lift (read_list t None)) _)); [apply r_read_text|]. intros t.
  apply (refines_pure (read_list t None) _ (fun data fs => t_write fs out _ _ tt)). intros data. apply r_write.
Qed.
End PConc.
