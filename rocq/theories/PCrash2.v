(** PCrash2.v -- the runs of Crash.v tool by tool: their results are those of Pipe.v, their effects the writes listed here. *)
From Coq Require Import Ascii FunctionalExtensionality.
From Verif Require Import Base PyList Dict Num Dense Sparse Matrix Scaling Linalg Operation Similarity Space Peripheral Learner Composition Utils LexFun Str PStr IO Pipe Crash SpecCrash PCrash.
Local Open Scope string_scope.
Local Open Scope list_scope.
Local Open Scope nat_scope.

Section PCrash2.
Context {N : Num} {E : Ext} {FI : FloatIO} {PI : PipeIO} {KI : PickleIO}.

(** ** the texts *)
(** pieces that do not depend on a state *)
Lemma text_pieces {A} (g : A -> res string) l : text_is (fun (_ : unit) x => let* s := g x in Ok (tt, s)) l tt (let* ss := mapM g l in Ok (String.concat "" ss)).
Proof.
  induction l as [|x l IH]; intros t; cbn [scan_text mapM bind].
  - cbn. split; intros H; injection H as <-; reflexivity.
  - destruct (g x) as [s|e]; cbn [bind]; [|split; discriminate]. destruct (scan_text _ l tt) as [t' r] eqn:Es. split.
    + intros H. injection H as <- ->. apply IH in Es. apply bind_ok in Es. destruct Es as (ss & Hss & K). rewrite Hss. cbn [bind]. injection K as <-. f_equal. destruct ss; [cbn; rewrite sapp_nil|]; reflexivity.
    + intros H. apply bind_ok in H. destruct H as (ss' & H & K). apply bind_ok in H. destruct H as (ss & Hss & H). injection H as <-. injection K as <-.
      assert (K : (let* ss := mapM g l in Ok (String.concat "" ss)) = Ok (String.concat "" ss)) by (rewrite Hss; reflexivity). apply IH in K. rewrite Es in K. injection K as -> ->. f_equal. destruct ss; [cbn; rewrite sapp_nil|]; reflexivity.
Qed.
(** a loop that adds to the text, given by its steps on the empty text *)
Lemma text_fold {A S} (g : S -> A -> res (S * string)) (f : string * S -> A -> res (string * S)) l :
  (forall out st x, f (out, st) x = let* (st', s) := g st x in Ok ((out ++ s)%string, st')) ->
  forall st out t, (exists st', foldM f l (out, st) = Ok (t, st')) <-> exists u, scan_text g l st = (u, Ok tt) /\ t = (out ++ u)%string.
Proof.
  intros Hf. induction l as [|x l IH]; intros st out t; cbn [foldM scan_text].
  - split.
    + intros (st' & H). injection H as <- <-. exists "". rewrite sapp_nil. auto.
    + intros (u & H & ->). injection H as <-. rewrite sapp_nil. eauto.
  - rewrite Hf. destruct (g st x) as [[st1 s]|e]; cbn [bind].
    + rewrite IH. destruct (scan_text g l st1) as [u r]. split.
      * intros (v & H & ->). injection H as -> ->. exists (s ++ v)%string. rewrite sapp_ass. auto.
      * intros (v & H & ->). injection H as <- ->. exists u. rewrite sapp_ass. auto.
    + split; [intros (? & H); discriminate|intros (u & H & _); discriminate].
Qed.
Lemma text_fold0 {A} (g : unit -> A -> res (unit * string)) (f : string -> A -> res string) l :
  (forall out x, f out x = let* (_, s) := g tt x in Ok (out ++ s)%string) -> text_is g l tt (foldM f l "").
Proof.
  intros Hf. assert (G : forall out t, foldM f l out = Ok t <-> exists u, scan_text g l tt = (u, Ok tt) /\ t = (out ++ u)%string).
  { induction l as [|x l IH]; intros out t; cbn [foldM scan_text].
    - split; [intros H; injection H as <-; exists ""; rewrite sapp_nil; auto|]. intros (u & H & ->). injection H as <-. rewrite sapp_nil. reflexivity.
    - rewrite Hf. destruct (g tt x) as [[[] s]|e]; cbn [bind].
      + rewrite IH. destruct (scan_text g l tt) as [u r]. split.
        * intros (v & H & ->). injection H as -> ->. exists (s ++ v)%string. rewrite sapp_ass. auto.
        * intros (v & H & ->). injection H as <- ->. exists u. rewrite sapp_ass. auto.
      + split; [intros H; discriminate|intros (u & H & _); discriminate]. }
  intros t. rewrite G. split.
  - intros H. exists t. auto.
  - intros (u & H & ->). exact H.
Qed.
Lemma text_list l : text_is (fun (_ : unit) x => Ok (tt, (x ++ nl)%string)) l tt (Ok (list_text l)).
Proof.
  intros t. unfold list_text. pose proof (text_pieces (fun x => Ok (x ++ nl)%string) l t) as H. cbn [bind] in H. etransitivity; [exact H|].
  replace (mapM (fun x => Ok (x ++ nl)%string) l) with (Ok (map (fun x => (x ++ nl)%string) l)); [reflexivity|]. clear. induction l as [|x l IH]; [reflexivity|]. cbn [mapM bind map]. rewrite <- IH. reflexivity.
Qed.
Lemma text_dense m id2row : text_is (fun (_ : unit) ir => let* s := dense_row_text m ir in Ok (tt, s)) (combine (seq 0 (length id2row)) id2row) tt (dense_text m id2row).
Proof. apply text_pieces. Qed.
Lemma foldM_prod {A B S} (f : S -> A * B -> res S) (l1 : list A) (l2 : list B) : forall s, foldM f (list_prod l1 l2) s = foldM (fun s i => foldM (fun s j => f s (i, j)) l2 s) l1 s.
Proof.
  induction l1 as [|x l1 IH]; intros s; [reflexivity|]. cbn [list_prod foldM].
  assert (G : forall s, foldM f (map (fun y => (x, y)) l2 ++ list_prod l1 l2) s = let* s' := foldM (fun s j => f s (x, j)) l2 s in foldM f (list_prod l1 l2) s').
  { clear. generalize (list_prod l1 l2) as rest. intros rest. induction l2 as [|y l2 IH]; intros s; [reflexivity|]. cbn [map app foldM]. destruct (f s (x, y)); cbn [bind]; [apply IH|reflexivity]. }
  rewrite G. destruct (foldM _ l2 s); cbn [bind]; [apply IH|reflexivity].
Qed.
(** *** the matrix in sparse format *)
Definition sparse_written (m : matrix) (id2row id2col : list string) : string * res unit :=
  match m with
  | MS c => match py_nth (s_ptr c) 1%Z with
            | Err e => ("", Err e)
            | Ok next_row => match py_nth id2row 0%Z with
                             | Err e => ("", Err e)
                             | Ok row => scan_text (stored_cell c id2row id2col) (seq 0 (length (s_data c))) (0, next_row, row)
                             end
            end
  | MD d => scan_text (dense_cell d id2row id2col) (list_prod (seq 0 (d_nr d)) (seq 0 (d_nc d))) tt
  end.
Lemma print_sparse_eq fs m id2row id2col p :
  t_print_sparse fs m id2row id2col p =
  if Nat.eqb (length id2col) 0 then ([], Err ValueError)
  else match write_file fs p (Text "") with
       | Err e => ([], Err e)
       | Ok _ => (job (p, Text (fst (sparse_written m id2row id2col))),
                  match snd (sparse_written m id2row id2col) with Ok _ => Ok (setf fs p (Text (fst (sparse_written m id2row id2col)))) | Err e => Err e end)
       end.
Proof.
  unfold t_print_sparse. rewrite tbind_lift. destruct (Nat.eqb (length id2col) 0); [reflexivity|]. cbn [negb check]. destruct m as [d|c]; [apply t_write_eq|].
  rewrite t_open_eq. destruct (write_file fs p (Text "")); [|reflexivity]. cbn [tbind sparse_written]. rewrite !tbind_lift. destruct (py_nth (s_ptr c) 1%Z); [|reflexivity]. rewrite !tbind_lift. destruct (py_nth id2row 0%Z); [|reflexivity].
  rewrite t_scan_eq. reflexivity.
Qed.
Lemma cell_step c id2row id2col out st i :
  sparse_cell c id2row id2col (out, st) i = let* (st', s) := stored_cell c id2row id2col st i in Ok ((out ++ s)%string, st').
Proof.
  unfold stored_cell, sparse_cell. destruct st as [[ri nr] row]. destruct (advance _ _ _ _ _ _ _) as [[[ri' nr'] row']|]; [|reflexivity]. cbn [bind].
  destruct (py_nth (s_ind c) (Z.of_nat i)); [|reflexivity]. cbn [bind]. destruct (py_nth id2col _); [|reflexivity]. cbn [bind]. destruct (py_nth (s_data c) _); reflexivity.
Qed.
Lemma sparse_written_iff m id2row id2col t : Nat.eqb (length id2col) 0 = false -> (sparse_written m id2row id2col = (t, Ok tt) <-> sparse_text m id2row id2col = Ok t).
Proof.
  intros Hc. unfold sparse_text. rewrite Hc. cbn [negb check bind]. destruct m as [d|c]; cbn [sparse_written].
  - etransitivity; [|rewrite <- (foldM_prod (fun out ij => if feqb (dent d (fst ij) (snd ij)) f0 then Ok out else
        let* r := py_nth id2row (Z.of_nat (fst ij)) in let* c := py_nth id2col (Z.of_nat (snd ij)) in Ok (out ++ cell_text r c (dent d (fst ij) (snd ij)))%string)); reflexivity].
    revert t. apply text_fold0. intros out [i j]. unfold dense_cell. cbn [fst snd]. destruct (feqb _ _); cbn [bind]; [rewrite sapp_nil; reflexivity|].
    destruct (py_nth id2row _); [|reflexivity]. cbn [bind]. destruct (py_nth id2col _); reflexivity.
  - destruct (py_nth (s_ptr c) 1%Z) as [nr|]; [|split; discriminate]. cbn [bind]. destruct (py_nth id2row 0%Z) as [row|]; [|split; discriminate]. cbn [bind].
    pose proof (text_fold (stored_cell c id2row id2col) (sparse_cell c id2row id2col) (seq 0 (length (s_data c))) (cell_step c id2row id2col) (0, nr, row) "" t) as H.
    split.
    + intros K. destruct (proj2 H) as (st' & F); [exists t; auto|]. rewrite F. reflexivity.
    + intros K. apply bind_ok in K. destruct K as ((u & st') & F & K). injection K as ->. destruct (proj1 H) as (v & V & ->); [eauto|]. exact V.
Qed.

(** ** what an export writes *)
Lemma scan_list l : fst (scan_text (fun (_ : unit) x => Ok (tt, (x ++ nl)%string)) l tt) = list_text l.
Proof. rewrite (proj2 (text_list l (list_text l)) eq_refl). reflexivity. Qed.
Lemma runs_print_sparse (R : string * content -> Prop) D fs m r c p : R (p, Text (fst (sparse_written m r c))) -> runs R D (t_print_sparse fs m r c p).
Proof. intros H. rewrite print_sparse_eq. destruct (Nat.eqb _ 0); [apply runs_nil|]. destruct (write_file fs p (Text "")); [|apply runs_nil]. apply runs_job, H. Qed.
Lemma runs_export fs s prefix f : runs (exported_piece f s prefix) (fun d => leads d (dirname prefix)) (t_export fs s prefix (Some f)).
Proof.
  unfold t_export. apply runs_bind; [apply runs_parents|]. intros fs1 _. apply runs_bind.
  - destruct (String.eqb_spec f "dm") as [->|]; [|destruct (String.eqb_spec f "sm") as [->|]; [|apply runs_lift]].
    + apply runs_write. eexists. split; [reflexivity|]. left. split; [reflexivity|]. split; [reflexivity|]. intros full Hf. rewrite (proj2 (text_dense _ _ full) Hf). reflexivity.
    + rewrite print_sparse_eq. destruct (Nat.eqb (length (s_id2col s)) 0) eqn:Ec; [apply runs_nil|]. destruct (write_file fs1 _ (Text "")); [|apply runs_nil]. apply runs_job.
      eexists. split; [reflexivity|]. right. left. split; [reflexivity|]. split; [reflexivity|]. intros full Hf. rewrite (proj2 (sparse_written_iff _ _ _ full Ec) Hf). reflexivity.
  - intros fs2 _. unfold t_export_row_column. apply runs_bind.
    + destruct (s_col2id s) eqn:Ec; [apply runs_lift|]. apply runs_write. eexists. split; [reflexivity|]. right. right. left. rewrite scan_list, Ec. split; [reflexivity|]. split; [discriminate|reflexivity].
    + intros fs3 _. apply runs_write. eexists. split; [reflexivity|]. right. right. right. rewrite scan_list. split; reflexivity.
Qed.
Lemma leads_app d p q : leads d p -> leads d (p ++ q).
Proof. intros (r & ->). exists (r ++ q)%string. apply sapp_ass. Qed.
Lemma runs_save (R : string * content -> Prop) fs o p : R (p, Pickle o) -> runs R (fun d => leads d (dirname p)) (t_save fs o p).
Proof. intros H. unfold t_save. apply runs_bind; [apply runs_parents|]. intros x _. apply runs_dump, H. Qed.
Lemma dirname_pkl p : dirname (p ++ ".pkl") = dirname p.
Proof. apply dirname_app. cbn. intros Q; repeat (destruct Q as [Q|Q]; [discriminate|]); exact Q. Qed.
Lemma runs_save_export fs s out fmt : runs (saved_piece s out fmt) (fun d => leads d (dirname out)) (t_save_export fs s out fmt).
Proof.
  unfold t_save_export. apply runs_bind; [rewrite <- dirname_pkl; apply runs_save; left; reflexivity|]. intros fs1 _. destruct fmt as [f|]; [|apply runs_lift].
  eapply runs_weaken; [| |apply runs_export]; [intros w Hw; right; eauto|auto].
Qed.

(** ** results *)
Lemma same_save fs o p : same (t_save fs o p) (save fs o p).
Proof. apply same_bind; [apply same_parents|]. intros x _. apply same_dump. Qed.
Lemma same_print_list fs l p : same (t_print_list fs l p) (write_file fs p (Text (list_text l))).
Proof. exact (same_write _ _ _ _ _ _ (text_list l)). Qed.
Lemma same_print_sparse fs m r c p : same (t_print_sparse fs m r c p) (let* t := sparse_text m r c in write_file fs p (Text t)).
Proof.
  intros fs'. rewrite print_sparse_eq. destruct (Nat.eqb (length c) 0) eqn:Ec; [unfold sparse_text; rewrite Ec; cbn; split; discriminate|]. pose proof (fun t => sparse_written_iff m r c t Ec) as H. split.
  - destruct (write_file fs p (Text "")) as [x|] eqn:Ew; [|discriminate]. cbn [snd]. destruct (sparse_written m r c) as [t [[]|e]] eqn:Es; [|discriminate]. cbn [fst snd]. intros K. injection K as <-.
    rewrite (proj1 (H t) eq_refl). cbn [bind]. rewrite (write_file_eq fs p (Text t)), Ew. reflexivity.
  - intros K. apply bind_ok in K. destruct K as (t & Ht & K). rewrite write_file_eq in K. destruct (write_file fs p (Text "")) as [x|]; [|discriminate]. injection K as <-. apply H in Ht. rewrite Ht. reflexivity.
Qed.
Lemma same_export fs s prefix f : same (t_export fs s prefix f) (export fs s prefix f).
Proof.
  unfold t_export, export. apply same_bind; [apply same_parents|]. intros fs1 _. apply same_bind.
  - destruct f as [f|]; [|apply same_lift]. destruct (String.eqb f "dm"); [apply same_write, text_dense|]. destruct (String.eqb f "sm"); [apply same_print_sparse|apply same_lift].
  - intros fs2 _. unfold t_export_row_column, export_row_column. apply same_bind; [destruct (s_col2id s); [apply same_lift|apply same_print_list]|]. intros fs3 _. apply same_print_list.
Qed.
Lemma same_save_export fs s out fmt : same (t_save_export fs s out fmt) (save_export fs s out fmt).
Proof. apply same_bind; [apply same_save|]. intros x _. destruct fmt; [apply same_export|apply same_lift]. Qed.
Lemma same_config_logging fs l : same (t_config_logging fs l) (config_logging fs l).
Proof. destruct l as [p|]; [|apply same_lift]. apply same_bind; [apply same_parents|]. intros x _. destruct (fs_file x p); [apply same_lift|apply same_open]. Qed.
Lemma same_combinations fs s out_dir descr fmt ws xs rs ns : same (t_combinations fs s out_dir descr fmt ws xs rs ns) (run_combinations fs s out_dir descr fmt ws xs rs ns).
Proof. repeat (apply same_fold; intros ? ?; apply same_pure; intros ?). apply same_save_export. Qed.
Lemma same_build_spaces fs a b c d ws xs rs ns gz : same (t_build_spaces fs a b c d ws xs rs ns gz) (build_spaces fs a b c d ws xs rs ns gz).
Proof. apply same_pure. intros s. apply same_combinations. Qed.
Ltac pures := repeat (lazymatch goal with |- same (tbind (lift _) _) (bind _ _) => apply same_pure; intros ? end).
Lemma same_main_core fs args : same (t_main_core fs args) (main_core fs args).
Proof.
  unfold t_main_core, main_core. apply same_pure. intros [opts argv]. pures. apply same_bind; [apply same_config_logging|]. intros fs1 _. pures. apply same_build_spaces.
Qed.
Lemma same_transform fs raw a b c d : same (t_transform_raw fs raw a b c d) (transform_raw fs raw a b c d).
Proof. unfold t_transform_raw, transform_raw. pures. apply same_save_export. Qed.
Lemma same_per_space fs a b c d e f : same (t_build_per_space fs a b c d e f) (build_per_space fs a b c d e f).
Proof. unfold t_build_per_space, build_per_space. pures. apply same_transform. Qed.
Lemma same_per_batch fs a b c d e f g : same (t_build_per_batch fs a b c d e f g) (build_per_batch fs a b c d e f g).
Proof. unfold t_build_per_batch, build_per_batch. pures. cbv zeta. apply same_fold. intros xx yy. destruct (_ && _)%bool; [apply same_transform|apply same_lift]. Qed.
Lemma same_main_peripheral fs args : same (t_main_peripheral fs args) (main_peripheral fs args).
Proof.
  unfold t_main_peripheral, main_peripheral. apply same_pure. intros [opts argv]. pures. apply same_bind; [apply same_config_logging|]. intros fs1 _. pures.
  destruct (get_str _ "core_in_dir"); pures; [apply same_per_batch|apply same_per_space].
Qed.
Lemma same_pieces fs p l r : (forall t, (let* ss := mapM (fun x => x) l in Ok (String.concat "" ss)) = Ok t <-> r = Ok t) -> same (t_pieces fs p l) (let* t := r in write_file fs p (Text t)).
Proof. intros H. apply same_write. intros t. rewrite <- H. apply (text_pieces (fun x => x) l). Qed.
Lemma same_export_model fs o p : same (t_export_model fs o p) (export_model fs o p).
Proof.
  unfold t_export_model, export_model. destruct o as [s|m|m].
  - rewrite tbind_lift. intros x. split; [discriminate|]. intros H. apply bind_ok in H. destruct H as (? & _ & H). discriminate.
  - rewrite tbind_lift. destruct (cm_kind m) as [a b| |l|ab icpt L].
    + apply same_bind; [apply same_parents|]. intros x _. apply (same_pieces x p _ (Ok _)). intros t. cbn [mapM bind String.concat]. rewrite !sapp_ass. reflexivity.
    + intros x. split; [discriminate|]. intros H. apply bind_ok in H. destruct H as (? & _ & H). discriminate.
    + apply same_bind; [apply same_parents|]. intros x _. apply (same_pieces x p _ (Ok _)). intros t. reflexivity.
    + apply same_bind; [apply same_parents|]. intros x _. destruct ab as [[a b]|]; [|apply same_lift]. cbv zeta.
      set (tail := if icpt then _ else _ : res string) at 1.
      destruct icpt; cbn [app].
      * destruct (m_slice_rows b 0 (m_nr b - 1)) as [b1|e] eqn:E1; [|subst tail; cbn [bind]; intros y; split; [|discriminate]; intros H; exfalso].
        { destruct (m_slice_rows b (m_nr b - 1) (m_nr b)) as [b2|e] eqn:E2; cbn [bind] in *; subst tail.
          - apply (same_pieces x p _ (Ok _)). intros t. cbn [mapM bind String.concat]. rewrite !sapp_ass. reflexivity.
          - apply (same_pieces x p _ (Err e)). intros t. cbn [mapM bind]. split; discriminate. }
        { apply (same_pieces x p _ (Err e)) in H; [discriminate|]. intros t. cbn [mapM bind]. split; discriminate. }
      * subst tail. cbn [bind]. apply (same_pieces x p _ (Ok _)). intros t. cbn [mapM bind String.concat]. rewrite !sapp_ass. reflexivity.
  - rewrite tbind_lift. apply same_bind; [apply same_parents|]. intros x _. destruct (lf_fs m); [apply same_export|apply same_lift].
Qed.
Lemma same_train_model fs a b c d e f g h i j k : same (t_train_model fs a b c d e f g h i j k) (train_model fs a b c d e f g h i j k).
Proof.
  unfold t_train_model, train_model. pures. cbv zeta. apply same_bind; [apply same_save|]. intros x7 _. destruct k; [apply same_export_model|apply same_lift].
Qed.
Lemma same_main_train fs args : same (t_main_train fs args) (main_train fs args).
Proof.
  unfold t_main_train, main_train. apply same_pure. intros [opts argv]. pures. apply same_bind; [apply same_config_logging|]. intros fs1 _. pures. match goal with x : (option lamval * _)%type |- _ => destruct x as [pa ra] end. pures. apply same_train_model.
Qed.
Lemma same_apply_model fs a b c d e f g h i : same (t_apply_model fs a b c d e f g h i) (apply_model fs a b c d e f g h i).
Proof. unfold t_apply_model, apply_model. pures. apply same_save_export. Qed.
Lemma same_main_apply fs args : same (t_main_apply fs args) (main_apply fs args).
Proof.
  unfold t_main_apply, main_apply. apply same_pure. intros [opts argv]. pures. apply same_bind; [apply same_config_logging|]. intros fs1 _. pures. apply same_apply_model.
Qed.
Lemma sim_line_step s s2 sim c0 c1 out l : sim_line s s2 sim c0 c1 out l = let* (_, t) := sim_piece s s2 sim c0 c1 tt l in Ok (out ++ t)%string.
Proof.
  unfold sim_piece, sim_line. destruct (String.eqb (strip l) ""); cbn [bind]; [rewrite sapp_nil; reflexivity|]. destruct (py_nth _ c0); [|reflexivity]. cbn [bind]. destruct (py_nth _ c1); [|reflexivity]. cbn [bind].
  destruct (get_sim _ _ _ _ _); reflexivity.
Qed.
Lemma same_sim_measure i o d s s2 c0 c1 fs m : same (t_sim_measure i o d s s2 c0 c1 fs m) (sim_measure_step i o d s s2 c0 c1 fs m).
Proof.
  unfold t_sim_measure, sim_measure_step. destruct (measure m) as [sim|]; [|apply same_lift]. cbv zeta. apply same_bind; [apply same_parents|]. intros fs1 _. pures. apply same_write, text_fold0. intros; apply sim_line_step.
Qed.
Lemma same_compute_sim fs i cs o ms fls : same (t_compute_sim fs i cs o ms fls) (compute_sim fs i cs o ms fls).
Proof.
  unfold t_compute_sim, compute_sim. destruct cs as [|c0 [|c1 [|]]]; try apply same_lift. pures. destruct (load_space fs _) as [s|[]]; try apply same_lift. pures. apply same_fold. intros; apply same_sim_measure.
Qed.
Lemma same_sim_batch fs i cs o ms d : same (t_compute_sim_batch fs i cs o ms d) (compute_sim_batch fs i cs o ms d).
Proof. unfold t_compute_sim_batch, compute_sim_batch. pures. cbv zeta. apply same_fold. intros xx yy. destruct (ends_with yy ".pkl"); [apply same_compute_sim|apply same_lift]. Qed.
Lemma same_main_sim fs args : same (t_main_sim fs args) (main_sim fs args).
Proof.
  unfold t_main_sim, main_sim. apply same_pure. intros [opts argv]. pures. apply same_bind; [apply same_config_logging|]. intros fs1 _. pures. destruct (get_str _ "in_dir"); pures; [apply same_sim_batch|apply same_compute_sim].
Qed.
Lemma text_neigh s s2 sim k data : text_is (neigh_piece s s2 sim k) (flat_map (fun w => [(w, false); (w, true)]) data) tt (foldM (neigh_text s s2 sim k) data "").
Proof.
  assert (G : forall out t, foldM (neigh_text s s2 sim k) data out = Ok t <-> exists u, scan_text (neigh_piece s s2 sim k) (flat_map (fun w => [(w, false); (w, true)]) data) tt = (u, Ok tt) /\ t = (out ++ u)%string).
  { induction data as [|w data IH]; intros out t; cbn [foldM flat_map app scan_text].
    - split; [intros H; injection H as <-; exists ""; rewrite sapp_nil; auto|]. intros (u & H & ->). injection H as <-. rewrite sapp_nil. reflexivity.
    - unfold neigh_text at 1. cbn [neigh_piece]. destruct (get_neighbours s w k sim s2) as [l|e]; cbn [bind].
      + rewrite IH. destruct (scan_text _ (flat_map _ data) tt) as [u r]. split.
        * intros (v & H & ->). injection H as -> ->. eexists. split; [reflexivity|]. rewrite !sapp_ass. reflexivity.
        * intros (v & H & ->). injection H as <- ->. exists u. split; [reflexivity|]. rewrite !sapp_ass. reflexivity.
      + split; [intros H; discriminate|intros (u & H & _); discriminate]. }
  intros t. rewrite G. split; [intros H; exists t; auto|]. intros (u & H & ->). exact H.
Qed.
Lemma same_compute_neighbours fs i k o m fls : same (t_compute_neighbours fs i k o m fls) (compute_neighbours fs i k o m fls).
Proof.
  unfold t_compute_neighbours, compute_neighbours. destruct (measure m) as [sim|]; [|apply same_lift]. pures. cbv zeta. apply same_bind; [apply same_parents|]. intros fs1 _. pures. apply same_write, text_neigh.
Qed.
Lemma same_main_neighbours fs args : same (t_main_neighbours fs args) (main_neighbours fs args).
Proof.
  unfold t_main_neighbours, main_neighbours. apply same_pure. intros [opts argv]. pures. apply same_bind; [apply same_config_logging|]. intros fs1 _. pures. apply same_compute_neighbours.
Qed.
End PCrash2.
