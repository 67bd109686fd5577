(** PCrash5.v -- the tools: what they write, and that they can be repeated. *)
From Coq Require Import Ascii FunctionalExtensionality.
From Verif Require Import Base PyList Dict Num Dense Sparse Matrix Scaling Linalg Operation Similarity Space Peripheral SpecSpace Learner Composition Utils LexFun Str PStr IO SpecIO PIO Prop_IO PExport Prop_Export Pipe SpecPipe SpecPipe2 PFiles PPipe PPipe2 PSave SpecPipe3 PPipe3 SpecCore PCore Prop_Core Prop_Sims Prop_Batch Prop_TrainPipe Crash SpecCrash PCrash PCrash2 PCrash3 PCrash4.
Local Open Scope string_scope.
Local Open Scope list_scope.
Local Open Scope nat_scope.

Section PCrash5.
Context {N : Num} {E : Ext} {FI : FloatIO} {PI : PipeIO} {KI : PickleIO}.
Definition no : string -> Prop := fun _ => False.
Lemma off_no out : off no no out.
Proof. split; intros x H K; [exact K|exact H]. Qed.

(** ** soundness *)
Ltac spures := repeat (lazymatch goal with |- sound _ (tbind (lift _) _) => apply sound_pure; intros ? end).
Lemma sound_save_export fs s out fmt : sound fs (t_save_export fs s out fmt).
Proof. exact (proj1 (good_save_export no no s out fmt (off_no out)) fs). Qed.
Lemma sound_combinations fs s out_dir descr fmt ws xs rs ns : sound fs (t_combinations fs s out_dir descr fmt ws xs rs ns).
Proof. refine (proj1 (good_combinations no no s out_dir descr fmt ws xs rs ns _) fs). intros; apply off_no. Qed.
Lemma sound_build_spaces fs a b c d ws xs rs ns gz : sound fs (t_build_spaces fs a b c d ws xs rs ns gz).
Proof. apply sound_pure. intros s. apply sound_combinations. Qed.
Lemma sound_config_logging fs l : sound fs (t_config_logging fs l).
Proof. destruct l as [p|]; [|apply sound_lift]. apply sound_bind; [apply sound_parents|]. intros x. destruct (fs_file x p); [apply sound_lift|apply sound_open]. Qed.
Lemma sound_transform fs raw a b c d : sound fs (t_transform_raw fs raw a b c d).
Proof. unfold t_transform_raw. spures. apply sound_save_export. Qed.
Lemma sound_per_space fs a b c d e f : sound fs (t_build_per_space fs a b c d e f).
Proof. unfold t_build_per_space. spures. apply sound_transform. Qed.
Lemma sound_per_batch fs a b c d e f g : sound fs (t_build_per_batch fs a b c d e f g).
Proof. unfold t_build_per_batch. spures. cbv zeta. apply sound_fold. intros xx yy. destruct (_ && _)%bool; [apply sound_transform|apply sound_lift]. Qed.
Lemma good_export_model (I J : string -> Prop) o p : ~ I p -> (forall ext, In ext [".dm"; ".sm"; ".rows"; ".cols"] -> ~ I (p ++ ext)%string) -> (forall d, J d -> ~ leads d (dirname p)) -> good I J (fun fs => t_export_model fs o p).
Proof.
  intros H1 H2 H3. unfold t_export_model.
  apply (good_const I J (match o with OComp m => match cm_kind m with Mult => Err IllegalOperationError | _ => Ok tt end | OLex _ => Ok tt | OSpace _ => Err AttributeError end)
    (fun _ fs => let^ fs := t_parents fs p in _)). intros _ _. apply (good_bind I J (fun fs => t_parents fs p)); [apply good_parents, H3|].
  destruct o as [s|m|m]; [apply good_err| |].
  - destruct (cm_kind m) as [a b| |l|[[a b]|] icpt L]; try apply good_err; apply good_write, H1.
  - destruct (lf_fs m); [|apply good_err]. apply good_export; assumption.
Qed.
Lemma sound_export_model fs o p : sound fs (t_export_model fs o p).
Proof. refine (proj1 (good_export_model no no o p _ _ _) fs); [intros K; exact K|intros ext _ K; exact K|intros d K _; exact K]. Qed.
Lemma sound_save fs o p : sound fs (t_save fs o p).
Proof. apply sound_bind; [apply sound_parents|]. intros x. apply sound_dump. Qed.
Lemma sound_train_model fs a b c d e f g h i j k : sound fs (t_train_model fs a b c d e f g h i j k).
Proof. unfold t_train_model. spures. cbv zeta. apply sound_bind; [apply sound_save|]. intros xx. destruct k; [apply sound_export_model|apply sound_lift]. Qed.
Lemma sound_apply_model fs a b c d e f g h i : sound fs (t_apply_model fs a b c d e f g h i).
Proof. unfold t_apply_model. spures. apply sound_save_export. Qed.
Lemma sound_sim_measure i o d s s2 c0 c1 fs m : sound fs (t_sim_measure i o d s s2 c0 c1 fs m).
Proof. unfold t_sim_measure. destruct (measure m); [|apply sound_lift]. cbv zeta. apply sound_bind; [apply sound_parents|]. intros xx. spures. apply sound_write. Qed.
Lemma sound_compute_sim fs i cs o ms fls : sound fs (t_compute_sim fs i cs o ms fls).
Proof.
  unfold t_compute_sim. destruct cs as [|c0 [|c1 [|]]]; try apply sound_err. spures. destruct (load_space fs _) as [s|[]]; try apply sound_err; try apply sound_lift. spures. apply sound_fold. intros; apply sound_sim_measure.
Qed.
Lemma sound_sim_batch fs i cs o ms d : sound fs (t_compute_sim_batch fs i cs o ms d).
Proof. unfold t_compute_sim_batch. spures. cbv zeta. apply sound_fold. intros xx yy. destruct (ends_with yy ".pkl"); [apply sound_compute_sim|apply sound_lift]. Qed.
Lemma sound_compute_neighbours fs i k o m fls : sound fs (t_compute_neighbours fs i k o m fls).
Proof. unfold t_compute_neighbours. destruct (measure m); [|apply sound_err]. spures. cbv zeta. apply sound_bind; [apply sound_parents|]. intros yy. spures. apply sound_write. Qed.
Ltac smain tac := apply sound_bind; [apply sound_config_logging|]; intros ?; spures; tac.
Lemma sound_main_core fs args : sound fs (t_main_core fs args).
Proof. unfold t_main_core. apply sound_pure. intros [opts argv]. spures. smain ltac:(apply sound_build_spaces). Qed.
Lemma sound_main_peripheral fs args : sound fs (t_main_peripheral fs args).
Proof. unfold t_main_peripheral. apply sound_pure. intros [opts argv]. spures. smain idtac. destruct (get_str _ "core_in_dir"); spures; [apply sound_per_batch|apply sound_per_space]. Qed.
Lemma sound_main_train fs args : sound fs (t_main_train fs args).
Proof. unfold t_main_train. apply sound_pure. intros [opts argv]. spures. smain idtac. match goal with x : (option lamval * _)%type |- _ => destruct x as [pa ra] end. spures. apply sound_train_model. Qed.
Lemma sound_main_apply fs args : sound fs (t_main_apply fs args).
Proof. unfold t_main_apply. apply sound_pure. intros [opts argv]. spures. smain ltac:(apply sound_apply_model). Qed.
Lemma sound_main_sim fs args : sound fs (t_main_sim fs args).
Proof. unfold t_main_sim. apply sound_pure. intros [opts argv]. spures. smain idtac. destruct (get_str _ "in_dir"); spures; [apply sound_sim_batch|apply sound_compute_sim]. Qed.
Lemma sound_main_neighbours fs args : sound fs (t_main_neighbours fs args).
Proof. unfold t_main_neighbours. apply sound_pure. intros [opts argv]. spures. smain ltac:(apply sound_compute_neighbours). Qed.

(** ** what is written *)
Lemma runs_err {A B} R D e (k : A -> tr B) : runs R D (tbind (lift (Err e)) k).
Proof. apply runs_lift. Qed.
Lemma runs_pure {A B} R D (r : res A) (k : A -> tr B) : (forall x, r = Ok x -> runs R D (k x)) -> runs R D (tbind (lift r) k).
Proof. intros H. apply runs_bind; [apply runs_lift|]. intros x K. apply H, K. Qed.
Lemma runs_combinations (R : string * content -> Prop) (D : string -> Prop) fs s out_dir descr fmt ws xs rs ns :
  (forall c s' w, combos ws xs rs ns c -> result s c = Ok s' -> saved_piece s' (out_of out_dir descr c) fmt w -> R w) ->
  (forall c d, combos ws xs rs ns c -> leads d (dirname (out_of out_dir descr c)) -> D d) ->
  runs R D (t_combinations fs s out_dir descr fmt ws xs rs ns).
Proof.
  intros HR HD. unfold t_combinations. apply runs_fold. intros f1 w Hw. apply runs_pure. intros a Ha. apply runs_fold. intros f2 x Hx. apply runs_pure. intros b Hb. apply runs_fold. intros f3 r Hr. apply runs_pure. intros c Hc.
  apply runs_fold. intros f4 n Hn. apply runs_pure. intros d Hd. assert (Hcomb : combos ws xs rs ns (w, x, r, n)) by (repeat split; assumption).
  eapply runs_weaken; [| |apply runs_save_export].
  - intros v Hv. apply (HR (w, x, r, n) d v Hcomb); [|exact Hv]. cbn [result]. rewrite Ha. cbn [bind]. rewrite Hb. cbn [bind]. rewrite Hc. cbn [bind]. exact Hd.
  - intros v Hv. exact (HD (w, x, r, n) v Hcomb Hv).
Qed.
Lemma export_model_runs fs m p : runs (params_piece (OComp m) p) (fun d => leads d (dirname p)) (t_export_model fs (OComp m) p).
Proof.
  unfold t_export_model. apply runs_pure. intros u Hu. apply runs_bind; [apply runs_parents|]. intros x _.
  assert (K : forall (l : list (res string)), (forall y, match cm_kind m with
      | WAdd a b => t_pieces y p [Ok ("alpha" ++ tabs ++ ffmt a ++ nl)%string; Ok ("beta" ++ tabs ++ ffmt b)%string]
      | Dil l => t_pieces y p [Ok ("lambda" ++ tabs ++ ffmt l)%string]
      | Mult => lift (Err IllegalOperationError)
      | FAdd None _ _ => lift (Err IllegalStateError)
      | FAdd (Some (a, b)) icpt _ =>
          let txt m := mat_str (m_transpose (conv TDense m)) in
          t_pieces y p
            ([Ok ("A" ++ nl)%string; Ok (txt a); Ok (nl ++ "B" ++ nl)%string] ++
             (if icpt : bool
              then [(let* b1 := m_slice_rows b 0 (m_nr b - 1) in Ok (txt b1)); Ok (nl ++ "Intercept" ++ nl)%string;
                    (let* b2 := m_slice_rows b (m_nr b - 1) (m_nr b) in Ok (txt b2))]
              else [Ok (txt b)])) end = t_pieces y p l) ->
     runs (params_piece (OComp m) p) (fun d => leads d (dirname p)) (t_pieces x p l)).
  { intros l Hl. apply runs_write. right. exists m. eexists. split; [reflexivity|]. split; [reflexivity|]. intros a b H. apply same_export_model in H. unfold t_export_model in H. rewrite tbind_lift, Hu in H.
    apply tbind_ok in H. destruct H as (a1 & _ & H). rewrite Hl in H. unfold t_pieces in H. rewrite t_write_eq in H. destruct (write_file a1 p (Text "")); [|discriminate]. cbn [snd] in H. destruct (snd (scan_text _ _ _)); [|discriminate]. injection H as <-. apply setf_at. }
  destruct (cm_kind m) as [a b| |l|[[a b]|] icpt L]; try apply runs_lift; (apply K; intros y; reflexivity).
Qed.
Lemma runs_export_model fs o p : runs (params_piece o p) (fun d => leads d (dirname p)) (t_export_model fs o p).
Proof.
  destruct o as [s|m|m]; [apply runs_lift|apply export_model_runs|]. unfold t_export_model. apply runs_pure. intros u Hu. apply runs_bind; [apply runs_parents|]. intros x _. destruct (lf_fs m) as [s|] eqn:Ef; [|apply runs_lift].
  eapply runs_weaken; [| |apply runs_export]; [|auto]. intros w Hw. left. exists m, s. auto.
Qed.
Lemma runs_config_logging fs l : runs (fun w => exists p, l = Some p /\ w = (p, Text "") /\ fs_file fs p = None) (fun d => exists p, l = Some p /\ leads d (dirname p)) (t_config_logging fs l).
Proof.
  destruct l as [p|]; [|apply runs_lift]. unfold t_config_logging. apply runs_bind; [eapply runs_weaken; [| |apply (runs_parents (fun _ => False))]; [intros w []|eauto]|]. intros x Hx. destruct (fs_file x p) eqn:Ef; [apply runs_lift|]. apply runs_open. exists p. split; [reflexivity|]. split; [reflexivity|].
  apply same_parents in Hx. rewrite <- (parents_files _ _ _ Hx). exact Ef.
Qed.
(** *** the text of compute_similarities *)
Lemma sim_ok s s2 sim c0 c1 l u : sim_piece s s2 sim (c0 - 1) (c1 - 1) tt l = Ok u ->
  (strip l = "" /\ u = (tt, "")) \/ (strip l <> "" /\ exists v, sim_of s s2 sim c0 c1 (strip l) v /\ u = (tt, (strip l ++ " " ++ fstr v ++ nl)%string)).
Proof.
  unfold sim_piece, sim_line. destruct (String.eqb_spec (strip l) "") as [Hs|Hs]; cbn [bind]; [intros H; injection H as <-; left; auto|]. intros H. right. split; [exact Hs|].
  apply bind_ok in H. destruct H as (t & H & K). injection K as <-. apply bind_ok in H. destruct H as (w1 & W1 & H). apply bind_ok in H. destruct H as (w2 & W2 & H). apply bind_ok in H. destruct H as (v & Hv & H). injection H as <-.
  exists v. split; [|reflexivity]. exists w1, w2. rewrite <- !column_nth. auto.
Qed.
Lemma sim_err s s2 sim c0 c1 l e : sim_piece s s2 sim (c0 - 1) (c1 - 1) tt l = Err e -> strip l <> "" /\ forall v, ~ sim_of s s2 sim c0 c1 (strip l) v.
Proof.
  unfold sim_piece, sim_line. destruct (String.eqb_spec (strip l) "") as [Hs|Hs]; cbn [bind]; [discriminate|]. intros H. split; [exact Hs|]. intros v (w1 & w2 & W1 & W2 & Hv). rewrite <- column_nth in W1, W2. rewrite W1 in H. cbn [bind] in H. rewrite W2 in H. cbn [bind] in H. rewrite Hv in H. discriminate.
Qed.
Lemma first_sims s s2 sim c0 c1 t : first_sim_lines s s2 sim c0 c1 t (fst (scan_text (sim_piece s s2 sim (c0 - 1) (c1 - 1)) (flines t) tt)).
Proof.
  unfold first_sim_lines, text_lines. induction (flines t) as [|l fl IH]; cbn [map filter scan_text].
  - exists [], [], []. split; [reflexivity|]. split; [constructor|]. split; [reflexivity|discriminate].
  - destruct IH as (ls & rest & vals & E1 & F2 & E3 & Hn). destruct (sim_piece s s2 sim (c0 - 1) (c1 - 1) tt l) as [[[] u]|e] eqn:Ep.
    + destruct (sim_ok _ _ _ _ _ _ _ Ep) as [(Hs & K)|(Hs & v & Hv & K)]; injection K as ->.
      * rewrite Hs. cbn [String.eqb negb]. destruct (scan_text _ fl tt) as [u r]. cbn [fst append] in *. exists ls, rest, vals. auto.
      * apply String.eqb_neq in Hs. rewrite Hs. cbn [negb]. destruct (scan_text _ fl tt) as [u r]. cbn [fst] in *. exists (strip l :: ls), rest, (v :: vals). split; [cbn; rewrite E1; reflexivity|]. split; [constructor; assumption|]. split; [|exact Hn].
        cbn [combine map fst snd]. rewrite concat_cons, E3. reflexivity.
    + destruct (sim_err _ _ _ _ _ _ _ Ep) as (Hs & Hno). apply String.eqb_neq in Hs. rewrite Hs. cbn [negb fst]. exists [], (strip l :: filter (fun l => negb (String.eqb l "")) (map strip fl)), []. split; [reflexivity|]. split; [constructor|]. split; [reflexivity|].
      intros l' r v K. injection K as <- _. apply Hno.
Qed.
Lemma first_neighbours s s2 sim k t : first_neighbour_lines s s2 sim k t (fst (scan_text (neigh_piece s s2 sim k) (flat_map (fun w => [(w, false); (w, true)]) (text_lines t)) tt)).
Proof.
  unfold first_neighbour_lines. induction (text_lines t) as [|w ws IH]; cbn [flat_map app scan_text neigh_piece].
  - exists [], [], []. split; [reflexivity|]. split; [constructor|]. split; [reflexivity|discriminate].
  - destruct IH as (ls & rest & ns & E1 & F2 & E3 & Hn). destruct (get_neighbours s w k sim s2) as [l|e] eqn:Eg; cbn [bind].
    + destruct (scan_text _ _ tt) as [u r]. cbn [fst] in *. exists (w :: ls), rest, (l :: ns). split; [cbn; rewrite E1; reflexivity|]. split; [constructor; assumption|]. split; [|exact Hn]. cbn [combine map fst snd]. rewrite concat_cons, E3, !sapp_ass. reflexivity.
    + cbn [fst]. exists [], (w :: ws), []. split; [reflexivity|]. split; [constructor|]. split; [cbn; rewrite sapp_nil; reflexivity|]. intros w' r l K. injection K as <- _. rewrite Eg. discriminate.
Qed.
End PCrash5.
