(** PCrash4.v -- programs that can be run again after they were killed. *)
From Coq Require Import Ascii FunctionalExtensionality.
From Verif Require Import Base PyList Dict Num Dense Sparse Matrix Scaling Linalg Operation Similarity Space Peripheral Learner Composition Utils LexFun Str PStr IO Pipe Crash SpecCrash PCrash PCrash2 PCrash3.
Local Open Scope string_scope.
Local Open Scope list_scope.
Local Open Scope nat_scope.

Section PCrash4.
Context {N : Num} {E : Ext} {FI : FloatIO} {PI : PipeIO} {KI : PickleIO}.

(** ** what a run leaves *)
Lemma runs_leave R D fs t n : runs R D t -> leaves R D fs (disk_at fs t n).
Proof.
  intros (W & H1 & H2 & H3). unfold disk_at. split; [|split].
  - intros q. unfold left_at. rewrite (file_nf (firstn n (fst t)) fs fs eq_refl). destruct (nf_firstn (fst t) n) as (m & ->). rewrite H1. destruct (jobs_part W fs m q) as [K|(c & Hc & K)]; [left; exact K|right]. exists c. split; [|exact K]. rewrite Forall_forall in H2. apply H2, Hc.
  - intros d Hd. rewrite dir_made, Hd. reflexivity.
  - intros d Hd. rewrite dir_made in Hd. apply orb_true_iff in Hd. destruct Hd as [Hd|Hd]; [left; exact Hd|right]. apply existsb_exists in Hd. destruct Hd as (d' & Hi & He). apply String.eqb_eq in He. subst d'. rewrite Forall_forall in H3. apply H3. exact (made_firstn _ _ _ Hi).
Qed.
Lemma runs_stopped R D fs t st : runs R D t -> stopped fs t st -> leaves R D fs st.
Proof. intros H (n & ->). apply runs_leave, H. Qed.
Lemma stopped_end fs t fs' : sound fs t -> snd t = Ok fs' -> stopped fs t fs'.
Proof. intros (H & _) K. exists (length (fst t)). unfold disk_at. rewrite firstn_all. apply H, K. Qed.
Lemma runs_end R D fs t fs' : sound fs t -> runs R D t -> snd t = Ok fs' -> leaves R D fs fs'.
Proof. intros H K L. apply (runs_stopped _ _ _ t); [exact K|]. apply stopped_end; assumption. Qed.
Lemma runs_fold_inv {A} (I : fsys -> Prop) R D (f : fsys -> A -> tr fsys) l :
  (forall fs x, In x l -> I fs -> runs R D (f fs x)) -> (forall fs x fs', In x l -> I fs -> snd (f fs x) = Ok fs' -> I fs') -> forall fs, I fs -> runs R D (foldT f l fs).
Proof.
  induction l as [|x l IH]; intros H K fs Hi; [apply runs_lift|]. cbn [foldT]. apply runs_bind; [apply H; [left; reflexivity|exact Hi]|]. intros fs' Hf. apply IH.
  - intros fs0 y Hy. apply H. right. exact Hy.
  - intros fs0 y fs1 Hy. apply K. right. exact Hy.
  - exact (K fs x fs' (or_introl eq_refl) Hi Hf).
Qed.
(** ** agreement on files I and directories J *)
Definition agree (I J : string -> Prop) (a b : fsys) : Prop := (forall q, I q -> fs_file a q = fs_file b q) /\ (forall q, J q -> fs_dir a q = fs_dir b q).
Lemma agree_refl I J a : agree I J a a.
Proof. split; reflexivity. Qed.
Lemma agree_sym I J a b : agree I J a b -> agree I J b a.
Proof. intros (H1 & H2). split; intros q Hq; symmetry; auto. Qed.
Lemma agree_trans I J a b c : agree I J a b -> agree I J b c -> agree I J a c.
Proof. intros (H1 & H2) (K1 & K2). split; intros q Hq; [rewrite H1|rewrite H2]; auto. Qed.
Definition avoids (I J : string -> Prop) {A} (t : tr A) : Prop := runs (fun w => ~ I (fst w)) (fun d => ~ J d) t.
Lemma avoids_stopped I J fs t st : avoids I J t -> stopped fs t st -> agree I J st fs.
Proof.
  intros H K. destruct (runs_stopped _ _ _ _ _ H K) as (L1 & L2 & L3). split; intros q Hq.
  - destruct (L1 q) as [L|(c & Hc & _)]; [exact L|]. exfalso. exact (Hc Hq).
  - destruct (fs_dir fs q) eqn:Ed; [apply L2, Ed|]. destruct (fs_dir st q) eqn:Es; [|reflexivity]. destruct (L3 q Es) as [L|L]; [congruence|contradiction].
Qed.

(** ** programs that can be repeated *)
Definition redo (I J : string -> Prop) (f : fsys -> tr fsys) : Prop :=
  forall a st b a', snd (f a) = Ok a' -> grows a st -> grows st b -> sane st -> sane b -> grows a' b -> agree I J st a ->
  exists st', snd (f st) = Ok st' /\ grows a' st' /\ grows st' b /\ nf (fst (f st)) = nf (fst (f a)).
Definition good (I J : string -> Prop) (f : fsys -> tr fsys) : Prop := (forall fs, sound fs (f fs)) /\ (forall fs, avoids I J (f fs)) /\ redo I J f.
Lemma sound_grows fs t fs' : sound fs t -> snd t = Ok fs' -> grows fs fs'.
Proof. intros (H & _) K. rewrite (H _ K). apply grows_replay. Qed.
Lemma sound_sane fs t fs' : sound fs t -> snd t = Ok fs' -> sane fs -> sane fs'.
Proof. intros (H & H2) K L. rewrite (H _ K). rewrite <- (firstn_all (fst t)). apply H2, L. Qed.
Lemma good_id (I J : string -> Prop) : good I J (fun fs => lift (Ok fs)).
Proof.
  split; [intros; apply sound_lift|]. split; [intros; apply runs_lift|]. intros a st b a' H Ga Gb _ _ _ _. cbn in H. injection H as <-. exists st. cbn. auto.
Qed.
Lemma good_err (I J : string -> Prop) e : good I J (fun fs => lift (Err e)).
Proof. split; [intros; apply sound_err|]. split; [intros; apply runs_lift|]. intros a st b a' H. discriminate. Qed.
Lemma good_bind (I J : string -> Prop) f k : good I J f -> good I J k -> good I J (fun fs => tbind (f fs) k).
Proof.
  intros (Sf & Af & Rf) (Sk & Ak & Rk). split; [intros fs; apply sound_bind; auto|]. split; [intros fs; apply runs_bind; [apply Af|intros x _; apply Ak]|].
  intros a st b a' H Ga Gb Ss Sb Gb' Ag. apply tbind_ok in H. destruct H as (a1 & H1 & H). pose proof (sound_grows _ _ _ (Sk a1) H) as G1.
  destruct (Rf a st b a1 H1 Ga Gb Ss Sb (grows_trans _ _ _ G1 Gb') Ag) as (st1 & K1 & K2 & K3 & K4).
  assert (Ag1 : agree I J st1 a1).
  { apply (agree_trans _ _ _ st); [exact (avoids_stopped _ _ _ _ _ (Af st) (stopped_end _ _ _ (Sf st) K1))|]. apply (agree_trans _ _ _ a); [exact Ag|]. apply agree_sym. exact (avoids_stopped _ _ _ _ _ (Af a) (stopped_end _ _ _ (Sf a) H1)). }
  destruct (Rk a1 st1 b a' H K2 K3 (sound_sane _ _ _ (Sf st) K1 Ss) Sb Gb' Ag1) as (st' & L1 & L2 & L3 & L4). exists st'.
  destruct (f st) as [l1 r1], (f a) as [l2 r2]. cbn [snd fst] in *. subst r1 r2. cbn [tbind fst snd]. rewrite !nf_app, K4, L4. auto.
Qed.
Lemma good_pure {A} (I J : string -> Prop) (r : fsys -> res A) k : (forall a st v, agree I J st a -> r a = Ok v -> r st = Ok v) -> (forall v, good I J (k v)) -> good I J (fun fs => tbind (lift (r fs)) (fun v => k v fs)).
Proof.
  intros Hr Hk. split; [intros fs; apply sound_pure; intros v; apply (Hk v)|]. split; [intros fs; apply runs_bind; [apply runs_lift|intros v _; apply (Hk v)]|].
  intros a st b a' H Ga Gb Ss Sb Gb' Ag. rewrite tbind_lift in H. destruct (r a) as [v|] eqn:Ev; [|discriminate]. rewrite !tbind_lift, (Hr _ _ _ Ag Ev). destruct (Hk v) as (_ & _ & Rk). eapply Rk; eassumption.
Qed.
Lemma good_const {A} (I J : string -> Prop) (r : res A) k : (forall v, r = Ok v -> good I J (k v)) -> good I J (fun fs => tbind (lift r) (fun v => k v fs)).
Proof.
  intros Hk. destruct r as [v|e].
  - destruct (Hk v eq_refl) as (H1 & H2 & H3). split; [|split].
    + intros fs. rewrite tbind_lift. apply H1.
    + intros fs. rewrite tbind_lift. apply H2.
    + intros a st b a'. rewrite !tbind_lift. apply H3.
  - exact (good_err I J e).
Qed.
Lemma good_fold {A} (I J : string -> Prop) (f : fsys -> A -> tr fsys) l : (forall x, In x l -> good I J (fun fs => f fs x)) -> good I J (foldT f l).
Proof.
  induction l as [|x l IH]; intros H; [apply good_id|]. cbn [foldT]. apply (good_bind I J (fun fs => f fs x) (foldT f l)); [apply H; left; reflexivity|]. apply IH. intros y Hy. apply H. right. exact Hy.
Qed.
Lemma good_parents (I J : string -> Prop) p : (forall d, J d -> ~ leads d (dirname p)) -> good I J (fun fs => t_parents fs p).
Proof.
  intros HJ. split; [intros; apply sound_parents|]. split.
  - intros fs. eapply runs_weaken; [| |apply (runs_parents (fun _ => False))]; [intros w []|]. intros d Hd K. exact (HJ d K Hd).
  - intros a st b a' H Ga Gb Ss Sb Gb' _. apply same_parents in H. destruct (parents_again _ _ _ _ _ H Ga Gb Ss Sb Gb') as (st' & K1 & K2 & K3). exists st'. split; [apply same_parents, K1|]. split; [exact K2|]. split; [exact K3|]. rewrite !nf_parents. reflexivity.
Qed.
Lemma good_job (I J : string -> Prop) p c (r : res unit) t : ~ I p ->
  (forall fs, t fs = match write_file fs p (Text "") with Err e => ([], Err e) | Ok _ => (job (p, c), match r with Ok _ => Ok (setf fs p c) | Err e => Err e end) end) ->
  good I J t.
Proof.
  intros HI Ht. split; [|split].
  - intros fs. rewrite Ht. destruct (write_file fs p (Text "")) eqn:Ew; [|apply (sound_err fs)]. apply sound_job; cbn [fst snd]; [rewrite Ew; reflexivity|]. intros fs'. destruct r; [|discriminate]. intros H. injection H as <-. reflexivity.
  - intros fs. rewrite Ht. destruct (write_file fs p (Text "")); [|apply runs_nil]. apply runs_job. exact HI.
  - intros a st b a' H Ga Gb Ss Sb Gb' _. rewrite !Ht in *. destruct (write_file a p (Text "")) as [x|] eqn:Ew; [|discriminate]. cbn [snd] in H. destruct r as [[]|]; [|discriminate]. injection H as <-.
    assert (Ew' : write_file a p c = Ok (setf a p c)) by (rewrite write_file_eq, Ew; reflexivity).
    destruct (write_again _ _ _ _ _ c _ Ew' Ga Gb Sb Gb') as (K1 & K2 & K3). rewrite write_file_eq in K1. destruct (write_file st p (Text "")); [|discriminate]. exists (setf st p c). cbn [fst snd]. auto.
Qed.
Lemma good_write {A S} (I J : string -> Prop) p (g : S -> A -> res (S * string)) l st : ~ I p -> good I J (fun fs => t_write fs p g l st).
Proof. intros H. apply (good_job I J p (Text (fst (scan_text g l st))) (snd (scan_text g l st))); [exact H|]. intros fs. apply t_write_eq. Qed.
Lemma good_dump (I J : string -> Prop) p o : ~ I p -> good I J (fun fs => t_dump fs p o).
Proof. intros H. apply (good_job I J p (Pickle o) (Ok tt)); [exact H|]. intros fs. apply t_dump_eq. Qed.
Lemma good_ext (I J : string -> Prop) f g : (forall fs, f fs = g fs) -> good I J f -> good I J g.
Proof.
  intros H (H1 & H2 & H3). split; [intros fs; rewrite <- H; auto|]. split; [intros fs; rewrite <- H; auto|]. intros a st b a'. rewrite <- !H. apply H3.
Qed.
Lemma good_print_sparse (I J : string -> Prop) m r c p : ~ I p -> good I J (fun fs => t_print_sparse fs m r c p).
Proof.
  intros H. destruct (Nat.eqb (length c) 0) eqn:Ec.
  - apply (good_ext I J (fun fs => lift (Err ValueError))); [|apply good_err]. intros fs. rewrite print_sparse_eq, Ec. reflexivity.
  - apply (good_job I J p (Text (fst (sparse_written m r c))) (snd (sparse_written m r c))); [exact H|]. intros fs. rewrite print_sparse_eq, Ec. reflexivity.
Qed.

(** ** saving *)
Definition off (I J : string -> Prop) (out : string) : Prop :=
  (forall ext, In ext [".pkl"; ".dm"; ".sm"; ".rows"; ".cols"] -> ~ I (out ++ ext)%string) /\ (forall d, J d -> ~ leads d out).
Lemma dirname_leads p : leads (dirname p) p.
Proof. apply path_split_leads. Qed.
Lemma good_save (I J : string -> Prop) o p : ~ I p -> (forall d, J d -> ~ leads d (dirname p)) -> good I J (fun fs => t_save fs o p).
Proof. intros H K. unfold t_save. apply (good_bind I J (fun fs => t_parents fs p) (fun fs => t_dump fs p o)); [apply good_parents, K|apply good_dump, H]. Qed.
Lemma good_export (I J : string -> Prop) s p f : (forall ext, In ext [".dm"; ".sm"; ".rows"; ".cols"] -> ~ I (p ++ ext)%string) -> (forall d, J d -> ~ leads d (dirname p)) -> good I J (fun fs => t_export fs s p f).
Proof.
  intros H K. unfold t_export. apply (good_bind I J (fun fs => t_parents fs p)); [apply good_parents, K|].
  apply (good_bind I J (fun fs => match f with
              | None => lift (Ok fs)
              | Some f =>
                  if String.eqb f "dm" then t_print_dense fs (s_mat s) (s_id2row s) (p ++ ".dm")
                  else if String.eqb f "sm" then t_print_sparse fs (s_mat s) (s_id2row s) (s_id2col s) (p ++ ".sm")
                  else lift (Err ValueError)
              end)).
  - destruct f as [f|]; [|apply good_id]. destruct (String.eqb f "dm"); [apply good_write, H; cbn; auto|]. destruct (String.eqb f "sm"); [apply good_print_sparse, H; cbn; auto|apply good_err].
  - unfold t_export_row_column. apply (good_bind I J (fun fs => match s_col2id s with [] => lift (Ok fs) | _ => t_print_list fs (s_id2col s) (p ++ ".cols") end)).
    + destruct (s_col2id s); [apply good_id|]. apply good_write, H; cbn; auto.
    + apply good_write, H; cbn; auto.
Qed.
Lemma good_save_export (I J : string -> Prop) s out fmt : off I J out -> good I J (fun fs => t_save_export fs s out fmt).
Proof.
  intros (H & K). assert (L : forall d, J d -> ~ leads d (dirname out)) by (intros d Hd Hl; exact (K d Hd (leads_trans _ _ _ Hl (dirname_leads out)))).
  unfold t_save_export. apply (good_bind I J (fun fs => t_save fs (OSpace s) (out ++ ".pkl"))).
  - apply good_save; [apply H; left; reflexivity|]. rewrite dirname_app; [exact L|]. cbn. intros Q; repeat (destruct Q as [Q|Q]; [discriminate|]); exact Q.
  - destruct fmt as [f|]; [|apply good_id]. apply good_export; [|exact L]. intros ext Hx. apply H. right. exact Hx.
Qed.
Lemma good_combinations (I J : string -> Prop) s out_dir descr fmt ws xs rs ns : (forall w x r n, In w ws -> In x xs -> In r rs -> In n ns -> off I J (out_dir ++ "/" ++ space_descr [Some descr; w; x; r; n])%string) ->
  good I J (fun fs => t_combinations fs s out_dir descr fmt ws xs rs ns).
Proof.
  intros H. unfold t_combinations. apply good_fold. intros w Hw. apply (good_const I J (apply_weighting s w)). intros a _. apply good_fold. intros x Hx. apply (good_const I J (apply_selection a x)). intros b _.
  apply good_fold. intros r Hr. apply (good_const I J (apply_reduction b r)). intros c _. apply good_fold. intros n Hn. apply (good_const I J (apply_normalization c n)). intros d _. apply good_save_export. auto.
Qed.

(** ** repeating *)
Theorem rerun I J f fs fs' st : good I J f -> sane fs -> snd (f fs) = Ok fs' -> stopped fs (f fs) st -> snd (f st) = Ok fs'.
Proof.
  intros (Sf & Af & Rf) Hs H Hst. destruct (Sf fs) as (S1 & S2). pose proof (S1 _ H) as Efs.
  assert (Ag : agree I J st fs) by exact (avoids_stopped _ _ _ _ _ (Af fs) Hst).
  destruct (Af fs) as (W & HW & HI & HJ). destruct Hst as (n & ->). unfold disk_at in *. set (st := replay fs (firstn n (fst (f fs)))) in *.
  assert (G1 : grows fs st) by apply grows_replay. assert (G2 : grows st fs') by (rewrite Efs, <- (firstn_skipn n (fst (f fs))), replay_app; apply grows_replay).
  assert (Ss : sane st) by (apply S2, Hs). assert (Sb : sane fs') by (rewrite Efs, <- (firstn_all (fst (f fs))); apply S2, Hs).
  destruct (Rf fs st fs' fs' H G1 G2 Ss Sb (grows_refl _) Ag) as (st' & K1 & K2 & K3 & K4). rewrite K1. f_equal. pose proof (proj1 (Sf st) _ K1) as Est.
  assert (Files : fs_file st' = fs_file fs').
  { apply functional_extensionality. intros q. rewrite Est, (file_nf (fst (f st)) st st eq_refl), K4, HW, jobs_all, fold_latest. rewrite Efs, (file_nf (fst (f fs)) fs fs eq_refl), HW, jobs_all, fold_latest.
    destruct (latest q W) eqn:El; [reflexivity|]. unfold st. rewrite (file_nf (firstn n (fst (f fs))) fs fs eq_refl). destruct (nf_firstn (fst (f fs)) n) as (m & ->). rewrite HW. destruct (jobs_part W fs m q) as [L|(c & Hc & _)]; [exact L|]. exfalso. exact (latest_in _ _ _ Hc El). }
  assert (Dirs : fs_dir st' = fs_dir fs').
  { apply functional_extensionality. intros q. destruct (fs_dir fs' q) eqn:Ed; [apply (proj1 K2), Ed|]. destruct (fs_dir st' q) eqn:Es; [|reflexivity]. apply (proj1 K3) in Es. congruence. }
  destruct st' as [f1 d1], fs' as [f2 d2]. cbn in Files, Dirs. subst. reflexivity.
Qed.
Theorem rerun_many I J f fs fs' st : good I J f -> sane fs -> snd (f fs) = Ok fs' -> interrupted f fs st -> sane st /\ snd (f st) = Ok fs'.
Proof.
  intros G Hs H K. induction K as [|st st' K (IH1 & IH2) L]; [auto|]. split; [|exact (rerun _ _ _ _ _ _ G IH1 IH2 L)]. destruct L as (n & ->). destruct G as (Sf & _). apply (proj2 (Sf st)), IH1.
Qed.
End PCrash4.
