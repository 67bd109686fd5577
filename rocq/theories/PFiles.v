(** PFiles.v -- which files the writing functions touch *)
From Coq Require Import Ascii.
From Verif Require Import Base PyList Dict Num Dense Sparse Matrix Scaling Linalg Operation Similarity Space Peripheral Learner Composition Utils LexFun Str PStr IO SpecIO PExport Prop_Export Pipe SpecPipe2.
Local Open Scope string_scope.
Local Open Scope list_scope.
Local Open Scope nat_scope.
(** ** names *)
Lemma split_on_none c s : ~ In c (chars s) -> split_on c s = [s].
Proof.
  induction s as [|x s IH]; intros H; [reflexivity|]. cbn [split_on]. destruct (Ascii.eqb_spec x c) as [->|]; [exfalso; apply H; left; reflexivity|].
  rewrite IH by (intros K; apply H; right; exact K). reflexivity.
Qed.
Lemma split_on_nonempty c s : split_on c s <> [].
Proof. destruct s as [|x s]; [discriminate|]. cbn [split_on]. destruct (Ascii.eqb x c); [discriminate|]. destruct (split_on c s); discriminate. Qed.
Lemma split_on_app c a b : split_on c (a ++ String c b) = split_on c a ++ split_on c b.
Proof.
  induction a as [|x a IH]; cbn [append split_on app]; [rewrite Ascii.eqb_refl; reflexivity|]. destruct (Ascii.eqb x c); [rewrite IH; reflexivity|]. rewrite IH.
  pose proof (split_on_nonempty c a). destruct (split_on c a); [congruence|]. reflexivity.
Qed.
Lemma split_on_parts c s : Forall (fun w => ~ In c (chars w)) (split_on c s).
Proof.
  induction s as [|x s IH]; [repeat constructor; intros []|]. cbn [split_on]. destruct (Ascii.eqb_spec x c); [constructor; [intros []|exact IH]|].
  destruct (split_on c s) as [|w ws]; [repeat constructor; intros [K|[]]; congruence|]. inversion IH; subst. constructor; [|assumption]. intros [K|K]; [congruence|contradiction].
Qed.
Lemma join_split_on c s : join (str1 c) (split_on c s) = s.
Proof.
  unfold join. induction s as [|x s IH]; [reflexivity|]. cbn [split_on]. destruct (Ascii.eqb_spec x c) as [->|].
  - pose proof (split_on_nonempty c s). destruct (split_on c s) as [|w ws]; [congruence|]. change (String.concat (str1 c) ("" :: w :: ws)) with (str1 c ++ String.concat (str1 c) (w :: ws))%string. rewrite IH. reflexivity.
  - pose proof (split_on_nonempty c s). destruct (split_on c s) as [|w ws]; [congruence|]. destruct ws as [|v ws]; cbn [String.concat append] in *; rewrite IH; reflexivity.
Qed.
Lemma base_name_noslash p : ~ In slash (chars (base_name p)).
Proof.
  unfold base_name, last_part. pose proof (split_on_parts slash p) as H. pose proof (split_on_nonempty slash p) as K. destruct (exists_last K) as (l & x & E). rewrite E in *.
  rewrite last_last. rewrite Forall_app in H. destruct H as (_ & H). inversion H. assumption.
Qed.
Lemma base_name_file p nm : file_name p nm -> base_name p = nm.
Proof.
  intros (H & [-> |(d & ->)]); unfold base_name, last_part.
  - rewrite split_on_none by exact H. reflexivity.
  - cbn [append]. change (String "/" nm) with (String slash nm). rewrite split_on_app, (split_on_none slash nm H). apply last_last.
Qed.
Lemma file_name_base p : file_name p (base_name p).
Proof.
  split; [apply base_name_noslash|]. unfold base_name, last_part. pose proof (split_on_nonempty slash p) as K. destruct (exists_last K) as (l & x & E). rewrite E. rewrite last_last.
  pose proof (join_split_on slash p) as J. rewrite E in J. destruct l as [|y l]; [left; symmetry; exact J|right]. exists (join "/" (y :: l)). rewrite join_snoc in J by discriminate. symmetry. exact J.
Qed.
Section Files.
Context {N : Num} {E : Ext} {FI : FloatIO}.
Lemma mkdir_files fs p fs' : mkdir fs p = Ok fs' -> fs_file fs' = fs_file fs.
Proof. unfold mkdir. destruct (_ || _)%bool; [discriminate|]. intros H. injection H as <-. reflexivity. Qed.
Lemma makedirs_files n fs p fs' : makedirs n fs p = Ok fs' -> fs_file fs' = fs_file fs.
Proof.
  revert fs p fs'. induction n as [|n IH]; intros fs p fs' H; cbn [makedirs] in H; [discriminate|].
  destruct (path_split p) as [h t]. destruct (if String.eqb t "" then path_split h else (h, t)) as [h' t']. apply bind_ok in H. destruct H as (fs1 & H1 & H2).
  assert (K : fs_file fs1 = fs_file fs) by (destruct (_ && _)%bool; [exact (IH _ _ _ H1)|congruence]). rewrite <- K.
  destruct (String.eqb t' "."); [congruence|]. exact (mkdir_files _ _ _ H2).
Qed.
Lemma parents_files fs p fs' : create_parent_directories fs p = Ok fs' -> fs_file fs' = fs_file fs.
Proof. unfold create_parent_directories. destruct (exists_ fs (dirname p)); [congruence|apply makedirs_files]. Qed.
(** directories are never removed *)
Lemma mkdir_dirs fs p fs' q : mkdir fs p = Ok fs' -> fs_dir fs q = true -> fs_dir fs' q = true.
Proof. unfold mkdir. destruct (_ || _)%bool; [discriminate|]. intros H. injection H as <-. cbn. intros ->. apply orb_true_r. Qed.

Lemma only_trans (P : string -> Prop) a b c : only_changes P a b -> only_changes P b c -> only_changes P a c.
Proof. intros H K q Hq. rewrite (K q Hq). apply H, Hq. Qed.
Lemma only_weaken (P Q : string -> Prop) a b : (forall q, P q -> Q q) -> only_changes P a b -> only_changes Q a b.
Proof. intros H K q Hq. apply K. intros HP. apply Hq, H, HP. Qed.
Lemma only_refl P a : only_changes P a a.
Proof. intros q _. reflexivity. Qed.
Lemma only_same P a b : fs_file b = fs_file a -> only_changes P a b.
Proof. intros H q _. rewrite H. reflexivity. Qed.

Lemma write_parents fs fs1 fs' p c : create_parent_directories fs p = Ok fs1 -> write_file fs1 p c = Ok fs' -> fs_file fs' p = Some c /\ only_changes (eq p) fs fs'.
Proof.
  intros H K. apply parents_files in H. destruct (write_file_ok _ _ _ _ K) as (K1 & K2 & _). split; [exact K1|]. intros q Hq. rewrite K2 by congruence. rewrite H. reflexivity.
Qed.
Lemma save_ok fs o p fs' : save fs o p = Ok fs' -> fs_file fs' p = Some (Pickle o) /\ only_changes (eq p) fs fs'.
Proof. unfold save. intros H. apply bind_ok in H. destruct H as (fs1 & H1 & H2). exact (write_parents _ _ _ _ _ H1 H2). Qed.
(** the files of an export *)
Definition export_target (prefix q : string) : Prop :=
  q = (prefix ++ ".dm")%string \/ q = (prefix ++ ".sm")%string \/ q = (prefix ++ ".rows")%string \/ q = (prefix ++ ".cols")%string.
Lemma export_only fs s prefix f fs' : export fs s prefix f = Ok fs' -> only_changes (export_target prefix) fs fs'.
Proof.
  unfold export. intros H. apply bind_ok in H. destruct H as (fs1 & H1 & H). apply bind_ok in H. destruct H as (fs2 & H2 & H).
  unfold export_row_column in H. apply bind_ok in H. destruct H as (fs3 & H3 & H).
  assert (K1 : only_changes (export_target prefix) fs fs1) by (apply only_same, (parents_files _ _ _ H1)).
  assert (W : forall a b p c, write_file a p c = Ok b -> export_target prefix p -> only_changes (export_target prefix) a b).
  { intros a b p c Hw Hp q Hq. apply (proj1 (proj2 (write_file_ok _ _ _ _ Hw))). intros ->. contradiction. }
  assert (K2 : only_changes (export_target prefix) fs1 fs2).
  { destruct f as [f|]; [|injection H2 as <-; apply only_refl]. destruct (String.eqb f "dm").
    - apply bind_ok in H2. destruct H2 as (t & _ & H2). apply (W _ _ _ _ H2). left. reflexivity.
    - destruct (String.eqb f "sm"); [|discriminate]. apply bind_ok in H2. destruct H2 as (t & _ & H2). apply (W _ _ _ _ H2). right. left. reflexivity. }
  assert (K3 : only_changes (export_target prefix) fs2 fs3).
  { destruct (s_col2id s); [injection H3 as <-; apply only_refl|]. apply (W _ _ _ _ H3). right. right. right. reflexivity. }
  eapply only_trans; [exact K1|]. eapply only_trans; [exact K2|]. eapply only_trans; [exact K3|]. apply (W _ _ _ _ H). right. right. left. reflexivity.
Qed.
Lemma pkl_not_exported p : ~ export_target p (p ++ ".pkl").
Proof. intros [H|[H|[H|H]]]; apply sapp_inj in H; discriminate. Qed.
Definition saved_target (p q : string) : Prop := q = (p ++ ".pkl")%string \/ export_target p q.
Lemma save_export_ok fs s p f fs' : save_export fs s p f = Ok fs' ->
  fs_file fs' (p ++ ".pkl") = Some (Pickle (OSpace s)) /\ only_changes (saved_target p) fs fs'.
Proof.
  unfold save_export. intros H. apply bind_ok in H. destruct H as (fs1 & H1 & H). destruct (save_ok _ _ _ _ H1) as (K1 & K2). destruct f as [f|].
  - pose proof (export_only _ _ _ _ _ H) as K3. split.
    + rewrite K3 by apply pkl_not_exported. exact K1.
    + eapply only_trans; [eapply only_weaken; [|exact K2]|eapply only_weaken; [|exact K3]]; [intros q <-; left; reflexivity|intros q Hq; right; exact Hq].
  - injection H as <-. split; [exact K1|]. eapply only_weaken; [|exact K2]. intros q <-. left. reflexivity.
Qed.
End Files.
