(** PSave.v -- saving a space succeeds when the output directory is usable *)
From Coq Require Import Ascii.
From Verif Require Import Base PyList Dict Num Dense Sparse Matrix Scaling Linalg Operation Similarity Space Peripheral SpecSpace Learner Composition Utils LexFun Str PStr IO SpecIO PIO Prop_IO PExport Prop_Export Pipe SpecPipe SpecPipe2 PFiles PPipe PPipe2.
Local Open Scope string_scope.
Local Open Scope list_scope.
Local Open Scope nat_scope.
Section Save.
Context {N : Num} {E : Ext} {FI : FloatIO} {PI : PipeIO}.
(** the output prefix [root dirs/nm] can be written: its directories can be made, and no output file is a directory *)
Definition usable_out (fs : fsys) (root : string) (dirs : list string) (nm : string) : Prop :=
  usable_prefix fs root dirs nm /\ dirs <> [] /\ forall ext, In ext [".pkl"; ".dm"; ".sm"; ".rows"; ".cols"] -> fs_dir fs (path root (dirs ++ [nm]) ++ ext) = false.
(** the space can be written in the output format *)
Definition writable_as (f : option string) (s : space) : Prop :=
  f = None \/ (f = Some "dm" /\ consistent s) \/ (f = Some "sm" /\ consistent s /\ s_id2col s <> []).
Lemma export_dirs fs s p f fs1 fs' : create_parent_directories fs p = Ok fs1 -> export fs s p f = Ok fs' -> fs_dir fs' = fs_dir fs1.
Proof.
  intros Hp H. unfold export in H. rewrite Hp in H. cbn [bind] in H. apply bind_ok in H. destruct H as (fs2 & H2 & H). unfold export_row_column in H. apply bind_ok in H. destruct H as (fs3 & H3 & H).
  rewrite (proj2 (proj2 (write_file_ok _ _ _ _ H))).
  assert (K3 : fs_dir fs3 = fs_dir fs2) by (destruct (s_col2id s); [congruence|exact (proj2 (proj2 (write_file_ok _ _ _ _ H3)))]). rewrite K3.
  destruct f as [f|]; [|congruence]. destruct (String.eqb f "dm").
  - apply bind_ok in H2. destruct H2 as (t & _ & H2). exact (proj2 (proj2 (write_file_ok _ _ _ _ H2))).
  - destruct (String.eqb f "sm"); [|discriminate]. apply bind_ok in H2. destruct H2 as (t & _ & H2). exact (proj2 (proj2 (write_file_ok _ _ _ _ H2))).
Qed.
Lemma name_ext nm ext : name nm -> ~ In slash (chars ext) -> 2 <= String.length ext -> name (nm ++ ext).
Proof.
  intros (H1 & _ & H3) He Hl. split; [destruct nm; [congruence|discriminate]|]. split.
  - intros K. apply (f_equal String.length) in K. rewrite slength_app in K. cbn in K. lia.
  - rewrite chars_app, in_app_iff. tauto.
Qed.
Lemma saved_longer p q : saved_target p q -> String.length p < String.length q.
Proof. intros [-> |[-> |[-> |[-> | ->]]]]; rewrite slength_app; cbn; lia. Qed.
Lemma path_prefix_length root dirs a b : dirs = a ++ b -> String.length (path root a) <= String.length (path root dirs).
Proof. intros ->. unfold path. rewrite !slength_app. pose proof (join_prefix_length a b). lia. Qed.
Lemma makedirs_dirs n fs p fs' q : makedirs n fs p = Ok fs' -> fs_dir fs q = true -> fs_dir fs' q = true.
Proof.
  revert fs p fs'. induction n as [|n IH]; intros fs p fs' H; cbn [makedirs] in H; [discriminate|].
  destruct (path_split p) as [h t]. destruct (if String.eqb t "" then path_split h else (h, t)) as [h' t']. apply bind_ok in H. destruct H as (fs1 & H1 & H2). intros K.
  assert (K1 : fs_dir fs1 q = true) by (destruct (_ && _)%bool; [exact (IH _ _ _ H1 K)|congruence]).
  destruct (String.eqb t' "."); [congruence|]. exact (mkdir_dirs _ _ _ _ H2 K1).
Qed.
Lemma parents_dirs fs p fs' q : create_parent_directories fs p = Ok fs' -> fs_dir fs q = true -> fs_dir fs' q = true.
Proof. unfold create_parent_directories. destruct (exists_ fs (dirname p)); [congruence|apply makedirs_dirs]. Qed.
Lemma save_export_total fs s root dirs nm f : usable_out fs root dirs nm -> writable_as f s ->
  exists fs', save_export fs s (path root (dirs ++ [nm])) f = Ok fs' /\ forall nm', usable_out fs root dirs nm' -> usable_out fs' root dirs nm'.
Proof.
  intros (Hu & Hd & Hx) Hw. set (p := path root (dirs ++ [nm])) in *.
  assert (Hlen : String.length (path root dirs) < String.length p) by (unfold p; rewrite path_snoc, !slength_app by exact Hd; cbn; lia).
  pose proof Hu as (U1 & U2 & U3 & U4 & U5 & U6).
  assert (Upkl : usable_prefix fs root dirs (nm ++ ".pkl")).
  { repeat (split; [assumption|]). split; [|auto]. apply name_ext; [exact U3| |cbn; lia]. cbn. intros K; repeat (destruct K as [K|K]; [discriminate|]); exact K. }
  assert (Epkl : path root (dirs ++ [(nm ++ ".pkl")%string]) = (p ++ ".pkl")%string) by (unfold p; rewrite !path_snoc by exact Hd; rewrite !sapp_assoc; reflexivity).
  destruct (parent_created fs root dirs _ Upkl) as (fs1 & Hp & Hf & Hdir & Hnew). rewrite Epkl in Hp, Hdir.
  assert (G1 : forall q, fs_dir fs q = false -> String.length (path root dirs) < String.length q -> fs_dir fs1 q = false).
  { intros q Hq Hl. destruct (fs_dir fs1 q) eqn:Ed; [|reflexivity]. destruct (Hnew _ Ed) as [K|K]; [congruence|lia]. }
  destruct (write_file_total fs1 (p ++ ".pkl") (Pickle (OSpace s))) as (fs2 & Hw2).
  { rewrite <- Epkl. apply path_nonempty, Upkl. } { apply G1; [apply Hx; left; reflexivity|rewrite slength_app; lia]. } { right. exact Hdir. }
  destruct (write_file_ok _ _ _ _ Hw2) as (W1 & W2 & W3).
  assert (Hsave : save fs (OSpace s) (p ++ ".pkl") = Ok fs2) by (unfold save; rewrite Hp; exact Hw2).
  assert (Dn : dirname (p ++ ".pkl") = dirname p) by (apply dirname_app; cbn; intros K; repeat (destruct K as [K|K]; [discriminate|]); exact K).
  (* what holds of any file system with these directories and these changes *)
  assert (G : forall fs', fs_dir fs' = fs_dir fs1 -> only_changes (saved_target p) fs fs' -> forall nm', usable_out fs root dirs nm' -> usable_out fs' root dirs nm').
  { intros fs' Ed Ho nm' ((V1 & V2 & V3 & V4 & V5 & V6) & V7 & V8). split; [|split; [exact V7|]].
    - repeat (split; [assumption|]). split; [intros K; rewrite Ed; apply (parents_dirs _ _ _ _ Hp), V5, K|].
      intros a b Hab Ha. rewrite Ho; [exact (V6 a b Hab Ha)|]. intros K. apply saved_longer in K. pose proof (path_prefix_length root dirs a b Hab). lia.
    - intros ext He. rewrite Ed. apply G1; [exact (V8 ext He)|]. rewrite slength_app, path_snoc, !slength_app by exact Hd. cbn [String.length]. lia. }
  assert (O2 : only_changes (saved_target p) fs fs2) by (eapply only_weaken; [|exact (proj2 (save_ok _ _ _ _ Hsave))]; intros q <-; left; reflexivity).
  unfold save_export. rewrite Hsave. cbn [bind]. destruct f as [f|].
  - assert (Hfc : consistent s /\ (f = "dm" \/ (f = "sm" /\ s_id2col s <> []))).
    { destruct Hw as [K|[(K & Hc)|(K & Hc & Hn)]]; [discriminate|injection K as ->; auto|injection K as ->; auto]. }
    destruct Hfc as (Hc & Hff).
    destruct (G fs2 W3 O2 nm (conj Hu (conj Hd Hx))) as (Hu2 & _ & Hx2).
    assert (In1 : In ("." ++ f)%string [".pkl"; ".dm"; ".sm"; ".rows"; ".cols"]) by (destruct Hff as [-> |(-> & _)]; cbn; auto).
    destruct (C49_export_partial fs2 s root dirs nm f Hc Hu2 Hff (Hx2 _ In1) (Hx2 ".rows" ltac:(cbn; auto)) (Hx2 ".cols" ltac:(cbn; auto 6))) as (fs3 & He & _). fold p in He.
    exists fs3. split; [exact He|]. apply G.
    + rewrite <- W3. apply (export_dirs fs2 s p (Some f) fs2 fs3); [|exact He]. unfold create_parent_directories. rewrite <- Dn.
      replace (exists_ fs2 (dirname (p ++ ".pkl"))) with true; [reflexivity|]. unfold exists_. rewrite W3, Hdir. cbn [orb]. rewrite andb_true_r. symmetry. apply negb_true_iff, String.eqb_neq.
      rewrite <- Epkl. unfold dirname. rewrite path_split_snoc by (try assumption; apply Upkl). cbn [fst]. intros K. destruct dirs as [|d0 dirs']; [congruence|]. apply Forall_inv in U2. unfold path in K.
      destruct U2 as (U2 & _). destruct root; [|discriminate]. cbn [append] in K. unfold join in K. destruct dirs'; cbn in K; destruct d0; try congruence; discriminate.
    + eapply only_trans; [exact O2|]. eapply only_weaken; [|exact (export_only _ _ _ _ _ He)]. intros q K. right. exact K.
  - exists fs2. split; [reflexivity|]. exact (G fs2 W3 O2).
Qed.
(** a list of saves *)
Lemma saves_total root dirs f l : forall fs, (forall e, In e l -> (exists nm, fst e = path root (dirs ++ [nm]) /\ usable_out fs root dirs nm) /\ writable_as f (snd e)) ->
  exists fs', foldM (fun fs ps => save_export fs (snd ps) (fst ps) f) l fs = Ok fs' /\ (forall nm', usable_out fs root dirs nm' -> usable_out fs' root dirs nm').
Proof.
  induction l as [|[p s] l IH]; intros fs H; [exists fs; split; [reflexivity|auto]|]. destruct (H (p, s) (or_introl eq_refl)) as ((nm & Hp & Hu) & Hw). cbn [fst snd] in Hp, Hw. subst p.
  cbn [foldM fst snd]. destruct (save_export_total fs s root dirs nm f Hu Hw) as (fs1 & -> & K1). cbn [bind]. destruct (IH fs1) as (fs2 & H2 & K2).
  { intros e He. destruct (H e (or_intror He)) as ((nm' & Hp' & Hu') & Hw'). split; [|exact Hw']. exists nm'. auto. }
  exists fs2. split; [exact H2|]. auto.
Qed.
(** one text file *)
Definition usable_file (fs : fsys) (root : string) (dirs : list string) (nm : string) : Prop :=
  usable_prefix fs root dirs nm /\ dirs <> [] /\ fs_dir fs (path root (dirs ++ [nm])) = false.
Lemma write_total fs root dirs nm : usable_file fs root dirs nm ->
  exists fs1, create_parent_directories fs (path root (dirs ++ [nm])) = Ok fs1 /\
    forall c, exists fs', write_file fs1 (path root (dirs ++ [nm])) c = Ok fs' /\ forall nm', usable_file fs root dirs nm' -> usable_file fs' root dirs nm'.
Proof.
  intros (Hu & Hd & Hx). set (p := path root (dirs ++ [nm])) in *.
  destruct (parent_created fs root dirs _ Hu) as (fs1 & Hp & Hf & Hdir & Hnew). fold p in Hp, Hdir. exists fs1. split; [exact Hp|]. intros c.
  assert (Hlen : forall n, String.length (path root dirs) < String.length (path root (dirs ++ [n]))) by (intros n; rewrite path_snoc, !slength_app by exact Hd; cbn; lia).
  assert (G1 : forall q, fs_dir fs q = false -> String.length (path root dirs) < String.length q -> fs_dir fs1 q = false).
  { intros q Hq Hl. destruct (fs_dir fs1 q) eqn:Ed; [|reflexivity]. destruct (Hnew _ Ed) as [K|K]; [congruence|lia]. }
  destruct (write_file_total fs1 p c) as (fs2 & Hw2); [apply path_nonempty, Hu|apply G1; [exact Hx|apply Hlen]|right; exact Hdir|]. exists fs2. split; [exact Hw2|].
  destruct (write_file_ok _ _ _ _ Hw2) as (W1 & W2 & W3). intros nm' ((V1 & V2 & V3 & V4 & V5 & V6) & V7 & V8). split; [|split; [exact V7|]].
  - repeat (split; [assumption|]). split; [intros K; rewrite W3; apply (parents_dirs _ _ _ _ Hp), V5, K|].
    intros a b Hab Ha. rewrite W2, Hf; [exact (V6 a b Hab Ha)|]. intros K. pose proof (path_prefix_length root dirs a b Hab). pose proof (Hlen nm). fold p in H0. rewrite K in H. lia.
  - rewrite W3. apply G1; [exact V8|apply Hlen].
Qed.
End Save.
