(** PPipe3.v -- lemmas for C57, C61, C63-C65. *)
From Coq Require Import Ascii.
From Verif Require Import Base PyList Dict Num Dense Sparse Matrix Scaling Linalg Operation Similarity Space Peripheral SpecSpace Learner Composition Utils LexFun Str PStr IO SpecIO PIO Prop_IO PExport Prop_Export Pipe SpecPipe SpecPipe2 PFiles PPipe PPipe2 PSave SpecPipe3.
Local Open Scope string_scope.
Local Open Scope list_scope.
Local Open Scope nat_scope.
(** ** names *)
Lemma stem_parts_ext p d e : file_name p (d ++ "." ++ e) -> ~ In "."%char (chars e) -> stem_parts p = split_on dot d.
Proof.
  intros H He. unfold stem_parts. rewrite (base_name_file _ _ H). change ("." ++ e)%string with (String dot e). rewrite split_on_app, (split_on_none dot e He). apply removelast_last.
Qed.
Lemma stem_parts_bare p nm : file_name p nm -> ~ In "."%char (chars nm) -> stem_parts p = [].
Proof. intros H He. unfold stem_parts. rewrite (base_name_file _ _ H), (split_on_none dot nm He). reflexivity. Qed.
Lemma stem_eq p d : stem_of p d -> stem p = d.
Proof.
  intros [p' d' e H He|p' nm H He]; unfold stem; [rewrite (stem_parts_ext _ _ _ H He); apply (join_split_on dot)|rewrite (stem_parts_bare _ _ H He); reflexivity].
Qed.
Lemma stem_of_stem p : stem_of p (stem p).
Proof.
  unfold stem, stem_parts. pose proof (file_name_base p) as H. pose proof (split_on_nonempty dot (base_name p)) as K. pose proof (split_on_parts dot (base_name p)) as Q. destruct (exists_last K) as (l & x & E). rewrite E in *.
  rewrite removelast_last. pose proof (join_split_on dot (base_name p)) as J. rewrite E in J. apply Forall_app in Q. destruct Q as (_ & Q). apply Forall_inv in Q. destruct l as [|y l].
  - cbn [join String.concat app] in *. unfold join in J. cbn in J. subst x. eapply stem_none; eassumption.
  - change (str1 dot) with "." in J. rewrite join_snoc in J by discriminate. eapply stem_ext; [rewrite J; exact H|exact Q].
Qed.
Lemma join_cons a l : join "." (a :: l) = match l with [] => a | _ => (a ++ "." ++ join "." l)%string end.
Proof. destruct l; reflexivity. Qed.
Lemma described_eq kind in_file nm files d : file_name in_file nm -> described files d -> sims_descr kind in_file files = Ok (kind ++ "." ++ nm ++ "." ++ d)%string.
Proof.
  intros Hn Hd. assert (J3 : forall a b c, join "." [a; b; c] = (a ++ "." ++ b ++ "." ++ c)%string) by reflexivity.
  destruct Hd as [f r d Hr Hs|f g d d2 e Hs Hg He|f g d x Hs Hg He]; cbn [sims_descr].
  - rewrite (base_name_file _ _ Hn), (stem_eq _ _ Hs), J3. destruct r as [|? [|? ?]]; cbn in Hr; [reflexivity|lia|reflexivity].
  - rewrite (base_name_file _ _ Hn), (stem_eq _ _ Hs), (stem_parts_ext _ _ _ Hg He), J3, join_cons. pose proof (split_on_nonempty dot d2). pose proof (join_split_on dot d2) as Jd. destruct (split_on dot d2) eqn:E2; [congruence|]. change (str1 dot) with "." in Jd. rewrite Jd. reflexivity.
  - rewrite (base_name_file _ _ Hn), (stem_eq _ _ Hs), (stem_parts_bare _ _ Hg He), J3. reflexivity.
Qed.
Lemma described_ex files : files <> [] -> exists d, described files d.
Proof.
  destruct files as [|f r]; [congruence|]. intros _. destruct r as [|g [|h r]].
  - exists (stem f). apply ds_one; [discriminate|apply stem_of_stem].
  - destruct (stem_of_stem g) as [g d2 e H He|g nm H He]; [exists (stem f ++ "." ++ d2)%string; eapply ds_two; eauto using stem_of_stem|exists (stem f); eapply ds_bare; eauto using stem_of_stem].
  - exists (stem f). apply ds_one; [discriminate|apply stem_of_stem].
Qed.
Lemma measure_iff m sim : measure m = Some sim <-> measure_named m sim.
Proof.
  split.
  - unfold measure. repeat (match goal with |- context [String.eqb m ?c] => destruct (String.eqb_spec m c) as [-> |_]; [intros H; injection H as <-; constructor|] end). discriminate.
  - intros H. destruct H; reflexivity.
Qed.
Lemma column_field line c w : column line c w <-> has_field (split line) (c - 1) w.
Proof.
  unfold column, has_field, denotes. split; intros (p & H1 & H2); exists p.
  - split; [|exact H1]. assert (p < length (split line)) by (apply nth_error_Some; congruence). destruct (Z.ltb_spec (c - 1) 0); lia.
  - split; [exact H2|]. destruct (Z.ltb_spec (c - 1) 0); lia.
Qed.
Lemma column_nth line c w : py_nth (split line) (c - 1) = Ok w <-> column line c w.
Proof. rewrite column_field. apply py_nth_field_iff. Qed.
(** *** the text lines: a fold over the lines of a file is a map over its non-blank lines *)
Lemma split_of_strip l : split (strip l) = split l.
Proof. apply split_strip. Qed.
Lemma fold_lines (g : string -> res string) text out :
  foldM (fun out line => if String.eqb (strip line) "" then Ok out else let* x := g (strip line) in Ok (out ++ x)%string) (flines text) out =
  let* xs := mapM g (text_lines text) in Ok (out ++ String.concat "" xs)%string.
Proof.
  unfold text_lines. revert out. induction (flines text) as [|l ls IH]; intros out; cbn [foldM map filter mapM bind].
  - cbn [String.concat]. rewrite sapp_nil_r. reflexivity.
  - destruct (String.eqb (strip l) ""); cbn [negb bind]; [apply IH|]. cbn [mapM]. destruct (g (strip l)) as [x|e]; cbn [bind]; [|reflexivity]. rewrite IH. destruct (mapM g _) as [xs|e]; cbn [bind]; [|reflexivity].
    rewrite concat_cons, sapp_assoc. reflexivity.
Qed.
Lemma foldM_ext {A B} (f g : A -> B -> res A) l : (forall a b, f a b = g a b) -> forall a, foldM f l a = foldM g l a.
Proof. intros H. induction l as [|x l IH]; intros a; cbn [foldM]; [reflexivity|]. rewrite H. destruct (g a x); cbn [bind]; [apply IH|reflexivity]. Qed.
Lemma mapM_forall2 {A B} (f : A -> res B) l r : mapM f l = Ok r <-> Forall2 (fun a b => f a = Ok b) l r.
Proof.
  revert r. induction l as [|a l IH]; intros r; cbn [mapM].
  - split; [intros H; injection H as <-; constructor|intros H; inversion H; reflexivity].
  - split.
    + intros H. apply bind_ok in H. destruct H as (b & Hb & H). apply bind_ok in H. destruct H as (bs & Hbs & H). injection H as <-. constructor; [exact Hb|apply IH, Hbs].
    + intros H. inversion H as [|? b ? bs Hb Hbs]; subst. rewrite Hb. cbn [bind]. apply IH in Hbs. rewrite Hbs. reflexivity.
Qed.
