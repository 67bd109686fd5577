(** PPipe2.v -- reading the inputs of the tools *)
From Coq Require Import Ascii.
From Verif Require Import Base PyList Dict Num Dense Sparse Matrix Scaling Linalg Operation Similarity Space Peripheral SpecSpace Learner Composition Utils LexFun Str PStr IO SpecIO PIO Prop_IO PExport Prop_Export Pipe SpecPipe SpecPipe2 PFiles.
Local Open Scope string_scope.
Local Open Scope list_scope.
Local Open Scope nat_scope.
Section Inputs.
Context {N : Num} {E : Ext} {FI : FloatIO} {PI : PipeIO}.
Lemma load_space_at fs p s : load_space fs p = Ok s <-> space_at fs p s.
Proof.
  unfold load_space, space_at, object_at. destruct (fs_file fs p) as [[t|[s'|m|m]]|]; split; intros H; try discriminate; congruence.
Qed.
Lemma spaces_at_ok fs files s s2 : spaces_at fs files s s2 <->
  (let* f := head_file files in let* s := load_space fs f in let* s2 := load_second fs files in Ok (s, s2)) = Ok (s, s2).
Proof.
  split.
  - intros H. destruct H as [f g s s2 Hf Hg|f r s Hr Hf].
    + cbn [head_file bind]. rewrite (proj2 (load_space_at _ _ _) Hf). cbn [bind load_second]. rewrite (proj2 (load_space_at _ _ _) Hg). reflexivity.
    + cbn [head_file bind]. rewrite (proj2 (load_space_at _ _ _) Hf). cbn [bind load_second]. destruct r as [|g [|h r]]; [reflexivity| |reflexivity]. exfalso. apply Hr. reflexivity.
  - intros H. apply bind_ok in H. destruct H as (f & Hf & H). destruct files as [|f' r]; [discriminate|]. injection Hf as ->. apply bind_ok in H. destruct H as (s' & Hs & H). apply load_space_at in Hs.
    apply bind_ok in H. destruct H as (s2' & Hs2 & H). injection H as -> ->. destruct r as [|g [|h r]]; cbn [load_second] in Hs2.
    + injection Hs2 as <-. apply sp_one; [discriminate|exact Hs].
    + apply bind_ok in Hs2. destruct Hs2 as (s3 & H3 & Hs2). injection Hs2 as <-. apply load_space_at in H3. apply sp_two; assumption.
    + injection Hs2 as <-. apply sp_one; [discriminate|exact Hs].
Qed.
Lemma read_text_at fs p t : read_text fs p = Ok t <-> text_at fs p t.
Proof. unfold read_text, text_at. destruct (fs_file fs p) as [[t'|o]|]; split; intros H; try discriminate; congruence. Qed.
Lemma triple_ok r : 3 <= length r -> (let* l := mapM (py_nth r) [0%Z; 1%Z; 2%Z] in to_tuple3 l) = Ok (field 0 r, field 1 r, field 2 r).
Proof. destruct r as [|a [|b [|c r]]]; cbn [length]; intros H; try lia. unfold field. cbn [nth].
  assert (K : forall k x, nth_error (a :: b :: c :: r) k = Some x -> py_nth (a :: b :: c :: r) (Z.of_nat k) = Ok x) by (intros k x; apply py_nth_nat).
  pose proof (K 0 a eq_refl) as K0. pose proof (K 1 b eq_refl) as K1. pose proof (K 2 c eq_refl) as K2. cbn [Z.of_nat Pos.of_succ_nat Pos.succ] in K0, K1, K2.
  cbn [mapM]. rewrite K0. cbn [bind]. rewrite K1. cbn [bind]. rewrite K2. reflexivity.
Qed.
Lemma read_tuples_at fs p t : text_at fs p t -> three_fields t -> read_tuples fs p = Ok (triples t).
Proof.
  intros Ht H. unfold read_tuples. rewrite (proj2 (read_text_at _ _ _) Ht). cbn [bind]. rewrite read_tuples_eq. cbn [bind].
  unfold triples. revert H. unfold three_fields. generalize (records t). intros rs H.
  rewrite (mapM_all_ok _ (fun r => [field 0 r; field 1 r; field 2 r])).
  - cbn [bind]. rewrite (mapM_all_ok _ (fun l => (nth 0 l "", nth 1 l "", nth 2 l ""))); [rewrite map_map; reflexivity|].
    intros l Hl. apply in_map_iff in Hl. destruct Hl as (r & <- & Hr). reflexivity.
  - intros r Hr. rewrite Forall_forall in H. pose proof (triple_ok r (H r Hr)) as K. apply bind_ok in K. destruct K as (l & Hl & K). rewrite Hl.
    destruct l as [|a [|b [|c [|d l]]]]; try discriminate. cbn in K. injection K as -> -> ->. reflexivity.
Qed.
Lemma read_tuples_ok fs p data : read_tuples fs p = Ok data -> exists t, text_at fs p t /\ three_fields t /\ data = triples t.
Proof.
  intros H. assert (H0 := H). unfold read_tuples in H. apply bind_ok in H. destruct H as (t & Ht & H). apply read_text_at in Ht. exists t. split; [exact Ht|].
  assert (K : three_fields t).
  { apply bind_ok in H. destruct H as (l & Hl & _). rewrite read_tuples_eq in Hl. unfold three_fields. revert l Hl. generalize (records t). clear.
    induction l as [|r rs IH]; intros l Hl; [constructor|]. cbn [mapM] in Hl. apply bind_ok in Hl. destruct Hl as (x & Hx & Hl). apply bind_ok in Hl. destruct Hl as (xs & Hxs & _). constructor; [|exact (IH _ Hxs)].
    cbn [mapM] in Hx. apply bind_ok in Hx. destruct Hx as (a & _ & Hx). apply bind_ok in Hx. destruct Hx as (y & Hy & _). apply bind_ok in Hy. destruct Hy as (b & _ & Hy). apply bind_ok in Hy. destruct Hy as (z & Hz & _).
    apply bind_ok in Hz. destruct Hz as (c & Hc & _). apply py_nth_field_iff in Hc. destruct Hc as (q & Hq & Hn). unfold denotes in Hq. assert (nth_error r q <> None) by congruence. apply nth_error_Some in H. lia. }
  split; [exact K|]. rewrite (read_tuples_at fs p t Ht K) in H0. congruence.
Qed.
(** opening the log file changes no existing file *)
Lemma logging_keeps fs file fs' q c : config_logging fs file = Ok fs' -> fs_file fs q = Some c -> fs_file fs' q = Some c.
Proof.
  unfold config_logging. destruct file as [p|]; [|intros H; injection H as <-; auto]. intros H Hq. apply bind_ok in H. destruct H as (fs1 & H1 & H). apply parents_files in H1.
  destruct (fs_file fs1 p) as [c'|] eqn:Ep; [injection H as <-; rewrite H1; exact Hq|]. destruct (write_file_ok _ _ _ _ H) as (K1 & K2 & _). rewrite K2, H1; [exact Hq|]. intros ->. rewrite H1 in Ep. congruence.
Qed.
Lemma logging_only fs file fs' : config_logging fs file = Ok fs' -> only_changes (fun q => file = Some q) fs fs'.
Proof.
  unfold config_logging. destruct file as [p|]; [|intros H; injection H as <-; apply only_refl]. intros H. apply bind_ok in H. destruct H as (fs1 & H1 & H). apply parents_files in H1.
  destruct (fs_file fs1 p) as [c'|] eqn:Ep; [injection H as <-; apply only_same, H1|]. destruct (write_file_ok _ _ _ _ H) as (K1 & K2 & _). intros q Hq. rewrite K2, H1; [reflexivity|congruence].
Qed.
Lemma spaces_at_keep fs fs' files s s2 : (forall q c, fs_file fs q = Some c -> fs_file fs' q = Some c) -> spaces_at fs files s s2 -> spaces_at fs' files s s2.
Proof. intros H K. destruct K as [f g s s2 Hf Hg|f r s Hr Hf]; constructor; try assumption; apply H; assumption. Qed.
End Inputs.
