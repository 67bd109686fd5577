(** Prop_Core.v -- C54: build_core_space writes one correct space per combination. *)
From Coq Require Import Ascii.
From Verif Require Import Base PyList Dict Num Dense Sparse Matrix Scaling Linalg Operation Similarity Space Peripheral SpecSpace Learner Composition Utils LexFun Str PStr IO SpecIO PIO Prop_IO PExport Prop_Export Pipe SpecPipe SpecPipe2 PFiles PPipe PPipe2 PSave SpecCore PCore.
Local Open Scope string_scope.
Local Open Scope list_scope.
Local Open Scope nat_scope.
Section Core.
Context {N : Num} {E : Ext} {FI : FloatIO} {PI : PipeIO}.
Lemma positive_reduced d k : reduced_dim d = Ok k -> positive d k.
Proof.
  unfold reduced_dim, parse_int. destruct (iparse d) as [z|] eqn:Ed; [|discriminate]. cbn [bind]. unfold mk_reduced_dim. intros H. destruct (Z.ltb_spec 0 z); [|discriminate]. cbn in H. injection H as <-.
  split; [lia|]. rewrite Ed. f_equal. lia.
Qed.
(** every name has a meaning when the operation succeeds *)
Lemma weighting_means s o s' : apply_weighting s o = Ok s' -> exists t, or_unknown weighting_op unknown_weighting o t /\ do_op s t = Ok s'.
Proof.
  destruct o as [k|]; [|intros H; exists None; split; [left; constructor; left; reflexivity|exact H]]. unfold apply_weighting.
  destruct (String.eqb_spec k "none") as [-> |H0]; [intros H; exists None; split; [left; constructor; right; left; reflexivity|exact H]|].
  destruct (String.eqb_spec k "plog") as [-> |H1]; [intros H; eexists; split; [left; constructor|exact H]|].
  destruct (String.eqb_spec k "ppmi") as [-> |H2]; [intros H; eexists; split; [left; constructor|exact H]|].
  destruct (String.eqb_spec k "epmi") as [-> |H3]; [intros H; eexists; split; [left; constructor|exact H]|].
  destruct (String.eqb_spec k "plmi") as [-> |H4]; [intros H; eexists; split; [left; constructor|exact H]|].
  intros H. exists None. split; [|exact H]. destruct (string_dec k "") as [-> |H5]; [left; constructor; right; right; reflexivity|].
  right. exists k. split; [reflexivity|]. split; [|reflexivity]. unfold unknown_weighting. cbn. intuition congruence.
Qed.
Lemma normalization_means s o s' : apply_normalization s o = Ok s' -> exists t, or_unknown normalization_op unknown_normalization o t /\ do_op s t = Ok s'.
Proof.
  destruct o as [k|]; [|intros H; exists None; split; [left; constructor; left; reflexivity|exact H]]. unfold apply_normalization.
  destruct (String.eqb_spec k "none") as [-> |H0]; [intros H; exists None; split; [left; constructor; right; left; reflexivity|exact H]|].
  destruct (String.eqb_spec k "all") as [-> |H1]; [intros H; eexists; split; [left; constructor|exact H]|].
  destruct (String.eqb_spec k "row") as [-> |H2]; [intros H; eexists; split; [left; constructor|exact H]|].
  intros H. exists None. split; [|exact H]. destruct (string_dec k "") as [-> |H5]; [left; constructor; right; right; reflexivity|].
  right. exists k. split; [reflexivity|]. split; [|reflexivity]. unfold unknown_normalization. cbn. intuition congruence.
Qed.
Lemma selection_means s o s' : apply_selection s o = Ok s' -> exists t, or_unknown selection_op unknown_selection o t /\ do_op s t = Ok s'.
Proof.
  destruct o as [k|]; [|intros H; exists None; split; [left; constructor; left; reflexivity|exact H]]. unfold apply_selection.
  destruct (String.eqb_spec k "none") as [-> |H0]; [intros H; exists None; split; [left; constructor; right; left; reflexivity|exact H]|].
  destruct (string_dec k "") as [-> |H1]; [intros H; exists None; split; [left; constructor; right; right; reflexivity|exact H]|].
  assert (U : (forall d, ~ In underscore (chars d) -> split_on underscore k <> ["top"; "sum"; d] /\ split_on underscore k <> ["top"; "length"; d]) -> Ok s = Ok s' ->
    exists t, or_unknown selection_op unknown_selection (Some k) t /\ do_op s t = Ok s').
  { intros Hu H. exists None. split; [|exact H]. right. exists k. split; [reflexivity|]. split; [|reflexivity]. split; [exact H0|]. split; [exact H1|].
    intros d Hd. destruct (Hu d Hd) as (K1 & K2). split; intros ->; [apply K1; rewrite split_sum|apply K2; rewrite split_length]; rewrite (split_on_none underscore d Hd); reflexivity. }
  pose proof (join_split_on underscore k) as J. destruct (split_on underscore k) as [|a [|b [|d [|e l]]]]; try (apply U; intros d' _; split; discriminate).
  destruct (String.eqb_spec a "top") as [-> |Ha]; cbn [negb]; [|apply U; intros d' _; split; congruence].
  destruct (String.eqb_spec b "sum") as [-> |Hb].
  { intros H. apply bind_ok in H. destruct H as (n & Hn & H). exists (Some (TFS CSum n)). split; [|exact H]. left. replace k with ("top_sum_" ++ d)%string by (rewrite <- J; reflexivity). constructor. apply positive_reduced, Hn. }
  destruct (String.eqb_spec b "length") as [-> |Hb2].
  { intros H. apply bind_ok in H. destruct H as (n & Hn & H). exists (Some (TFS CLength n)). split; [|exact H]. left. replace k with ("top_length_" ++ d)%string by (rewrite <- J; reflexivity). constructor. apply positive_reduced, Hn. }
  apply U. intros d' _. split; congruence.
Qed.
Lemma split2 a d : ~ In underscore (chars a) -> ~ In underscore (chars d) -> split_on underscore (a ++ "_" ++ d) = [a; d].
Proof. intros Ha Hd. rewrite (split_name _ _ Ha), (split_on_none _ _ Hd). reflexivity. Qed.
Lemma reduction_means s o s' : apply_reduction s o = Ok s' -> exists t, or_unknown reduction_op unknown_reduction o t /\ do_op s t = Ok s'.
Proof.
  destruct o as [k|]; [|intros H; exists None; split; [left; constructor; left; reflexivity|exact H]]. unfold apply_reduction.
  destruct (String.eqb_spec k "none") as [-> |H0]; [intros H; exists None; split; [left; constructor; right; left; reflexivity|exact H]|].
  destruct (string_dec k "") as [-> |H1]; [intros H; exists None; split; [left; constructor; right; right; reflexivity|exact H]|].
  assert (U : (forall d, ~ In underscore (chars d) -> split_on underscore k <> ["svd"; d] /\ split_on underscore k <> ["nmf"; d]) -> Ok s = Ok s' ->
    exists t, or_unknown reduction_op unknown_reduction (Some k) t /\ do_op s t = Ok s').
  { intros Hu H. exists None. split; [|exact H]. right. exists k. split; [reflexivity|]. split; [|reflexivity]. split; [exact H0|]. split; [exact H1|].
    intros d Hd. destruct (Hu d Hd) as (K1 & K2). split; intros ->; [apply K1; apply (split2 "svd" d)|apply K2; apply (split2 "nmf" d)]; try exact Hd; cbn; intros K; repeat (destruct K as [K|K]; [discriminate|]); exact K. }
  pose proof (join_split_on underscore k) as J. destruct (split_on underscore k) as [|a [|d [|e l]]]; try (apply U; intros d' _; split; discriminate).
  destruct (String.eqb_spec a "svd") as [-> |Ha].
  { intros H. apply bind_ok in H. destruct H as (n & Hn & H). exists (Some (TDim DSvd n)). split; [|exact H]. left. replace k with ("svd_" ++ d)%string by (rewrite <- J; reflexivity). constructor. apply positive_reduced, Hn. }
  destruct (String.eqb_spec a "nmf") as [-> |Hb2].
  { intros H. apply bind_ok in H. destruct H as (n & Hn & H). exists (Some (TDim DNmf n)). split; [|exact H]. left. replace k with ("nmf_" ++ d)%string by (rewrite <- J; reflexivity). constructor. apply positive_reduced, Hn. }
  apply U. intros d' _. split; congruence.
Qed.
Lemma applied4 s t1 t2 t3 t4 s' : applied s [t1; t2; t3; t4] s' <->
  (let* a := do_op s t1 in let* a := do_op a t2 in let* a := do_op a t3 in do_op a t4) = Ok s'.
Proof.
  assert (G : forall s t r s', applied s (t :: r) s' <-> exists s1, do_op s t = Ok s1 /\ applied s1 r s').
  { clear. intros s t r s'. split.
    - intros H. inversion H; subst; cbn [do_op]; eauto.
    - intros (s1 & H1 & H2). destruct t as [t|]; cbn [do_op] in H1; [econstructor; eassumption|]. injection H1 as <-. constructor. exact H2. }
  assert (G0 : forall s s', applied s [] s' <-> s' = s) by (clear; split; [inversion 1; reflexivity|intros ->; constructor]).
  rewrite G. split.
  - intros (a & H1 & H). rewrite G in H. destruct H as (b & H2 & H). rewrite G in H. destruct H as (c & H3 & H). rewrite G in H. destruct H as (d & H4 & H). apply G0 in H. subst d. rewrite H1. cbn [bind]. rewrite H2. cbn [bind]. rewrite H3. cbn [bind]. exact H4.
  - intros H. apply bind_ok in H. destruct H as (a & H1 & H). apply bind_ok in H. destruct H as (b & H2 & H). apply bind_ok in H. destruct H as (c & H3 & H4).
    exists a. split; [exact H1|]. apply G. exists b. split; [exact H2|]. apply G. exists c. split; [exact H3|]. apply G. exists s'. split; [exact H4|]. apply G0. reflexivity.
Qed.
Lemma result_means s c s' : result s c = Ok s' -> exists ts, means c ts /\ applied s ts s'.
Proof.
  destruct c as [[[w x] r] n]. cbn [result]. intros H. apply bind_ok in H. destruct H as (a & H1 & H). apply bind_ok in H. destruct H as (b & H2 & H). apply bind_ok in H. destruct H as (c & H3 & H4).
  destruct (weighting_means _ _ _ H1) as (t1 & M1 & D1). destruct (selection_means _ _ _ H2) as (t2 & M2 & D2). destruct (reduction_means _ _ _ H3) as (t3 & M3 & D3). destruct (normalization_means _ _ _ H4) as (t4 & M4 & D4).
  exists [t1; t2; t3; t4]. split; [exists t1, t2, t3, t4; auto 6|]. apply applied4. rewrite D1. cbn [bind]. rewrite D2. cbn [bind]. rewrite D3. cbn [bind]. exact D4.
Qed.
Lemma applied_fun s ts a b : applied s ts a -> applied s ts b -> a = b.
Proof. intros H. revert b. induction H; intros b K; inversion K; subst; auto. replace s2 with s1 in * by congruence. auto. Qed.
Lemma load_input_space fs prefix fmt gz s : load_input fs prefix fmt gz = Ok s <-> input_space fs prefix gz fmt s.
Proof.
  unfold load_input. split.
  - intros H. apply bind_ok in H. destruct H as (u & Hc & H). destruct (String.eqb_spec fmt "pkl") as [-> |Hp]; [constructor; apply load_space_at, H|].
    apply bind_ok in H. destruct H as (cols & Hcols & H).
    assert (Hf : fmt = "dm" \/ fmt = "sm"). { destruct (String.eqb_spec fmt "sm"); [auto|]. destruct (String.eqb_spec fmt "dm"); [auto|]. discriminate. }
    refine (in_text _ _ _ fmt s (if exists_ fs (prefix ++ ".rows") then Some (prefix ++ ".rows")%string else None) cols _ _ _ _); [| | |].
    2: { destruct (exists_ fs (prefix ++ ".rows")); reflexivity. }
    + destruct Hf as [-> | ->]; [left; reflexivity|right; split; [reflexivity|]]. destruct (exists_ fs (prefix ++ ".cols")); [injection Hcols as <-; discriminate|discriminate].
    + destruct (exists_ fs (prefix ++ ".cols")); [congruence|]. destruct (String.eqb fmt "sm"); [discriminate|congruence].
    + destruct gz; [|rewrite sapp_nil_r]; rewrite ?sapp_assoc in H; exact H.
  - intros H. destruct H as [s H|fmt s rows cols Hf Hr Hc H].
    + change (String.eqb "pkl" "pkl") with true. rewrite orb_true_r. cbn [check bind]. apply load_space_at, H.
    + assert (Hk : (String.eqb fmt "sm" || String.eqb fmt "dm" || String.eqb fmt "pkl")%bool = true) by (destruct Hf as [-> |(-> & _)]; reflexivity). rewrite Hk. cbn [check bind].
      assert (Hp : String.eqb fmt "pkl" = false) by (destruct Hf as [-> |(-> & _)]; reflexivity). rewrite Hp.
      assert (Ec : (if exists_ fs (prefix ++ ".cols") then Ok (Some (prefix ++ ".cols")%string) else if String.eqb fmt "sm" then Err ValueError else Ok None) = Ok cols).
      { destruct (exists_ fs (prefix ++ ".cols")); [congruence|]. destruct Hf as [-> |(-> & K)]; [subst; reflexivity|congruence]. }
      rewrite Ec. cbn [bind]. assert (Er : (if exists_ fs (prefix ++ ".rows") then Some (prefix ++ ".rows")%string else None) = rows) by (destruct (exists_ fs (prefix ++ ".rows")); congruence). rewrite Er.
      rewrite <- H. destruct gz; rewrite ?sapp_nil_r, ?sapp_assoc; reflexivity.
Qed.
Lemma core_file_dir d nm c c' : core_file d nm c = core_file d nm c' -> core_file "" nm c = core_file "" nm c'.
Proof. destruct c as [[[w x] r] n], c' as [[[w' x'] r'] n']. cbn [core_file]. intros H. apply sapp_inj in H. rewrite H. reflexivity. Qed.
(** when the tool ends normally, the input was there, and for every combination the result of its operations, in the order
    weighting, selection, reduction, normalization, is saved (and, if asked, exported); unknown names do nothing; no other file
    changes *)
Theorem C54_saved fs in_prefix in_name in_format out_dir out_format ws xs rs ns gz fs' :
  file_name in_prefix in_name -> unambiguous in_name ws xs rs ns ->
  build_spaces fs in_prefix in_format out_dir out_format ws xs rs ns gz = Ok fs' ->
  exists s, input_space fs in_prefix gz in_format s /\
    (forall c, combos ws xs rs ns c -> exists ts s', means c ts /\ applied s ts s' /\ space_at fs' (core_file out_dir in_name c ++ ".pkl") s' /\
       (forall f, out_format = Some f -> exported fs' (core_file out_dir in_name c) f s')) /\
    only_changes (fun q => exists c, combos ws xs rs ns c /\ saved_target (core_file out_dir in_name c) q) fs fs'.
Proof.
  intros Hnm Hun H. unfold build_spaces in H. apply bind_ok in H. destruct H as (s & Hs & H). rewrite (base_name_file _ _ Hnm) in H. exists s. split; [apply load_input_space, Hs|].
  destruct (run_saves _ _ _ _ _ _ _ _ _ _ H) as (l & S & C & D).
  assert (Hfun : forall p a b, In (p, a) l -> In (p, b) l -> a = b).
  { intros p a b Ha Hb. destruct (D _ Ha) as (c & Hc & Hp & Hr). destruct (D _ Hb) as (c' & Hc' & Hp' & Hr'). cbn [fst snd] in *. rewrite out_core in Hp, Hp'.
    destruct (result_means _ _ _ Hr) as (ts & M & A). destruct (result_means _ _ _ Hr') as (ts' & M' & A'). assert (ts = ts') by (apply (Hun c c' ts ts' Hc Hc'); try assumption; apply (core_file_dir out_dir); congruence). subst ts'. exact (applied_fun _ _ _ _ A A'). }
  split.
  - intros c Hc. destruct (C c Hc) as (s' & Hr & Hin). rewrite out_core in Hin. destruct (result_means _ _ _ Hr) as (ts & M & A). exists ts, s'. split; [exact M|]. split; [exact A|].
    split; [exact (saves_there _ _ _ _ Hfun S _ _ Hin)|]. intros f ->. exact (saves_exported _ _ _ _ Hfun S _ _ Hin).
  - intros q Hq. apply (saves_kept _ _ _ _ S). intros e He K. destruct (D e He) as (c & Hc & Hp & _). rewrite out_core in Hp. apply Hq. exists c. split; [exact Hc|]. rewrite <- Hp. exact K.
Qed.
(** a combination means one thing *)
Lemma positive_fun d k k' : positive d k -> positive d k' -> k = k'.
Proof. intros (_ & H) (_ & H'). rewrite H in H'. injection H' as H'. lia. Qed.
Lemma weighting_fun o t t' : or_unknown weighting_op unknown_weighting o t -> or_unknown weighting_op unknown_weighting o t' -> t = t'.
Proof.
  assert (G : forall k t, weighting_op (Some k) t -> unknown_weighting k -> False).
  { intros k u H U. unfold unknown_weighting in U. cbn in U. inversion H as [? [K|[K|K]]| | | |]; subst; try discriminate; try (injection K as ->); tauto. }
  intros [H|(k & -> & U & ->)] [H'|(k' & H' & U' & ->)]; [| | |reflexivity].
  - inversion H as [? [K|[K|K]]| | | |]; subst; inversion H' as [? [K'|[K'|K']]| | | |]; subst; try reflexivity; discriminate.
  - subst. exfalso. eapply G; eassumption.
  - exfalso. eapply G; eassumption.
Qed.
Lemma normalization_fun o t t' : or_unknown normalization_op unknown_normalization o t -> or_unknown normalization_op unknown_normalization o t' -> t = t'.
Proof.
  assert (G : forall k t, normalization_op (Some k) t -> unknown_normalization k -> False).
  { intros k u H U. unfold unknown_normalization in U. cbn in U. inversion H as [? [K|[K|K]]| |]; subst; try discriminate; try (injection K as ->); tauto. }
  intros [H|(k & -> & U & ->)] [H'|(k' & H' & U' & ->)]; [| | |reflexivity].
  - inversion H as [? [K|[K|K]]| |]; subst; inversion H' as [? [K'|[K'|K']]| |]; subst; try reflexivity; discriminate.
  - subst. exfalso. eapply G; eassumption.
  - exfalso. eapply G; eassumption.
Qed.
Lemma op_fun (op : option string -> option transformation -> Prop) (unknown : string -> Prop) :
  (forall o t t', op o t -> op o t' -> t = t') -> (forall k t, op (Some k) t -> unknown k -> False) ->
  forall o t t', or_unknown op unknown o t -> or_unknown op unknown o t' -> t = t'.
Proof.
  intros F U o t t' [H|(k & -> & Hk & ->)] [H'|(k' & H' & Hk' & ->)]; [eapply F; eassumption| | |reflexivity]; subst; exfalso; eapply U; eassumption.
Qed.
Lemma no_op_name k : no_op (Some k) -> k = "none" \/ k = "".
Proof. intros [K|[K|K]]; [discriminate|injection K as ->; auto|injection K as ->; auto]. Qed.
Lemma selection_fun1 o t t' : selection_op o t -> selection_op o t' -> t = t'.
Proof.
  intros H H'. destruct H as [o H|d k H|d k H]; inversion H' as [o' K E1 E2|d' k' K E1 E2|d' k' K E1 E2]; subst; try reflexivity.
  - destruct (no_op_name _ H); discriminate.
  - destruct (no_op_name _ H); discriminate.
  - destruct (no_op_name _ K); discriminate.
  - repeat f_equal. exact (positive_fun _ _ _ H K).
  - destruct (no_op_name _ K); discriminate.
  - repeat f_equal. exact (positive_fun _ _ _ H K).
Qed.
Lemma reduction_fun1 o t t' : reduction_op o t -> reduction_op o t' -> t = t'.
Proof.
  intros H H'. destruct H as [o H|d k H|d k H]; inversion H' as [o' K E1 E2|d' k' K E1 E2|d' k' K E1 E2]; subst; try reflexivity.
  - destruct (no_op_name _ H); discriminate.
  - destruct (no_op_name _ H); discriminate.
  - destruct (no_op_name _ K); discriminate.
  - repeat f_equal. exact (positive_fun _ _ _ H K).
  - destruct (no_op_name _ K); discriminate.
  - repeat f_equal. exact (positive_fun _ _ _ H K).
Qed.
Lemma selection_fun o t t' : int_syntax -> or_unknown selection_op unknown_selection o t -> or_unknown selection_op unknown_selection o t' -> t = t'.
Proof.
  intros HI. apply op_fun; [exact selection_fun1|]. intros k u H (U1 & U2 & U3). inversion H as [o' K E1 E2|d' k' K E1 E2|d' k' K E1 E2]; subst.
  - destruct (no_op_name _ K); contradiction.
  - exact (proj1 (U3 d' (proj2 (proj2 (HI _ _ (proj2 K))))) eq_refl).
  - exact (proj2 (U3 d' (proj2 (proj2 (HI _ _ (proj2 K))))) eq_refl).
Qed.
Lemma reduction_fun o t t' : int_syntax -> or_unknown reduction_op unknown_reduction o t -> or_unknown reduction_op unknown_reduction o t' -> t = t'.
Proof.
  intros HI. apply op_fun; [exact reduction_fun1|]. intros k u H (U1 & U2 & U3). inversion H as [o' K E1 E2|d' k' K E1 E2|d' k' K E1 E2]; subst.
  - destruct (no_op_name _ K); contradiction.
  - exact (proj1 (U3 d' (proj2 (proj2 (HI _ _ (proj2 K))))) eq_refl).
  - exact (proj2 (U3 d' (proj2 (proj2 (HI _ _ (proj2 K))))) eq_refl).
Qed.
Lemma means_fun c ts ts' : int_syntax -> means c ts -> means c ts' -> ts = ts'.
Proof.
  intros HI. destruct c as [[[w x] r] n]. intros (t1 & t2 & t3 & t4 & -> & A1 & A2 & A3 & A4) (u1 & u2 & u3 & u4 & -> & B1 & B2 & B3 & B4).
  rewrite (weighting_fun _ _ _ A1 B1), (selection_fun _ _ _ HI A2 B2), (reduction_fun _ _ _ HI A3 B3), (normalization_fun _ _ _ A4 B4). reflexivity.
Qed.
Lemma defined_means c ts : defined c ts -> means c ts.
Proof. destruct c as [[[w x] r] n]. intros (t1 & t2 & t3 & t4 & -> & A1 & A2 & A3 & A4). exists t1, t2, t3, t4. unfold or_unknown. auto 8. Qed.
(** distinct combinations of defined operations go to distinct files *)
Theorem C54_distinct out_dir in_name c c' ts ts' : int_syntax -> defined c ts -> defined c' ts' -> core_file out_dir in_name c = core_file out_dir in_name c' -> ts = ts'.
Proof.
  intros HI. destruct c as [[[w x] r] n], c' as [[[w' x'] r'] n'].
  intros (t1 & t2 & t3 & t4 & -> & A1 & A2 & A3 & A4) (u1 & u2 & u3 & u4 & -> & B1 & B2 & B3 & B4) H.
  cbn [core_file] in H. do 3 (apply sapp_inj in H).
  destruct (parts_inj _ _ _ _ _ _ _ _ _ _ _ _ _ _ _ _ (weighting_part _ _ A1) (selection_part _ _ HI A2) (reduction_part _ _ HI A3) (normalization_part _ _ A4)
     (weighting_part _ _ B1) (selection_part _ _ HI B2) (reduction_part _ _ HI B3) (normalization_part _ _ B4) H) as (N1 & N2 & N3 & N4).
  assert (E1 : t1 = u1). { destruct (same_names _ _ _ _ _ (weighting_part _ _ A1) (weighting_part _ _ B1) N1) as [-> |(-> & ->)]; [|reflexivity]. apply (weighting_fun w'); left; assumption. }
  assert (E2 : t2 = u2). { destruct (same_names _ _ _ _ _ (selection_part _ _ HI A2) (selection_part _ _ HI B2) N2) as [-> |(-> & ->)]; [|reflexivity]. apply (selection_fun1 x'); assumption. }
  assert (E3 : t3 = u3). { destruct (same_names _ _ _ _ _ (reduction_part _ _ HI A3) (reduction_part _ _ HI B3) N3) as [-> |(-> & ->)]; [|reflexivity]. apply (reduction_fun1 r'); assumption. }
  assert (E4 : t4 = u4). { destruct (same_names _ _ _ _ _ (normalization_part _ _ A4) (normalization_part _ _ B4) N4) as [-> |(-> & ->)]; [|reflexivity]. apply (normalization_fun n'); left; assumption. }
  subst. reflexivity.
Qed.
(** so lists of defined operations are unambiguous, and C54_saved applies to them *)
Definition all_defined (ws xs rs ns : list (option string)) : Prop := forall c, combos ws xs rs ns c -> exists ts, defined c ts.
Theorem C54_unambiguous in_name ws xs rs ns : int_syntax -> all_defined ws xs rs ns -> unambiguous in_name ws xs rs ns.
Proof.
  intros HI Hd c c' ts ts' Hc Hc' He M M'. destruct (Hd c Hc) as (us & D). destruct (Hd c' Hc') as (us' & D').
  rewrite (means_fun _ _ _ HI M (defined_means _ _ D)), (means_fun _ _ _ HI M' (defined_means _ _ D')). exact (C54_distinct "" in_name c c' us us' HI D D' He).
Qed.
(** and the tool does end normally when every operation succeeds and the output can be written *)
Lemma loop_total {A B} fmt (f : A -> res B) (G : A -> B -> fsys -> res fsys) (P : string * space -> Prop) ws :
  (forall w, In w ws -> exists y l, f w = Ok y /\ (forall e, In e l -> P e) /\ forall a b, saves fmt l a b -> G w y a = Ok b) ->
  exists l, (forall e, In e l -> P e) /\ forall a b, saves fmt l a b -> foldM (fun fs w => let* y := f w in G w y fs) ws a = Ok b.
Proof.
  induction ws as [|w ws IH]; intros H.
  - exists []. split; [intros e []|]. intros a b K. exact K.
  - destruct (H w (or_introl eq_refl)) as (y & l1 & Hf & HP & HG). destruct IH as (l2 & HP2 & HG2); [intros w' Hw; apply H; right; exact Hw|].
    exists (l1 ++ l2). split; [intros e He; apply in_app_iff in He; destruct He; auto|]. intros a b K. unfold saves in K. rewrite foldM_app in K. apply bind_ok in K. destruct K as (c & K1 & K2).
    cbn [foldM]. rewrite Hf. cbn [bind]. rewrite (HG _ _ K1). cbn [bind]. exact (HG2 _ _ K2).
Qed.
Lemma nonempty {A} (l : list A) : l <> [] -> exists x, In x l.
Proof. destruct l as [|x l]; [congruence|]. intros _. exists x. left. reflexivity. Qed.
Lemma run_total s out_dir descr fmt ws xs rs ns (P : string * space -> Prop) : xs <> [] -> rs <> [] -> ns <> [] ->
  (forall c, combos ws xs rs ns c -> exists s', result s c = Ok s' /\ P (out_of out_dir descr c, s')) ->
  exists l, (forall e, In e l -> P e) /\ forall a b, saves fmt l a b -> run_combinations a s out_dir descr fmt ws xs rs ns = Ok b.
Proof.
  intros Hx0 Hr0 Hn0 H. destruct (nonempty _ Hx0) as (x0 & Ix0). destruct (nonempty _ Hr0) as (r0 & Ir0). destruct (nonempty _ Hn0) as (n0 & In0).
  unfold run_combinations. apply (loop_total fmt (apply_weighting s) _ P). intros w Hw.
  assert (H1 : exists a, apply_weighting s w = Ok a). { destruct (H (w, x0, r0, n0)) as (s' & K & _); [repeat split; assumption|]. cbn [result] in K. apply bind_ok in K. destruct K as (a & K & _). eauto. }
  destruct H1 as (wsp & Ew). exists wsp.
  assert (Hx : exists l, (forall e, In e l -> P e) /\ forall a b, saves fmt l a b -> foldM (fun fs x => let* s_space := apply_selection wsp x in foldM (fun fs r => let* r_space := apply_reduction s_space r in foldM (fun fs n => let* n_space := apply_normalization r_space n in print_space fs n_space out_dir [Some descr; w; x; r; n] fmt) ns fs) rs fs) xs a = Ok b).
  2: { destruct Hx as (l & K1 & K2). exists l. auto. }
  apply (loop_total fmt (apply_selection wsp) _ P). intros x Hx.
  assert (H1 : exists a, apply_selection wsp x = Ok a). { destruct (H (w, x, r0, n0)) as (s' & K & _); [repeat split; assumption|]. cbn [result] in K. rewrite Ew in K. cbn [bind] in K. apply bind_ok in K. destruct K as (a & K & _). eauto. }
  destruct H1 as (ssp & Ex). exists ssp.
  assert (Hr : exists l, (forall e, In e l -> P e) /\ forall a b, saves fmt l a b -> foldM (fun fs r => let* r_space := apply_reduction ssp r in foldM (fun fs n => let* n_space := apply_normalization r_space n in print_space fs n_space out_dir [Some descr; w; x; r; n] fmt) ns fs) rs a = Ok b).
  2: { destruct Hr as (l & K1 & K2). exists l. auto. }
  apply (loop_total fmt (apply_reduction ssp) _ P). intros r Hr.
  assert (H1 : exists a, apply_reduction ssp r = Ok a). { destruct (H (w, x, r, n0)) as (s' & K & _); [repeat split; assumption|]. cbn [result] in K. rewrite Ew in K. cbn [bind] in K. rewrite Ex in K. cbn [bind] in K. apply bind_ok in K. destruct K as (a & K & _). eauto. }
  destruct H1 as (rsp & Er). exists rsp.
  assert (Hn : exists l, (forall e, In e l -> P e) /\ forall a b, saves fmt l a b -> foldM (fun fs n => let* n_space := apply_normalization rsp n in print_space fs n_space out_dir [Some descr; w; x; r; n] fmt) ns a = Ok b).
  2: { destruct Hn as (l & K1 & K2). exists l. auto. }
  apply (loop_total fmt (apply_normalization rsp) _ P). intros n Hn.
  destruct (H (w, x, r, n)) as (s' & K & HP); [repeat split; assumption|]. cbn [result] in K. rewrite Ew in K. cbn [bind] in K. rewrite Ex in K. cbn [bind] in K. rewrite Er in K. cbn [bind] in K.
  exists s', [(out_of out_dir descr (w, x, r, n), s')]. split; [exact K|]. split; [intros e [<-|[]]; exact HP|].
  intros a b S. unfold saves in S. cbn [foldM fst snd] in S. apply bind_ok in S. destruct S as (c & S & S'). injection S' as <-. exact S.
Qed.
Lemma weighting_or s o t : or_unknown weighting_op unknown_weighting o t -> apply_weighting s o = do_op s t.
Proof.
  intros [H|(k & -> & U & ->)]; [apply weighting_does, H|]. unfold unknown_weighting in U. cbn in U. unfold apply_weighting.
  repeat (match goal with |- context [String.eqb k ?c] => destruct (String.eqb_spec k c) as [-> |_]; [exfalso; tauto|] end). reflexivity.
Qed.
Lemma normalization_or s o t : or_unknown normalization_op unknown_normalization o t -> apply_normalization s o = do_op s t.
Proof.
  intros [H|(k & -> & U & ->)]; [apply normalization_does, H|]. unfold unknown_normalization in U. cbn in U. unfold apply_normalization.
  repeat (match goal with |- context [String.eqb k ?c] => destruct (String.eqb_spec k c) as [-> |_]; [exfalso; tauto|] end). reflexivity.
Qed.
Lemma selection_or s o t : int_syntax -> or_unknown selection_op unknown_selection o t -> apply_selection s o = do_op s t.
Proof.
  intros HI [H|(k & -> & (U1 & U2 & U3) & ->)]; [apply selection_does; assumption|]. unfold apply_selection. destruct (String.eqb_spec k "none"); [contradiction|].
  pose proof (join_split_on underscore k) as J. pose proof (split_on_parts underscore k) as Q. destruct (split_on underscore k) as [|a [|b [|d [|e l]]]]; try reflexivity.
  assert (Hd : ~ In underscore (chars d)) by (inversion Q as [|? ? _ Q2]; inversion Q2 as [|? ? _ Q3]; inversion Q3; assumption). destruct (U3 d Hd) as (K1 & K2).
  destruct (String.eqb_spec a "top") as [-> |_]; [|reflexivity]. cbn [negb].
  destruct (String.eqb_spec b "sum") as [-> |_]; [exfalso; apply K1; rewrite <- J; reflexivity|].
  destruct (String.eqb_spec b "length") as [-> |_]; [exfalso; apply K2; rewrite <- J; reflexivity|]. reflexivity.
Qed.
Lemma reduction_or s o t : int_syntax -> or_unknown reduction_op unknown_reduction o t -> apply_reduction s o = do_op s t.
Proof.
  intros HI [H|(k & -> & (U1 & U2 & U3) & ->)]; [apply reduction_does; assumption|]. unfold apply_reduction. destruct (String.eqb_spec k "none"); [contradiction|].
  pose proof (join_split_on underscore k) as J. pose proof (split_on_parts underscore k) as Q. destruct (split_on underscore k) as [|a [|d [|e l]]]; try reflexivity.
  assert (Hd : ~ In underscore (chars d)) by (inversion Q as [|? ? _ Q2]; inversion Q2; assumption). destruct (U3 d Hd) as (K1 & K2).
  destruct (String.eqb_spec a "svd") as [-> |_]; [exfalso; apply K1; rewrite <- J; reflexivity|].
  destruct (String.eqb_spec a "nmf") as [-> |_]; [exfalso; apply K2; rewrite <- J; reflexivity|]. reflexivity.
Qed.
Lemma means_result s c ts s' : int_syntax -> means c ts -> applied s ts s' -> result s c = Ok s'.
Proof.
  intros HI. destruct c as [[[w x] r] n]. intros (t1 & t2 & t3 & t4 & -> & A1 & A2 & A3 & A4) H. apply applied4 in H. cbn [result]. rewrite (weighting_or _ _ _ A1).
  apply bind_ok in H. destruct H as (a & -> & H). cbn [bind]. rewrite (selection_or _ _ _ HI A2). apply bind_ok in H. destruct H as (b & -> & H). cbn [bind].
  rewrite (reduction_or _ _ _ HI A3). apply bind_ok in H. destruct H as (c & -> & H). cbn [bind]. rewrite (normalization_or _ _ _ A4). exact H.
Qed.
Definition core_name (in_name : string) (c : combination) : string := let '(w, x, r, n) := c in ("CORE_SS." ++ in_name ++ shown w ++ shown x ++ shown r ++ shown n)%string.
Theorem C54_total fs in_prefix in_name in_format root dirs out_format ws xs rs ns gz s :
  int_syntax -> file_name in_prefix in_name -> input_space fs in_prefix gz in_format s -> xs <> [] -> rs <> [] -> ns <> [] ->
  (forall c, combos ws xs rs ns c -> usable_out fs root dirs (core_name in_name c) /\ exists ts s', means c ts /\ applied s ts s' /\ writable_as out_format s') ->
  exists fs', build_spaces fs in_prefix in_format (path root dirs) out_format ws xs rs ns gz = Ok fs'.
Proof.
  intros HI Hnm Hin Hx Hr Hn H. unfold build_spaces. rewrite (proj2 (load_input_space _ _ _ _ _) Hin). cbn [bind]. rewrite (base_name_file _ _ Hnm).
  destruct (run_total s (path root dirs) ("CORE_SS." ++ in_name) out_format ws xs rs ns (fun e => (exists nm, fst e = path root (dirs ++ [nm]) /\ usable_out fs root dirs nm) /\ writable_as out_format (snd e)) Hx Hr Hn) as (l & HP & HG).
  - intros c Hc. destruct (H c Hc) as (Hu & ts & s' & M & A & W). exists s'. split; [exact (means_result _ _ _ _ HI M A)|]. split; [|exact W].
    exists (core_name in_name c). split; [|exact Hu]. cbn [fst]. rewrite out_core. destruct Hu as (_ & Hd & _). rewrite path_snoc by exact Hd. destruct c as [[[w x] r] n]. reflexivity.
  - destruct (saves_total root dirs out_format l fs HP) as (fs' & S & _). exists fs'. apply HG. exact S.
Qed.
End Core.

(** *** concrete cases over the rationals *)
From Coq Require Import DecimalString.
From Verif Require Import Qio Pio.
Section Ex.
#[local] Existing Instance QNum.
Context {E : Ext}.
Definition plain (c : ascii) : Prop := c <> "."%char /\ c <> "/"%char /\ c <> "_"%char.
Lemma digits_plain s u : NilEmpty.uint_of_string s = Some u -> Forall plain (chars s).
Proof.
  revert u. induction s as [|a s IH]; intros u H; [constructor|]. cbn [NilEmpty.uint_of_string] in H. destruct (NilEmpty.uint_of_string s) as [v|] eqn:Es.
  - cbn [chars list_ascii_of_string]. constructor; [|exact (IH v eq_refl)]. unfold plain. repeat split; intros ->; cbn in H; discriminate.
  - exfalso. destruct a as [[] [] [] [] [] [] [] []]; discriminate.
Qed.
Lemma int_plain s i : NilZero.int_of_string s = Some i -> Forall plain (chars s).
Proof.
  intros H. assert (G : forall s u, NilZero.uint_of_string s = Some u -> Forall plain (chars s)).
  { intros s' u K. destruct s' as [|a s']; [constructor|]. exact (digits_plain _ _ K). }
  destruct s as [|a s]; [constructor|]. unfold NilZero.int_of_string in H. destruct (ascii_dec a "-") as [-> |Ha].
  - cbn [chars list_ascii_of_string]. constructor; [repeat split; discriminate|]. destruct (NilEmpty.uint_of_string s) as [u|] eqn:Eu.
    + exact (digits_plain _ _ Eu).
    + exfalso. destruct s; [discriminate|]. cbn in H. cbn in Eu. rewrite Eu in H. discriminate.
  - destruct (NilZero.uint_of_string (String a s)) as [u|] eqn:Eu; [exact (G _ _ Eu)|]. exfalso. destruct a as [[] [] [] [] [] [] [] []]; cbn in H, Eu; rewrite ?Eu in H; try discriminate; congruence.
Qed.
Lemma q_int_syntax : int_syntax.
Proof.
  intros d z H. cbn [iparse Qio] in H. unfold zparse in H. destruct (NilZero.int_of_string d) as [i|] eqn:Ei; [|discriminate].
  pose proof (int_plain _ _ Ei) as K. rewrite Forall_forall in K. repeat split; intros Hi; destruct (K _ Hi) as (K1 & K2 & K3); congruence.
Qed.
Definition core_fs : fsys := FS (fun q => if String.eqb q "in/sp.pkl" then Some (Pickle (OSpace exp_sp)) else None) (fun _ => false).
(** "-s none,top_sum_1 -n all,none" on the space of C47_example: four files *)
Definition core_run : res fsys := build_spaces core_fs "in/sp" "pkl" "out" (Some "dm") [None] [Some "none"; Some "top_sum_1"] [None] [Some "all"; Some "none"] false.
Example C54_example : int_syntax /\ all_defined [None] [Some "none"; Some "top_sum_1"] [None] [Some "all"; Some "none"] /\ exists fs', core_run = Ok fs' /\
  (forall c, combos [None] [Some "none"; Some "top_sum_1"] [None] [Some "all"; Some "none"] c -> exists s', space_at fs' (core_file "out" "sp" c ++ ".pkl") s') /\
  text_at fs' "out/CORE_SS.sp.top_sum_1.dm" ("car	0.0" ++ nl ++ "pen	0.0" ++ nl ++ "dog	7.0" ++ nl)%string.
Proof.
  assert (D : all_defined [None] [Some "none"; Some "top_sum_1"] [None] [Some "all"; Some "none"]).
  { intros [[[w x] r] n] (Hw & Hx & Hr & Hn). destruct Hw as [<-|[]], Hr as [<-|[]].
    assert (X : exists t, selection_op x t). { destruct Hx as [<-|[<-|[]]]; [exists None; constructor; right; left; reflexivity|]. exists (Some (TFS CSum 1)). apply (so_sum "1" 1). split; [lia|reflexivity]. }
    assert (Y : exists t, normalization_op n t). { destruct Hn as [<-|[<-|[]]]; [eexists; apply no_all|]. exists None. constructor. right. left. reflexivity. }
    destruct X as (t2 & X), Y as (t4 & Y). exists [None; t2; None; t4]. exists None, t2, None, t4. split; [reflexivity|]. split; [constructor; left; reflexivity|]. split; [exact X|]. split; [constructor; left; reflexivity|exact Y]. }
  split; [exact q_int_syntax|]. split; [exact D|].
  assert (R : exists fs', core_run = Ok fs' /\ fs_file fs' "out/CORE_SS.sp.top_sum_1.dm" = Some (Text ("car	0.0" ++ nl ++ "pen	0.0" ++ nl ++ "dog	7.0" ++ nl)%string)).
  { assert (C : match core_run with Ok fs' => fs_file fs' "out/CORE_SS.sp.top_sum_1.dm" | Err _ => None end = Some (Text ("car	0.0" ++ nl ++ "pen	0.0" ++ nl ++ "dog	7.0" ++ nl)%string)) by (vm_compute; reflexivity).
    destruct core_run as [fs'|]; [exists fs'; auto|discriminate]. }
  destruct R as (fs' & R & T). exists fs'. split; [exact R|]. split; [|exact T].
  assert (Hnm : file_name "in/sp" "sp") by (split; [cbn; intros K; repeat (destruct K as [K|K]; [discriminate|]); exact K|right; exists "in"; reflexivity]).
  unfold core_run in R. destruct (C54_saved core_fs "in/sp" "sp" "pkl" "out" (Some "dm") _ _ _ _ false fs' Hnm (C54_unambiguous "sp" _ _ _ _ q_int_syntax D) R) as (s & _ & K & _).
  intros c Hc. destruct (K c Hc) as (ts & s' & _ & _ & K1 & _). exists s'. exact K1.
Qed.
(** a limitation: an unknown name is not a defined operation but is still part of the output name, so it can hide the output of a
    defined operation: with "-w none,all -n none,all" the normalised space is overwritten by the unnormalised one, because "all"
    is no weighting *)
Definition clash_run : res fsys := build_spaces core_fs "in/sp" "pkl" "out" None [Some "none"; Some "all"] [None] [None] [Some "none"; Some "all"] false.
Example C54_unknown_name_clash : exists fs', clash_run = Ok fs' /\
  defined (Some "none", None, None, Some "all") [None; None; None; Some (TScale (Norm CSum))] /\ unknown_weighting "all" /\
  core_file "out" "sp" (Some "none", None, None, Some "all") = core_file "out" "sp" (Some "all", None, None, Some "none") /\
  exists s', applied exp_sp [None; None; None; Some (TScale (Norm CSum))] s' /\ ment (s_mat s') 0 1 <> ment (s_mat exp_sp) 0 1 /\
    space_at fs' (core_file "out" "sp" (Some "none", None, None, Some "all") ++ ".pkl") exp_sp.
Proof.
  assert (A : exists s', space_apply exp_sp (TScale (Norm CSum)) = Ok s' /\ Qcanon.Qc_eq_bool (ment (s_mat s') 0 1) (fofZ 4) = false).
  { assert (C : match space_apply exp_sp (TScale (Norm CSum)) with Ok s' => Qcanon.Qc_eq_bool (ment (s_mat s') 0 1) (fofZ 4) | Err _ => true end = false) by (vm_compute; reflexivity).
    destruct (space_apply exp_sp (TScale (Norm CSum))) as [s'|]; [exists s'; auto|discriminate]. }
  assert (R : exists fs', clash_run = Ok fs' /\ fs_file fs' "out/CORE_SS.sp.all.pkl" = Some (Pickle (OSpace exp_sp))).
  { assert (C : match clash_run with Ok fs' => fs_file fs' "out/CORE_SS.sp.all.pkl" | Err _ => None end = Some (Pickle (OSpace exp_sp))) by (vm_compute; reflexivity).
    destruct clash_run as [fs'|]; [exists fs'; auto|discriminate]. }
  destruct R as (fs' & R & T). exists fs'. split; [exact R|]. split.
  { exists None, None, None, (Some (TScale (Norm CSum))). split; [reflexivity|]. split; [constructor; right; left; reflexivity|]. split; [constructor; left; reflexivity|]. split; [constructor; left; reflexivity|apply no_all]. }
  split; [unfold unknown_weighting; cbn; intuition discriminate|]. split; [reflexivity|].
  destruct A as (s' & A & B). exists s'. split; [do 3 apply ap_skip; eapply ap_cons; [exact A|constructor]|]. split; [|exact T].
  change (ment (s_mat exp_sp) 0 1) with (fofZ 4). intros K. rewrite K in B. unfold Qcanon.Qc_eq_bool in B. destruct (Qcanon.Qc_eq_dec (fofZ 4) (fofZ 4)); [discriminate|congruence].
Qed.
End Ex.
