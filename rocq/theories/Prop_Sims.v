(** Prop_Sims.v -- C57 (compute_similarities), C64 (compute_neighbours), C65 (evaluate_similarities): what the tools write. *)
From Coq Require Import Ascii.
From Verif Require Import Base PyList Dict Num Dense Sparse Matrix Scaling Linalg Operation Similarity Space Peripheral SpecSpace Learner Composition Utils LexFun Str PStr IO SpecIO PIO Prop_IO PExport Prop_Export Pipe SpecPipe SpecPipe2 PFiles PPipe PPipe2 PSave SpecPipe3 PPipe3.
Local Open Scope string_scope.
Local Open Scope list_scope.
Local Open Scope nat_scope.
Section Sims.
Context {N : Num} {E : Ext} {FI : FloatIO} {PI : PipeIO}.

(** ** C57 *)
(** the output for one measure: every non-blank line, stripped, a space, and the similarity of the words in its two columns *)
Definition sim_lines (s : space) (s2 : option space) (sim : similarity) (c0 c1 : Z) (t out : string) : Prop :=
  exists vals, Forall2 (fun l v => exists w1 w2, column l c0 w1 /\ column l c1 w2 /\ get_sim s w1 w2 sim s2 = Ok v) (text_lines t) vals /\
    out = String.concat "" (map (fun lv : string * F => (fst lv ++ " " ++ fstr (snd lv) ++ nl)%string) (combine (text_lines t) vals)).
Definition line_text (s : space) (s2 : option space) (sim : similarity) (c0 c1 : Z) (l : string) : res string :=
  let* w1 := py_nth (split l) (c0 - 1) in let* w2 := py_nth (split l) (c1 - 1) in let* x := get_sim s w1 w2 sim s2 in Ok (l ++ " " ++ fstr x ++ nl)%string.
Definition sim_text (s : space) (s2 : option space) (sim : similarity) (c0 c1 : Z) (t : string) : res string :=
  let* xs := mapM (line_text s s2 sim c0 c1) (text_lines t) in Ok (String.concat "" xs).
Lemma sim_fold s s2 sim c0 c1 t : foldM (sim_line s s2 sim (c0 - 1) (c1 - 1)) (flines t) "" = sim_text s s2 sim c0 c1 t.
Proof.
  unfold sim_text. change (let* xs := mapM (line_text s s2 sim c0 c1) (text_lines t) in Ok (String.concat "" xs)) with (let* xs := mapM (line_text s s2 sim c0 c1) (text_lines t) in Ok ("" ++ String.concat "" xs)%string).
  rewrite <- fold_lines. apply foldM_ext. intros out line. unfold sim_line, line_text. destruct (String.eqb (strip line) ""); [reflexivity|].
  destruct (py_nth _ (c0 - 1)) as [w1|]; [|reflexivity]. cbn [bind]. destruct (py_nth _ (c1 - 1)) as [w2|]; [|reflexivity]. cbn [bind]. destruct (get_sim _ _ _ _ _); reflexivity.
Qed.
Lemma sim_text_iff s s2 sim c0 c1 t out : sim_text s s2 sim c0 c1 t = Ok out <-> sim_lines s s2 sim c0 c1 t out.
Proof.
  unfold sim_text, sim_lines. generalize (text_lines t) as ls. split.
  - intros H. apply bind_ok in H. destruct H as (xs & Hx & H). injection H as <-. revert xs Hx. induction ls as [|l ls IH]; intros xs Hx; cbn [mapM] in Hx.
    + injection Hx as <-. exists []. split; [constructor|reflexivity].
    + apply bind_ok in Hx. destruct Hx as (x & H1 & Hx). apply bind_ok in Hx. destruct Hx as (xs' & H2 & Hx). injection Hx as <-. destruct (IH xs' H2) as (vals & F2 & Ec).
      unfold line_text in H1. apply bind_ok in H1. destruct H1 as (w1 & W1 & H1). apply bind_ok in H1. destruct H1 as (w2 & W2 & H1). apply bind_ok in H1. destruct H1 as (v & Hv & H1). injection H1 as <-.
      exists (v :: vals). split; [constructor; [|exact F2]; exists w1, w2; rewrite <- !column_nth; auto|]. cbn [combine map]. rewrite !concat_cons, Ec. reflexivity.
  - intros (vals & F2 & ->). induction F2 as [|l v ls vs (w1 & w2 & W1 & W2 & Hv) F2 IH]; [reflexivity|]. cbn [mapM]. unfold line_text at 1. rewrite (proj2 (column_nth _ _ _) W1). cbn [bind]. rewrite (proj2 (column_nth _ _ _) W2). cbn [bind]. rewrite Hv. cbn [bind].
    apply bind_ok in IH. destruct IH as (xs & -> & IH). cbn [bind]. injection IH as IH. cbn [combine map fst snd]. rewrite !concat_cons, IH. reflexivity.
Qed.
Lemma result_name out_dir kind nm d m in_file : file_name in_file nm -> ~ In "/"%char (chars kind) -> ~ In "/"%char (chars d) -> ~ In "/"%char (chars m) -> kind <> "" ->
  result_file out_dir kind nm d m <> in_file.
Proof.
  intros H Hk Hd Hm Hne K. pose proof H as (Hs & _). assert (B : base_name (result_file out_dir kind nm d m) = (kind ++ "." ++ nm ++ "." ++ d ++ "." ++ m)%string).
  { apply base_name_file. split; [|right; exists out_dir; reflexivity]. rewrite !chars_app, !in_app_iff. cbn. intuition discriminate. }
  rewrite K, (base_name_file _ _ H) in B. apply (f_equal String.length) in B. rewrite !slength_app in B. destruct kind; [congruence|]. cbn in B. lia.
Qed.
Lemma stem_noslash p d : stem_of p d -> ~ In "/"%char (chars d).
Proof. intros [p' d' e (H & _) _|p' nm _ _]; [|intros []]. rewrite chars_app, in_app_iff in H. tauto. Qed.
Lemma described_noslash files d : described files d -> ~ In "/"%char (chars d).
Proof.
  intros [f r d' _ Hs|f g d1 d2 e Hs (Hg & _) _|f g d1 nm Hs _ _]; [exact (stem_noslash _ _ Hs)| |exact (stem_noslash _ _ Hs)].
  rewrite !chars_app, !in_app_iff in *. pose proof (stem_noslash _ _ Hs). cbn. intuition discriminate.
Qed.
Lemma measure_noslash m sim : measure_named m sim -> ~ In "/"%char (chars m).
Proof. intros H. destruct H; cbn; intros K; repeat (destruct K as [K|K]; [discriminate|]); exact K. Qed.
Lemma measure_nodot m sim : measure_named m sim -> ~ In "."%char (chars m).
Proof. intros H. destruct H; cbn; intros K; repeat (destruct K as [K|K]; [discriminate|]); exact K. Qed.
Lemma result_inj out_dir kind nm d m m' sim sim' : measure_named m sim -> measure_named m' sim' -> result_file out_dir kind nm d m = result_file out_dir kind nm d m' -> m = m'.
Proof. intros _ _ H. unfold result_file in H. do 8 (apply sapp_inj in H). exact H. Qed.
Lemma sims_fold in_file nm out_dir d s s2 c0 c1 t measures fs fs' : file_name in_file nm -> ~ In "/"%char (chars d) -> text_at fs in_file t ->
  foldM (sim_measure_step in_file out_dir ("SIMS." ++ nm ++ "." ++ d) s s2 (c0 - 1) (c1 - 1)) measures fs = Ok fs' ->
  (forall m sim, In m measures -> measure_named m sim -> exists out, sim_text s s2 sim c0 c1 t = Ok out /\ text_at fs' (result_file out_dir "SIMS" nm d m) out) /\
  only_changes (fun q => exists m sim, In m measures /\ measure_named m sim /\ q = result_file out_dir "SIMS" nm d m) fs fs'.
Proof.
  intros Hn Hd Ht. revert fs'. induction measures as [|m ms IH] using rev_ind; intros fs' H.
  - injection H as <-. split; [intros m sim []|apply only_refl].
  - rewrite foldM_app in H. apply bind_ok in H. destruct H as (fs1 & H1 & H). cbn [foldM] in H. apply bind_ok in H. destruct H as (fs2 & H2 & H). injection H as <-.
    destruct (IH fs1 H1) as (I1 & I2). clear IH. unfold sim_measure_step in H2. destruct (measure m) as [sim|] eqn:Em.
    + apply measure_iff in Em. apply bind_ok in H2. destruct H2 as (fs3 & H3 & H2). apply bind_ok in H2. destruct H2 as (t' & H4 & H2). apply bind_ok in H2. destruct H2 as (out & H5 & H2).
      rewrite sim_fold in H5. apply read_text_at in H4. pose proof (parents_files _ _ _ H3) as P3. 
      assert (t' = t) as ->.
      { unfold text_at in H4, Ht. rewrite P3, I2, Ht in H4; [congruence|]. intros (m' & sim' & _ & Hm' & K). symmetry in K. revert K. apply result_name; [exact Hn| |exact Hd|exact (measure_noslash _ _ Hm')|discriminate].
        cbn. intros K; repeat (destruct K as [K|K]; [discriminate|]); exact K. }
      change (out_dir ++ "/" ++ ("SIMS." ++ nm ++ "." ++ d) ++ "." ++ m)%string with (out_dir ++ "/" ++ "SIMS." ++ (nm ++ "." ++ d) ++ "." ++ m)%string in H2. rewrite !sapp_assoc in H2.
      change (out_dir ++ "/" ++ "SIMS." ++ nm ++ "." ++ d ++ "." ++ m)%string with (result_file out_dir "SIMS" nm d m) in H2.
      destruct (write_file_ok _ _ _ _ H2) as (W1 & W2 & _). split.
      * intros m' sim' Hin Hm'. destruct (string_dec m' m) as [-> |Hne].
        -- assert (sim' = sim) as -> by (apply measure_iff in Hm', Em; congruence). exists out. split; [exact H5|exact W1].
        -- apply in_app_iff in Hin. destruct Hin as [Hin|[Hin|[]]]; [|congruence]. destruct (I1 m' sim' Hin Hm') as (out' & K1 & K2). exists out'. split; [exact K1|]. unfold text_at in *. rewrite W2, P3; [exact K2|].
           intros K. apply Hne, (result_inj _ _ _ _ _ _ _ _ Hm' Em K).
      * intros q Hq. rewrite W2, P3; [apply I2|].
        -- intros (m' & sim' & K1 & K2 & K3). apply Hq. exists m', sim'. split; [apply in_app_iff; left; exact K1|auto].
        -- intros ->. apply Hq. exists m, sim. split; [apply in_app_iff; right; left; reflexivity|auto].
    + injection H2 as <-. split.
      * intros m' sim' Hin Hm'. apply in_app_iff in Hin. destruct Hin as [Hin|[<-|[]]]; [eauto|]. apply measure_iff in Hm'. congruence.
      * eapply only_weaken; [|exact I2]. intros q (m' & sim' & K1 & K2). exists m', sim'. split; [apply in_app_iff; left; exact K1|exact K2].
Qed.
Theorem C57_lines fs in_file nm a0 a1 c0 c1 out_dir measures files d s s2 t fs' :
  file_name in_file nm -> described files d -> iparse a0 = Some c0 -> iparse a1 = Some c1 ->
  spaces_at fs files s s2 -> text_at fs in_file t ->
  compute_sim fs in_file [a0; a1] out_dir measures files = Ok fs' ->
  (forall m sim, In m measures -> measure_named m sim -> exists out, sim_lines s s2 sim c0 c1 t out /\ text_at fs' (result_file out_dir "SIMS" nm d m) out) /\
  only_changes (fun q => exists m sim, In m measures /\ measure_named m sim /\ q = result_file out_dir "SIMS" nm d m) fs fs'.
Proof.
  intros Hn Hd E0 E1 Hsp Ht H. cbn [compute_sim] in H. unfold parse_int in H. rewrite E0, E1 in H. cbn [bind] in H. apply spaces_at_ok in Hsp.
  apply bind_ok in H. destruct H as (f1 & Hf & H). rewrite Hf in Hsp. cbn [bind] in Hsp. destruct (load_space fs f1) as [s0|e0] eqn:El; [|discriminate]. cbn [bind] in Hsp.
  apply bind_ok in H. destruct H as (s20 & H2 & H). rewrite H2 in Hsp. cbn [bind] in Hsp. injection Hsp as -> ->. rewrite (described_eq "SIMS" _ _ _ _ Hn Hd) in H. cbn [bind] in H.
  change ("SIMS" ++ "." ++ nm ++ "." ++ d)%string with ("SIMS." ++ nm ++ "." ++ d)%string in H.
  destruct (sims_fold _ _ _ _ _ _ _ _ _ _ _ _ Hn (described_noslash _ _ Hd) Ht H) as (K1 & K2). split; [|exact K2].
  intros m sim Hin Hm. destruct (K1 m sim Hin Hm) as (out & O1 & O2). exists out. split; [apply sim_text_iff, O1|exact O2].
Qed.
(** hence it does not end normally if some line lacks a column (and some measure is defined) *)
Theorem C57_missing_column fs in_file nm a0 a1 c0 c1 out_dir measures files d s s2 t l m sim :
  file_name in_file nm -> described files d -> iparse a0 = Some c0 -> iparse a1 = Some c1 -> spaces_at fs files s s2 -> text_at fs in_file t ->
  In m measures -> measure_named m sim -> In l (text_lines t) -> (forall w, ~ column l c0 w) \/ (forall w, ~ column l c1 w) ->
  forall fs', compute_sim fs in_file [a0; a1] out_dir measures files <> Ok fs'.
Proof.
  intros Hn Hd E0 E1 Hsp Ht Hin Hm Hl Hc fs' H. destruct (C57_lines _ _ _ _ _ _ _ _ _ _ _ _ _ _ _ Hn Hd E0 E1 Hsp Ht H) as (K & _). destruct (K m sim Hin Hm) as (out & (vals & F2 & _) & _).
  clear - F2 Hl Hc. induction F2 as [|l' v ls vs (w1 & w2 & W1 & W2 & _) F2 IH]; [destruct Hl|]. destruct Hl as [-> |Hl]; [|exact (IH Hl)]. destruct Hc as [Hc|Hc]; eapply Hc; eassumption.
Qed.
(** a pickle that is not a space: nothing is written *)
Theorem C57_not_a_space fs in_file a0 a1 c0 c1 out_dir measures f r o : iparse a0 = Some c0 -> iparse a1 = Some c1 -> object_at fs f o -> (forall s, o <> OSpace s) ->
  compute_sim fs in_file [a0; a1] out_dir measures (f :: r) = Ok fs.
Proof.
  intros E0 E1 Ho Hs. cbn [compute_sim head_file]. unfold parse_int. rewrite E0, E1. cbn [bind]. unfold load_space. rewrite Ho. destruct o as [s|m|m]; [exfalso; apply (Hs s); reflexivity|reflexivity|reflexivity].
Qed.
(** the run succeeds when every similarity exists and the output can be written *)
Definition result_name_of (kind nm d m : string) : string := (kind ++ "." ++ nm ++ "." ++ d ++ "." ++ m)%string.
Theorem C57_total fs in_file nm a0 a1 c0 c1 root dirs measures files d s s2 t :
  file_name in_file nm -> described files d -> iparse a0 = Some c0 -> iparse a1 = Some c1 -> spaces_at fs files s s2 -> text_at fs in_file t ->
  (forall m sim, In m measures -> measure_named m sim -> (exists out, sim_lines s s2 sim c0 c1 t out) /\ usable_file fs root dirs (result_name_of "SIMS" nm d m)) ->
  exists fs', compute_sim fs in_file [a0; a1] (path root dirs) measures files = Ok fs'.
Proof.
  intros Hn Hd E0 E1 Hsp Ht H. cbn [compute_sim]. unfold parse_int. rewrite E0, E1. cbn [bind]. apply spaces_at_ok in Hsp.
  destruct (head_file files) as [f1|]; [|discriminate]. cbn [bind] in *. destruct (load_space fs f1) as [a|]; [|discriminate]. cbn [bind] in *. destruct (load_second fs files) as [a2|]; [|discriminate]. cbn [bind] in *.
  injection Hsp as -> ->. rewrite (described_eq "SIMS" _ _ _ _ Hn Hd). cbn [bind]. revert fs Ht H. induction measures as [|m ms IH]; intros fs Ht H; [exists fs; reflexivity|]. cbn [foldM].
  assert (K : exists fs1, sim_measure_step in_file (path root dirs) ("SIMS" ++ "." ++ nm ++ "." ++ d) s s2 (c0 - 1) (c1 - 1) fs m = Ok fs1 /\ text_at fs1 in_file t /\ forall nm', usable_file fs root dirs nm' -> usable_file fs1 root dirs nm').
  { unfold sim_measure_step. destruct (measure m) as [sim|] eqn:Em; [|exists fs; auto]. apply measure_iff in Em. destruct (H m sim (or_introl eq_refl) Em) as ((out & Ho) & Hu).
    pose proof Hu as (_ & Hne & _).
    replace (path root dirs ++ "/" ++ ("SIMS" ++ "." ++ nm ++ "." ++ d) ++ "." ++ m)%string with (path root (dirs ++ [result_name_of "SIMS" nm d m])) by (rewrite path_snoc by exact Hne; unfold result_name_of; rewrite !sapp_assoc; reflexivity).
    destruct (write_total _ _ _ _ Hu) as (fs1 & Hp & Hw). rewrite Hp. cbn [bind].
    assert (Hr : read_text fs1 in_file = Ok t) by (apply read_text_at; unfold text_at; rewrite (parents_files _ _ _ Hp); exact Ht). rewrite Hr. cbn [bind]. rewrite sim_fold, (proj2 (sim_text_iff _ _ _ _ _ _ _) Ho). cbn [bind].
    destruct (Hw (Text out)) as (fs2 & Hw2 & Hk). rewrite Hw2. exists fs2. split; [reflexivity|]. split; [|exact Hk]. destruct (write_file_ok _ _ _ _ Hw2) as (_ & W2 & _). unfold text_at. rewrite W2, (parents_files _ _ _ Hp); [exact Ht|].
    rewrite path_snoc by exact Hne. intros Q. symmetry in Q. revert Q. apply (result_name (path root dirs) "SIMS" nm d m in_file Hn); [|exact (described_noslash _ _ Hd)|exact (measure_noslash _ _ Em)|discriminate].
    cbn. intros K; repeat (destruct K as [K|K]; [discriminate|]); exact K. }
  destruct K as (fs1 & -> & T1 & U1). cbn [bind]. apply IH; [exact T1|]. intros m' sim' Hin Hm'. destruct (H m' sim' (or_intror Hin) Hm') as (Ho & Hu). auto.
Qed.

(** ** C64 *)
(** the output: every line of the input, stripped, and the neighbours of that word, one per line after a tab *)
Definition neighbour_lines (s : space) (s2 : option space) (sim : similarity) (k : Z) (t out : string) : Prop :=
  exists ns, Forall2 (fun w l => get_neighbours s w k sim s2 = Ok l) (text_lines t) ns /\
    out = String.concat "" (map (fun wl : string * list (string * F) =>
      (fst wl ++ nl ++ String.concat "" (map (fun nx : string * F => (tabs ++ fst nx ++ " " ++ fstr (snd nx) ++ nl)%string) (snd wl)))%string) (combine (text_lines t) ns)).
Lemma neigh_fold s s2 sim k ws out0 out : foldM (neigh_text s s2 sim k) ws out0 = Ok out <->
  exists ns, Forall2 (fun w l => get_neighbours s w k sim s2 = Ok l) ws ns /\
    out = (out0 ++ String.concat "" (map (fun wl : string * list (string * F) =>
      (fst wl ++ nl ++ String.concat "" (map (fun nx : string * F => (tabs ++ fst nx ++ " " ++ fstr (snd nx) ++ nl)%string) (snd wl)))%string) (combine ws ns)))%string.
Proof.
  revert out0. induction ws as [|w ws IH]; intros out0; cbn [foldM].
  - split.
    + intros H. injection H as <-. exists []. split; [constructor|]. cbn. rewrite sapp_nil_r. reflexivity.
    + intros (ns & H & ->). inversion H. cbn. rewrite sapp_nil_r. reflexivity.
  - split.
    + intros H. apply bind_ok in H. destruct H as (o1 & H1 & H). unfold neigh_text in H1. apply bind_ok in H1. destruct H1 as (l & Hl & H1). injection H1 as <-. apply IH in H. destruct H as (ns & F2 & ->).
      exists (l :: ns). split; [constructor; assumption|]. cbn [combine map fst snd]. rewrite concat_cons, !sapp_assoc. reflexivity.
    + intros (ns & H & ->). inversion H as [|? l ? ns' Hl F2]; subst. unfold neigh_text at 1. rewrite Hl. cbn [bind]. apply IH. exists ns'. split; [exact F2|]. cbn [combine map fst snd]. rewrite concat_cons, !sapp_assoc. reflexivity.
Qed.
Theorem C64_neighbours fs in_file nm k out_dir m sim files d s s2 t fs' :
  file_name in_file nm -> described files d -> measure_named m sim -> spaces_at fs files s s2 -> text_at fs in_file t ->
  compute_neighbours fs in_file k out_dir m files = Ok fs' ->
  exists out, neighbour_lines s s2 sim k t out /\ text_at fs' (result_file out_dir "NEIGHBOURS" nm d m) out /\ only_changes (eq (result_file out_dir "NEIGHBOURS" nm d m)) fs fs'.
Proof.
  intros Hn Hd Hm Hsp Ht H. unfold compute_neighbours in H. rewrite (proj2 (measure_iff _ _) Hm) in H. apply spaces_at_ok in Hsp.
  apply bind_ok in H. destruct H as (f1 & Hf & H). rewrite Hf in Hsp. cbn [bind] in Hsp. apply bind_ok in H. destruct H as (s0 & Hs & H). rewrite Hs in Hsp. cbn [bind] in Hsp.
  apply bind_ok in H. destruct H as (s20 & H2 & H). rewrite H2 in Hsp. cbn [bind] in Hsp. injection Hsp as -> ->. rewrite (described_eq "NEIGHBOURS" _ _ _ _ Hn Hd) in H. cbn [bind] in H. cbv zeta in H.
  replace (out_dir ++ "/" ++ ("NEIGHBOURS" ++ "." ++ nm ++ "." ++ d) ++ "." ++ m)%string with (result_file out_dir "NEIGHBOURS" nm d m) in H by (unfold result_file; rewrite !sapp_assoc; reflexivity).
  apply bind_ok in H. destruct H as (fs1 & Hp & H). apply bind_ok in H. destruct H as (t' & Hr & H). apply read_text_at in Hr. unfold text_at in Hr, Ht. rewrite (parents_files _ _ _ Hp), Ht in Hr. injection Hr as <-.
  rewrite C58_list_lines in H. cbn [bind] in H. apply bind_ok in H. destruct H as (out & Ho & H). apply neigh_fold in Ho. destruct Ho as (ns & F2 & ->). destruct (write_parents _ _ _ _ _ Hp H) as (W1 & W2).
  eexists. split; [exists ns; split; [exact F2|reflexivity]|]. split; [exact W1|exact W2].
Qed.
Theorem C64_unknown_measure fs in_file k out_dir m files : (forall sim, ~ measure_named m sim) -> compute_neighbours fs in_file k out_dir m files = Err ValueError.
Proof. intros H. unfold compute_neighbours. destruct (measure m) as [sim|] eqn:Em; [|reflexivity]. exfalso. apply (H sim), measure_iff, Em. Qed.
Theorem C64_total fs in_file nm k root dirs m sim files d s s2 t :
  file_name in_file nm -> described files d -> measure_named m sim -> spaces_at fs files s s2 -> text_at fs in_file t ->
  (forall w, In w (text_lines t) -> exists l, get_neighbours s w k sim s2 = Ok l) -> usable_file fs root dirs (result_name_of "NEIGHBOURS" nm d m) ->
  exists fs', compute_neighbours fs in_file k (path root dirs) m files = Ok fs'.
Proof.
  intros Hn Hd Hm Hsp Ht H Hu. unfold compute_neighbours. rewrite (proj2 (measure_iff _ _) Hm). apply spaces_at_ok in Hsp.
  destruct (head_file files) as [f1|]; [|discriminate]. cbn [bind] in *. destruct (load_space fs f1) as [a|]; [|discriminate]. cbn [bind] in *. destruct (load_second fs files) as [a2|]; [|discriminate]. cbn [bind] in *.
  injection Hsp as -> ->. rewrite (described_eq "NEIGHBOURS" _ _ _ _ Hn Hd). cbn [bind]. cbv zeta. pose proof Hu as (_ & Hne & _).
  replace (path root dirs ++ "/" ++ ("NEIGHBOURS" ++ "." ++ nm ++ "." ++ d) ++ "." ++ m)%string with (path root (dirs ++ [result_name_of "NEIGHBOURS" nm d m])) by (rewrite path_snoc by exact Hne; unfold result_name_of; rewrite !sapp_assoc; reflexivity).
  destruct (write_total _ _ _ _ Hu) as (fs1 & Hp & Hw). rewrite Hp. cbn [bind].
  assert (Hr : read_text fs1 in_file = Ok t) by (apply read_text_at; unfold text_at; rewrite (parents_files _ _ _ Hp); exact Ht). rewrite Hr. cbn [bind]. rewrite C58_list_lines. cbn [bind].
  assert (K : exists ns, Forall2 (fun w l => get_neighbours s w k sim s2 = Ok l) (text_lines t) ns).
  { clear - H. induction (text_lines t) as [|w ws IH]; [exists []; constructor|]. destruct IH as (ns & F2); [intros w' Hw; apply H; right; exact Hw|]. destruct (H w (or_introl eq_refl)) as (l & Hl). exists (l :: ns). constructor; assumption. }
  destruct K as (ns & F2). rewrite (proj2 (neigh_fold s s2 sim k (stripped t) "" _) (ex_intro _ ns (conj F2 eq_refl))). cbn [bind]. match goal with |- context [write_file fs1 _ ?c] => destruct (Hw c) as (fs2 & Hw2 & _) end. rewrite Hw2. eauto.
Qed.
(** the first word without neighbours decides the error *)
Theorem C64_fails fs in_file nm k root dirs m sim files d s s2 t ws1 w ws2 e :
  file_name in_file nm -> described files d -> measure_named m sim -> spaces_at fs files s s2 -> text_at fs in_file t -> usable_file fs root dirs (result_name_of "NEIGHBOURS" nm d m) ->
  text_lines t = ws1 ++ w :: ws2 -> (forall w', In w' ws1 -> exists l, get_neighbours s w' k sim s2 = Ok l) -> get_neighbours s w k sim s2 = Err e ->
  compute_neighbours fs in_file k (path root dirs) m files = Err e.
Proof.
  intros Hn Hd Hm Hsp Ht Hu Hl H He. unfold compute_neighbours. rewrite (proj2 (measure_iff _ _) Hm). apply spaces_at_ok in Hsp.
  destruct (head_file files) as [f1|]; [|discriminate]. cbn [bind] in *. destruct (load_space fs f1) as [a|]; [|discriminate]. cbn [bind] in *. destruct (load_second fs files) as [a2|]; [|discriminate]. cbn [bind] in *.
  injection Hsp as -> ->. rewrite (described_eq "NEIGHBOURS" _ _ _ _ Hn Hd). cbn [bind]. cbv zeta. pose proof Hu as (_ & Hne & _).
  replace (path root dirs ++ "/" ++ ("NEIGHBOURS" ++ "." ++ nm ++ "." ++ d) ++ "." ++ m)%string with (path root (dirs ++ [result_name_of "NEIGHBOURS" nm d m])) by (rewrite path_snoc by exact Hne; unfold result_name_of; rewrite !sapp_assoc; reflexivity).
  destruct (write_total _ _ _ _ Hu) as (fs1 & Hp & Hw). rewrite Hp. cbn [bind].
  assert (Hr : read_text fs1 in_file = Ok t) by (apply read_text_at; unfold text_at; rewrite (parents_files _ _ _ Hp); exact Ht). rewrite Hr. cbn [bind]. rewrite C58_list_lines. cbn [bind].
  change (stripped t) with (text_lines t). rewrite Hl, foldM_app.
  assert (K : exists o, foldM (neigh_text s s2 sim k) ws1 "" = Ok o).
  { clear - H. generalize "" as o0. induction ws1 as [|x ws IH]; intros o0; [eexists; reflexivity|]. cbn [foldM]. unfold neigh_text at 1. destruct (H x (or_introl eq_refl)) as (l & ->). cbn [bind]. apply IH. intros w' Hw. apply H. right. exact Hw. }
  destruct K as (o & ->). cbn [bind foldM]. unfold neigh_text at 1. rewrite He. reflexivity.
Qed.

(** ** C65 *)
(** the numbers of a column *)
Definition column_numbers (c : Z) (t : string) (l : list F) : Prop := Forall2 (fun line x => exists w, column line c w /\ fparse w = Some x) (text_lines t) l.
Lemma eval_fold c0 c1 t g0 p0 g p : foldM (eval_line (c0 - 1) (c1 - 1)) (flines t) (g0, p0) = Ok (g, p) <->
  exists gs ps, column_numbers c0 t gs /\ column_numbers c1 t ps /\ g = g0 ++ gs /\ p = p0 ++ ps.
Proof.
  unfold column_numbers, text_lines. revert g0 p0. induction (flines t) as [|l ls IH]; intros g0 p0; cbn [foldM map filter].
  - split.
    + intros H. injection H as <- <-. exists [], []. rewrite !app_nil_r. repeat split; constructor.
    + intros (gs & ps & H1 & H2 & -> & ->). inversion H1. inversion H2. rewrite !app_nil_r. reflexivity.
  - unfold eval_line at 1. destruct (String.eqb (strip l) ""); cbn [negb bind]; [apply IH|]. cbn [fst snd]. split.
    + intros H. apply bind_ok in H. destruct H as (st & Hl & H). apply bind_ok in Hl. destruct Hl as (w1 & W1 & Hl). apply bind_ok in Hl. destruct Hl as (x1 & X1 & Hl). apply bind_ok in Hl. destruct Hl as (w2 & W2 & Hl). apply bind_ok in Hl. destruct Hl as (x2 & X2 & Hl). injection Hl as <-.
      apply IH in H. destruct H as (gs & ps & H1 & H2 & -> & ->). exists (x1 :: gs), (x2 :: ps). apply column_nth in W1, W2. unfold parse_num in X1, X2. destruct (fparse w1) eqn:P1; [|discriminate]. destruct (fparse w2) eqn:P2; [|discriminate]. injection X1 as ->. injection X2 as ->.
      rewrite <- !app_assoc. split; [constructor; [exists w1; auto|exact H1]|]. split; [constructor; [exists w2; auto|exact H2]|]. split; reflexivity.
    + intros (gs & ps & H1 & H2 & -> & ->). inversion H1 as [|? x1 ? gs' (w1 & W1 & P1) F1]; subst. inversion H2 as [|? x2 ? ps' (w2 & W2 & P2) F2]; subst. apply column_nth in W1, W2.
      rewrite W1. cbn [bind]. unfold parse_num. rewrite P1. cbn [bind]. rewrite W2. cbn [bind]. rewrite P2. cbn [bind]. apply IH. exists gs', ps'. rewrite <- !app_assoc. split; [exact F1|]. split; [exact F2|]. split; reflexivity.
Qed.
(** the text printed: one block per measure, with the correlation of the two columns *)
Definition correlation_text (gold prediction : list F) (measures : list string) (out : string) : Prop :=
  exists xs, Forall2 (fun m x => score pearsonr spearmanr gold prediction m = Ok x) measures xs /\
    out = String.concat "" (map (fun mx : string * F => ("CORRELATION:" ++ fst mx ++ nl ++ tabs ++ ffmt (snd mx) ++ nl)%string) (combine measures xs)).
Lemma measures_fold gold prediction ms out0 out : foldM (eval_measure gold prediction) ms out0 = Ok out <->
  exists o, correlation_text gold prediction ms o /\ out = (out0 ++ o)%string.
Proof.
  unfold correlation_text. revert out0. induction ms as [|m ms IH]; intros out0; cbn [foldM].
  - split.
    + intros H. injection H as <-. exists "". split; [exists []; split; [constructor|reflexivity]|rewrite sapp_nil_r; reflexivity].
    + intros (o & (xs & H & ->) & ->). inversion H. cbn. rewrite sapp_nil_r. reflexivity.
  - split.
    + intros H. apply bind_ok in H. destruct H as (o1 & H1 & H). unfold eval_measure in H1. apply bind_ok in H1. destruct H1 as (x & Hx & H1). injection H1 as <-. apply IH in H. destruct H as (o & (xs & F2 & ->) & ->).
      eexists. split; [exists (x :: xs); split; [constructor; assumption|reflexivity]|]. cbn [combine map fst snd]. rewrite concat_cons. unfold nl, tabs, str1. repeat (progress (rewrite ?sapp_assoc; cbn [append])). reflexivity.
    + intros (o & (xs & H & ->) & ->). inversion H as [|? x ? xs' Hx F2]; subst. unfold eval_measure at 1. rewrite Hx. cbn [bind]. apply IH. eexists. split; [exists xs'; split; [exact F2|reflexivity]|]. cbn [combine map fst snd]. rewrite concat_cons. unfold nl, tabs, str1. repeat (progress (rewrite ?sapp_assoc; cbn [append])). reflexivity.
Qed.
Theorem C65_evaluate fs in_file a0 a1 c0 c1 measures t out : iparse a0 = Some c0 -> iparse a1 = Some c1 -> text_at fs in_file t ->
  (evaluate_sim fs in_file [a0; a1] measures = Ok out <-> exists gold prediction, column_numbers c0 t gold /\ column_numbers c1 t prediction /\ correlation_text gold prediction measures out).
Proof.
  intros E0 E1 Ht. cbn [evaluate_sim]. unfold parse_int. rewrite E0, E1. cbn [bind]. rewrite (proj2 (read_text_at _ _ _) Ht). cbn [bind]. split.
  - intros H. apply bind_ok in H. destruct H as ([g p] & Hl & H). apply eval_fold in Hl. destruct Hl as (gs & ps & H1 & H2 & -> & ->). apply measures_fold in H. destruct H as (o & Ho & ->). exists gs, ps. auto.
  - intros (gs & ps & H1 & H2 & H3). rewrite (proj2 (eval_fold c0 c1 t [] [] gs ps)) by (exists gs, ps; auto). cbn [bind]. apply measures_fold. exists out. auto.
Qed.
End Sims.
