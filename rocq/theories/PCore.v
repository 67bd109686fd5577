(** PCore.v -- lemmas for C54 *)
From Coq Require Import Ascii.
From Verif Require Import Base PyList Dict Num Dense Sparse Matrix Scaling Linalg Operation Similarity Space Peripheral SpecSpace Learner Composition Utils LexFun Str PStr IO SpecIO PIO Prop_IO PExport Prop_Export Pipe SpecPipe SpecPipe2 PFiles PPipe PPipe2 SpecCore.
Local Open Scope string_scope.
Local Open Scope list_scope.
Local Open Scope nat_scope.
Section Core.
Context {N : Num} {E : Ext} {FI : FloatIO} {PI : PipeIO}.
Definition do_op (s : space) (t : option transformation) : res space := match t with None => Ok s | Some t => space_apply s t end.

(** ** the named operations *)
Lemma weighting_does s w t : weighting_op w t -> apply_weighting s w = do_op s t.
Proof. intros H. destruct H as [o [-> |[-> | ->]]| | | |]; reflexivity. Qed.
Lemma normalization_does s w t : normalization_op w t -> apply_normalization s w = do_op s t.
Proof. intros H. destruct H as [o [-> |[-> | ->]]| |]; reflexivity. Qed.
Lemma reduced_positive d k : positive d k -> reduced_dim d = Ok k.
Proof. intros (Hk & Hd). unfold reduced_dim, parse_int. rewrite Hd. cbn [bind]. unfold mk_reduced_dim. destruct (Z.ltb_spec 0 (Z.of_nat k)); [|lia]. cbn [check bind]. rewrite Nat2Z.id. reflexivity. Qed.
Lemma split_name a d : ~ In underscore (chars a) -> split_on underscore (a ++ "_" ++ d) = a :: split_on underscore d.
Proof. intros Ha. change ("_" ++ d)%string with (String underscore d). rewrite split_on_app, (split_on_none _ _ Ha). reflexivity. Qed.
Ltac no_char := cbn; intros ?K; repeat (destruct K as [K|K]; [discriminate|]); exact K.
Lemma split_sum d : split_on underscore ("top_sum_" ++ d) = "top" :: "sum" :: split_on underscore d.
Proof. change ("top_sum_" ++ d)%string with ("top" ++ "_" ++ ("sum" ++ "_" ++ d))%string. rewrite !split_name by no_char. reflexivity. Qed.
Lemma split_length d : split_on underscore ("top_length_" ++ d) = "top" :: "length" :: split_on underscore d.
Proof. change ("top_length_" ++ d)%string with ("top" ++ "_" ++ ("length" ++ "_" ++ d))%string. rewrite !split_name by no_char. reflexivity. Qed.
Lemma selection_does s w t : int_syntax -> selection_op w t -> apply_selection s w = do_op s t.
Proof.
  intros HI H. destruct H as [o [-> |[-> | ->]]|d k Hk|d k Hk]; try reflexivity.
  - unfold apply_selection. change (String.eqb ("top_sum_" ++ d) "none") with false. cbv iota. rewrite split_sum, split_on_none by (apply (HI d _ (proj2 Hk))).
    cbn. rewrite (reduced_positive d k Hk). reflexivity.
  - unfold apply_selection. change (String.eqb ("top_length_" ++ d) "none") with false. cbv iota. rewrite split_length, split_on_none by (apply (HI d _ (proj2 Hk))).
    cbn. rewrite (reduced_positive d k Hk). reflexivity.
Qed.
Lemma reduction_does s w t : int_syntax -> reduction_op w t -> apply_reduction s w = do_op s t.
Proof.
  intros HI H. destruct H as [o [-> |[-> | ->]]|d k Hk|d k Hk]; try reflexivity.
  - unfold apply_reduction. replace (String.eqb ("svd_" ++ d) "none") with false by reflexivity. change ("svd_" ++ d)%string with ("svd" ++ "_" ++ d)%string.
    rewrite split_name, split_on_none by first [no_char|apply (HI d _ (proj2 Hk))]. cbn. rewrite (reduced_positive d k Hk). reflexivity.
  - unfold apply_reduction. replace (String.eqb ("nmf_" ++ d) "none") with false by reflexivity. change ("nmf_" ++ d)%string with ("nmf" ++ "_" ++ d)%string.
    rewrite split_name, split_on_none by first [no_char|apply (HI d _ (proj2 Hk))]. cbn. rewrite (reduced_positive d k Hk). reflexivity.
Qed.

(** ** the nested loops *)
Definition saves (fmt : option string) (l : list (string * space)) (fs fs' : fsys) : Prop :=
  foldM (fun fs ps => save_export fs (snd ps) (fst ps) fmt) l fs = Ok fs'.
Lemma saves_app fmt l1 l2 a b c : saves fmt l1 a b -> saves fmt l2 b c -> saves fmt (l1 ++ l2) a c.
Proof. unfold saves. intros H K. rewrite foldM_app, H. exact K. Qed.
Lemma loop_saves {A B} fmt (f : A -> res B) (G : A -> B -> fsys -> res fsys) (P : A -> B -> list (string * space) -> Prop) ws :
  (forall w y a b, In w ws -> f w = Ok y -> G w y a = Ok b -> exists l, saves fmt l a b /\ P w y l) ->
  forall fs fs', foldM (fun fs w => let* y := f w in G w y fs) ws fs = Ok fs' ->
  exists l, saves fmt l fs fs' /\ (forall w, In w ws -> exists y l', f w = Ok y /\ P w y l' /\ incl l' l) /\
    (forall e, In e l -> exists w y l', In w ws /\ f w = Ok y /\ P w y l' /\ In e l').
Proof.
  induction ws as [|w ws IH]; intros HG fs fs' H; cbn [foldM] in H.
  - injection H as <-. exists []. split; [reflexivity|]. split; [intros w []|intros e []].
  - apply bind_ok in H. destruct H as (fs1 & H1 & H). apply bind_ok in H1. destruct H1 as (y & Hy & H1).
    destruct (HG w y fs fs1 (or_introl eq_refl) Hy H1) as (l1 & S1 & P1).
    destruct (IH (fun w y a b Hw => HG w y a b (or_intror Hw)) fs1 fs' H) as (l2 & S2 & C2 & D2). exists (l1 ++ l2). split; [eapply saves_app; eassumption|]. split.
    + intros w' [<- |Hw]; [exists y, l1; split; [exact Hy|split; [exact P1|apply incl_appl, incl_refl]]|]. destruct (C2 w' Hw) as (y' & l' & Hf & HP & Hi). exists y', l'. split; [exact Hf|]. split; [exact HP|apply incl_appr, Hi].
    + intros e He. apply in_app_iff in He. destruct He as [He|He]; [exists w, y, l1; cbn; auto|]. destruct (D2 e He) as (w' & y' & l' & Hw & K). exists w', y', l'. split; [right; exact Hw|exact K].
Qed.
(** the saves of the four loops: one per combination *)
Definition result (s : space) (c : combination) : res space :=
  let '(w, x, r, n) := c in
  let* a := apply_weighting s w in let* a := apply_selection a x in let* a := apply_reduction a r in apply_normalization a n.
Definition out_of (out_dir descr : string) (c : combination) : string := let '(w, x, r, n) := c in (out_dir ++ "/" ++ space_descr [Some descr; w; x; r; n])%string.
Lemma run_saves fs s out_dir descr fmt ws xs rs ns fs' : run_combinations fs s out_dir descr fmt ws xs rs ns = Ok fs' ->
  exists l, saves fmt l fs fs' /\ (forall c, combos ws xs rs ns c -> exists s', result s c = Ok s' /\ In (out_of out_dir descr c, s') l) /\
    (forall e, In e l -> exists c, combos ws xs rs ns c /\ fst e = out_of out_dir descr c /\ result s c = Ok (snd e)).
Proof.
  intros H. unfold run_combinations in H.
  set (P4 := fun (w x r : option string) (rsp : space) (n : option string) (y : space) (l : list (string * space)) => l = [(out_of out_dir descr (w, x, r, n), y)]).
  set (P3 := fun (w x : option string) (ssp : space) (r : option string) (rsp : space) (l : list (string * space)) =>
     (forall n, In n ns -> exists y, apply_normalization rsp n = Ok y /\ In (out_of out_dir descr (w, x, r, n), y) l) /\
     (forall e, In e l -> exists n, In n ns /\ fst e = out_of out_dir descr (w, x, r, n) /\ apply_normalization rsp n = Ok (snd e))).
  set (P2 := fun (w : option string) (wsp : space) (x : option string) (ssp : space) (l : list (string * space)) =>
     (forall r n, In r rs -> In n ns -> exists rsp y, apply_reduction ssp r = Ok rsp /\ apply_normalization rsp n = Ok y /\ In (out_of out_dir descr (w, x, r, n), y) l) /\
     (forall e, In e l -> exists r n rsp, In r rs /\ In n ns /\ fst e = out_of out_dir descr (w, x, r, n) /\ apply_reduction ssp r = Ok rsp /\ apply_normalization rsp n = Ok (snd e))).
  set (P1 := fun (w : option string) (wsp : space) (l : list (string * space)) =>
     (forall x r n, In x xs -> In r rs -> In n ns -> exists ssp rsp y, apply_selection wsp x = Ok ssp /\ apply_reduction ssp r = Ok rsp /\ apply_normalization rsp n = Ok y /\ In (out_of out_dir descr (w, x, r, n), y) l) /\
     (forall e, In e l -> exists x r n ssp rsp, In x xs /\ In r rs /\ In n ns /\ fst e = out_of out_dir descr (w, x, r, n) /\ apply_selection wsp x = Ok ssp /\ apply_reduction ssp r = Ok rsp /\ apply_normalization rsp n = Ok (snd e))).
  eapply (loop_saves fmt _ _ P1) in H.
  - destruct H as (l & S & C & D). exists l. split; [exact S|]. split.
    + intros [[[w x] r] n] (Hw & Hx & Hr & Hn). destruct (C w Hw) as (wsp & l' & Ew & (K & _) & Hi). destruct (K x r n Hx Hr Hn) as (ssp & rsp & y & E1 & E2 & E3 & Hin).
      exists y. cbn [result]. rewrite Ew. cbn [bind]. rewrite E1. cbn [bind]. rewrite E2. cbn [bind]. split; [exact E3|apply Hi, Hin].
    + intros e He. destruct (D e He) as (w & wsp & l' & Hw & Ew & (_ & K) & Hin). destruct (K e Hin) as (x & r & n & ssp & rsp & Hx & Hr & Hn & Ef & E1 & E2 & E3).
      exists (w, x, r, n). split; [repeat split; assumption|]. split; [exact Ef|]. cbn [result]. rewrite Ew. cbn [bind]. rewrite E1. cbn [bind]. rewrite E2. cbn [bind]. exact E3.
  - clear H. intros w wsp a b Hw Ew H. cbv beta in H. eapply (loop_saves fmt _ _ (P2 w wsp)) in H.
    + destruct H as (l & S & C & D). exists l. split; [exact S|]. split.
      * intros x r n Hx Hr Hn. destruct (C x Hx) as (ssp & l' & Ex & (K & _) & Hi). destruct (K r n Hr Hn) as (rsp & y & E2 & E3 & Hin). exists ssp, rsp, y. split; [exact Ex|]. split; [exact E2|]. split; [exact E3|apply Hi, Hin].
      * intros e He. destruct (D e He) as (x & ssp & l' & Hx & Ex & (_ & K) & Hin). destruct (K e Hin) as (r & n & rsp & Hr & Hn & Ef & E2 & E3). exists x, r, n, ssp, rsp. repeat (split; [assumption|]). exact E3.
    + clear H. intros x ssp a' b' Hx Ex H. cbv beta in H. eapply (loop_saves fmt _ _ (P3 w x ssp)) in H.
      * destruct H as (l & S & C & D). exists l. split; [exact S|]. split.
        -- intros r n Hr Hn. destruct (C r Hr) as (rsp & l' & Er & (K & _) & Hi). destruct (K n Hn) as (y & E3 & Hin). exists rsp, y. split; [exact Er|]. split; [exact E3|apply Hi, Hin].
        -- intros e He. destruct (D e He) as (r & rsp & l' & Hr & Er & (_ & K) & Hin). destruct (K e Hin) as (n & Hn & Ef & E3). exists r, n, rsp. repeat (split; [assumption|]). exact E3.
      * clear H. intros r rsp a2 b2 Hr Er H. cbv beta in H. eapply (loop_saves fmt _ _ (P4 w x r rsp)) in H.
        -- destruct H as (l & S & C & D). exists l. split; [exact S|]. split.
           ++ intros n Hn. destruct (C n Hn) as (y & l' & En & K & Hi). exists y. split; [exact En|]. apply Hi. unfold P4 in K. rewrite K. left. reflexivity.
           ++ intros e He. destruct (D e He) as (n & y & l' & Hn & En & K & Hin). unfold P4 in K. subst l'. destruct Hin as [<-|[]]. exists n. split; [exact Hn|]. split; [reflexivity|exact En].
        -- clear H. intros n y a3 b3 Hn En H. cbv beta in H. eexists. split; [|reflexivity]. unfold saves. cbn [foldM bind fst snd]. unfold print_space in H. unfold out_of. rewrite H. reflexivity.
Qed.

(** ** what is on disk after a list of saves *)
Lemma sapp_inj2 (a b x y : string) : String.length x = String.length y -> (a ++ x)%string = (b ++ y)%string -> a = b /\ x = y.
Proof.
  intros Hl. revert b. induction a as [|c a IH]; intros [|d b] K; cbn [append] in K.
  - auto.
  - exfalso. apply (f_equal String.length) in K. cbn in K. rewrite slength_app in K. lia.
  - exfalso. apply (f_equal String.length) in K. cbn in K. rewrite slength_app in K. lia.
  - injection K as -> K. destruct (IH b K) as (-> & ->). auto.
Qed.
Lemma last_char (a b x y : string) c : x <> "" -> y <> "" -> (a ++ x)%string = (b ++ y)%string -> last (chars x) c = last (chars y) c.
Proof.
  intros Hx Hy K. assert (K2 : chars (a ++ x) = chars (b ++ y)) by (rewrite K; reflexivity). rewrite !chars_app in K2.
  assert (G : forall l s, s <> "" -> last (l ++ chars s) c = last (chars s) c).
  { clear. intros l s Hs. assert (C : chars s <> []) by (destruct s; [congruence|discriminate]). destruct (exists_last C) as (l' & z & ->). rewrite app_assoc, !last_last. reflexivity. }
  rewrite <- (G (chars a) x Hx), <- (G (chars b) y Hy), K2. reflexivity.
Qed.
(** the files written by one save *)
Lemma other_pkl p p0 : p <> p0 -> ~ saved_target p0 (p ++ ".pkl").
Proof.
  intros Hp [K|[K|[K|[K|K]]]]; [apply sapp_inj2 in K; [tauto|reflexivity]| | | |]; apply (last_char _ _ _ _ "x"%char) in K; try discriminate.
Qed.
Lemma other_export p p0 q : p <> p0 -> export_target p q -> ~ saved_target p0 q.
Proof.
  intros Hp Hq. assert (G : forall x y, q = (p ++ x)%string -> x <> "" -> y <> "" -> (last (chars x) " " <> last (chars y) " ")%char -> q <> (p0 ++ y)%string).
  { intros x y -> Hx Hy Hl K. apply Hl, (last_char _ _ _ _ _ Hx Hy K). }
  assert (G2 : forall x y, q = (p ++ x)%string -> String.length x = String.length y -> q <> (p0 ++ y)%string).
  { intros x y -> Hl K. apply sapp_inj2 in K; [tauto|exact Hl]. }
  intros [K|[K|[K|[K|K]]]]; revert K; destruct Hq as [Hq|[Hq|[Hq|Hq]]];
    first [apply (G2 _ _ Hq); reflexivity|apply (G _ _ Hq); [discriminate|discriminate|discriminate]].
Qed.
Lemma saves_kept fmt l a b : saves fmt l a b -> forall q, (forall e, In e l -> ~ saved_target (fst e) q) -> fs_file b q = fs_file a q.
Proof.
  revert a. induction l as [|[p s] l IH]; intros a H q Hq; unfold saves in H; cbn [foldM fst snd] in H; [congruence|]. apply bind_ok in H. destruct H as (a1 & H1 & H).
  rewrite (IH a1 H q) by (intros e He; apply Hq; right; exact He). apply (proj2 (save_export_ok _ _ _ _ _ H1)). exact (Hq (p, s) (or_introl eq_refl)).
Qed.
Lemma saves_there fmt l a b : (forall p s s', In (p, s) l -> In (p, s') l -> s = s') -> saves fmt l a b -> forall p s, In (p, s) l -> space_at b (p ++ ".pkl") s.
Proof.
  revert b. induction l as [|[p0 s0] l IH] using rev_ind; intros b Hf H p s Hin; [destruct Hin|]. unfold saves in H. rewrite foldM_app in H. apply bind_ok in H. destruct H as (b1 & H1 & H). cbn [foldM fst snd] in H.
  apply bind_ok in H. destruct H as (b2 & H2 & H). injection H as <-. destruct (save_export_ok _ _ _ _ _ H2) as (K1 & K2). apply in_app_iff in Hin.
  destruct (string_dec p p0) as [-> |Hp].
  - assert (s = s0) as ->. { apply (Hf p0); apply in_app_iff; [destruct Hin as [Hin|[Hin|[]]]; [auto|right; left; exact Hin]|right; left; reflexivity]. } exact K1.
  - destruct Hin as [Hin|[Hin|[]]]; [|congruence]. unfold space_at, object_at. rewrite K2 by (apply other_pkl, Hp). apply (IH b1 (fun p s s' H1 H2 => Hf p s s' (proj2 (in_app_iff _ _ _) (or_introl H1)) (proj2 (in_app_iff _ _ _) (or_introl H2))) H1 p s Hin).
Qed.

(** the text files of an export *)
Lemma export_exported fs s p f fs' : export fs s p (Some f) = Ok fs' -> exported fs' p f s.
Proof.
  intros H. destruct (export_parent _ _ _ _ _ H) as (fs1 & Hp).
  assert (T : exists t, (f = "dm" /\ dense_text (s_mat s) (s_id2row s) = Ok t) \/ (f = "sm" /\ sparse_text (s_mat s) (s_id2row s) (s_id2col s) = Ok t)).
  { unfold export in H. rewrite Hp in H. cbn [bind] in H. apply bind_ok in H. destruct H as (fs2 & H2 & _). destruct (String.eqb_spec f "dm") as [-> |_]; [apply bind_ok in H2; destruct H2 as (t & Ht & _); eauto|].
    destruct (String.eqb_spec f "sm") as [-> |_]; [|discriminate]. apply bind_ok in H2. destruct H2 as (t & Ht & _). eauto. }
  destruct T as (t & Ht). destruct (export_files fs s p f t fs1 fs' Hp Ht H) as (K1 & K2 & K3 & _). split; [eauto|]. auto.
Qed.
Lemma save_export_exported fs s p f fs' : save_export fs s p (Some f) = Ok fs' -> exported fs' p f s.
Proof. unfold save_export. intros H. apply bind_ok in H. destruct H as (fs1 & _ & H). exact (export_exported _ _ _ _ _ H). Qed.
Lemma exported_keep p p0 f s a b : p <> p0 -> only_changes (saved_target p0) a b -> exported a p f s -> exported b p f s.
Proof.
  intros Hp Ho ((t & Ht & T1) & T2 & T3). unfold text_at in *.
  assert (G : forall q, export_target p q -> fs_file b q = fs_file a q) by (intros q Hq; apply Ho, (other_export _ _ _ Hp Hq)).
  split; [exists t; split; [exact Ht|unfold text_at; rewrite G; [exact T1|]; destruct Ht as [(-> & _)|(-> & _)]; [left|right; left]; reflexivity]|]. unfold text_at. split.
  - rewrite G; [exact T2|]. right. right. left. reflexivity.
  - intros K. rewrite G; [exact (T3 K)|]. right. right. right. reflexivity.
Qed.
Lemma saves_exported f l a b : (forall p s s', In (p, s) l -> In (p, s') l -> s = s') -> saves (Some f) l a b -> forall p s, In (p, s) l -> exported b p f s.
Proof.
  revert b. induction l as [|[p0 s0] l IH] using rev_ind; intros b Hf H p s Hin; [destruct Hin|]. unfold saves in H. rewrite foldM_app in H. apply bind_ok in H. destruct H as (b1 & H1 & H). cbn [foldM fst snd] in H.
  apply bind_ok in H. destruct H as (b2 & H2 & H). injection H as <-. destruct (save_export_ok _ _ _ _ _ H2) as (K1 & K2). apply in_app_iff in Hin.
  destruct (string_dec p p0) as [-> |Hp].
  - assert (s = s0) as ->. { apply (Hf p0); apply in_app_iff; [destruct Hin as [Hin|[Hin|[]]]; [auto|right; left; exact Hin]|right; left; reflexivity]. } exact (save_export_exported _ _ _ _ _ H2).
  - destruct Hin as [Hin|[Hin|[]]]; [|congruence]. apply (exported_keep _ _ _ _ _ _ Hp K2). apply (IH b1 (fun p s s' H1 H2 => Hf p s s' (proj2 (in_app_iff _ _ _) (or_introl H1)) (proj2 (in_app_iff _ _ _) (or_introl H2))) H1 p s Hin).
Qed.

(** ** file names *)
Lemma descr_eq d w x r n : d <> "" -> d <> "none" -> space_descr [Some d; w; x; r; n] = (d ++ shown w ++ shown x ++ shown r ++ shown n)%string.
Proof.
  intros H1 H2. unfold space_descr. cbn [flat_map]. rewrite (proj2 (String.eqb_neq d "") H1), (proj2 (String.eqb_neq d "none") H2). cbn [orb app].
  assert (G : forall o : option string, match o with Some n => if String.eqb n "" || String.eqb n "none" then [] else [n] | None => [] end = match shown o with "" => [] | String _ k => [k] end).
  { intros [k|]; [|reflexivity]. cbn [shown]. rewrite orb_comm. destruct (String.eqb k "none" || String.eqb k "")%bool; reflexivity. }
  rewrite !G.
  assert (D : forall o, shown o = "" \/ exists k, shown o = String "." k).
  { intros [k|]; [|left; reflexivity]. cbn [shown]. destruct (_ || _)%bool; [left; reflexivity|right; exists k; reflexivity]. }
  destruct (D w) as [-> |(kw & ->)], (D x) as [-> |(kx & ->)], (D r) as [-> |(kr & ->)], (D n) as [-> |(kn & ->)]; cbn [app join String.concat append]; rewrite ?sapp_nil_r; reflexivity.
Qed.
Lemma out_core out_dir in_name c : out_of out_dir ("CORE_SS." ++ in_name) c = core_file out_dir in_name c.
Proof. destruct c as [[[w x] r] n]. cbn [out_of core_file]. rewrite descr_eq by discriminate. rewrite !sapp_assoc. reflexivity. Qed.
(** a defined name and the part of the file name it gives; classes of names *)
Definition class (k : string) : nat :=
  if String.prefix "top_" k then 1 else if String.prefix "svd_" k || String.prefix "nmf_" k then 2 else if String.eqb k "all" || String.eqb k "row" then 3 else 0.
Definition part (i : nat) (o : option string) (t : option transformation) : Prop :=
  (shown o = "" /\ t = None) \/ exists k, o = Some k /\ shown o = String "." k /\ ~ In dot (chars k) /\ class k = i /\ t <> None.
Ltac pos HI := match goal with Hk : positive ?d ?k |- _ => apply (HI d _ (proj2 Hk)) end.
Lemma nodot_app a b : ~ In dot (chars a) -> ~ In dot (chars b) -> ~ In dot (chars (a ++ b)).
Proof. rewrite chars_app, in_app_iff. tauto. Qed.
Lemma weighting_part o t : weighting_op o t -> part 0 o t.
Proof. intros H. destruct H as [o [-> |[-> | ->]]| | | |]; try (left; split; reflexivity); right; eexists; (split; [reflexivity|]); (split; [reflexivity|]); (split; [no_char|]); (split; [reflexivity|discriminate]). Qed.
Lemma selection_part o t : int_syntax -> selection_op o t -> part 1 o t.
Proof.
  intros HI H. destruct H as [o [-> |[-> | ->]]|d k Hk|d k Hk]; try (left; split; reflexivity); right; eexists; (split; [reflexivity|]); (split; [reflexivity|]);
  (split; [apply nodot_app; [no_char|pos HI]|]); (split; [reflexivity|discriminate]).
Qed.
Lemma reduction_part o t : int_syntax -> reduction_op o t -> part 2 o t.
Proof.
  intros HI H. destruct H as [o [-> |[-> | ->]]|d k Hk|d k Hk]; try (left; split; reflexivity); right; eexists; (split; [reflexivity|]); (split; [reflexivity|]);
  (split; [apply nodot_app; [no_char|pos HI]|]); (split; [|discriminate]); destruct d; reflexivity.
Qed.
Lemma normalization_part o t : normalization_op o t -> part 3 o t.
Proof. intros H. destruct H as [o [-> |[-> | ->]]| |]; try (left; split; reflexivity); right; eexists; (split; [reflexivity|]); (split; [reflexivity|]); (split; [no_char|]); (split; [reflexivity|discriminate]). Qed.

Definition names1 (o : option string) : list string := match shown o with "" => [] | String _ k => [k] end.
Lemma split_parts l : Forall (fun o => exists i t, part i o t) l ->
  split_on dot (String.concat "" (map shown l)) = "" :: flat_map names1 l.
Proof.
  intros H. assert (G : forall pre, ~ In dot (chars pre) -> split_on dot (pre ++ String.concat "" (map shown l)) = pre :: flat_map names1 l); [|exact (G "" ltac:(intros []))].
  induction H as [|o l (i & t & Ho) Hl IH]; intros pre Hpre.
  - cbn. rewrite sapp_nil_r. apply split_on_none, Hpre.
  - cbn [map flat_map]. rewrite concat_cons. unfold names1 at 1. destruct Ho as [(-> & _)|(k & _ & -> & Hd & _)].
    + cbn [append app]. apply IH, Hpre.
    + cbn [append app]. change (String "." (k ++ String.concat "" (map shown l))) with (String dot (k ++ String.concat "" (map shown l))). rewrite split_on_app, (split_on_none _ _ Hpre), (IH k Hd). reflexivity.
Qed.
Lemma filter_class i j o t : part j o t -> filter (fun k => Nat.eqb (class k) i) (names1 o) = if Nat.eqb j i then names1 o else [].
Proof.
  unfold names1. intros [(-> & _)|(k & _ & -> & _ & Hc & _)]; [destruct (Nat.eqb j i); reflexivity|]. cbn [filter]. rewrite Hc. reflexivity.
Qed.
Lemma parts_inj w x r n w' x' r' n' t1 t2 t3 t4 u1 u2 u3 u4 :
  part 0 w t1 -> part 1 x t2 -> part 2 r t3 -> part 3 n t4 -> part 0 w' u1 -> part 1 x' u2 -> part 2 r' u3 -> part 3 n' u4 ->
  (shown w ++ shown x ++ shown r ++ shown n)%string = (shown w' ++ shown x' ++ shown r' ++ shown n')%string ->
  names1 w = names1 w' /\ names1 x = names1 x' /\ names1 r = names1 r' /\ names1 n = names1 n'.
Proof.
  intros A1 A2 A3 A4 B1 B2 B3 B4 H.
  assert (K : flat_map names1 [w; x; r; n] = flat_map names1 [w'; x'; r'; n']).
  { assert (C1 := split_parts [w; x; r; n]). assert (C2 := split_parts [w'; x'; r'; n']).
    assert (Q : forall a b c d, String.concat "" [a; b; c; d] = (a ++ b ++ c ++ d)%string) by (intros; rewrite !concat_cons; cbn [String.concat]; rewrite ?sapp_nil_r; reflexivity).
    cbn [map] in C1, C2. rewrite Q in C1, C2. rewrite H in C1. rewrite C2 in C1 by (repeat (constructor; [eauto|]); constructor).
    specialize (C1 ltac:(repeat (constructor; [eauto|]); constructor)). injection C1 as C1. symmetry. exact C1. }
  assert (G : forall i, filter (fun k => Nat.eqb (class k) i) (flat_map names1 [w; x; r; n]) = filter (fun k => Nat.eqb (class k) i) (flat_map names1 [w'; x'; r'; n'])) by (intros i; rewrite K; reflexivity).
  cbn [flat_map] in G. 
  pose proof (G 0) as G0. pose proof (G 1) as G1. pose proof (G 2) as G2. pose proof (G 3) as G3. clear G.
  rewrite !app_nil_r, !filter_app in G0, G1, G2, G3.
  rewrite (filter_class _ _ _ _ A1), (filter_class _ _ _ _ A2), (filter_class _ _ _ _ A3), (filter_class _ _ _ _ A4), (filter_class _ _ _ _ B1), (filter_class _ _ _ _ B2), (filter_class _ _ _ _ B3), (filter_class _ _ _ _ B4) in G0.
  rewrite (filter_class _ _ _ _ A1), (filter_class _ _ _ _ A2), (filter_class _ _ _ _ A3), (filter_class _ _ _ _ A4), (filter_class _ _ _ _ B1), (filter_class _ _ _ _ B2), (filter_class _ _ _ _ B3), (filter_class _ _ _ _ B4) in G1.
  rewrite (filter_class _ _ _ _ A1), (filter_class _ _ _ _ A2), (filter_class _ _ _ _ A3), (filter_class _ _ _ _ A4), (filter_class _ _ _ _ B1), (filter_class _ _ _ _ B2), (filter_class _ _ _ _ B3), (filter_class _ _ _ _ B4) in G2.
  rewrite (filter_class _ _ _ _ A1), (filter_class _ _ _ _ A2), (filter_class _ _ _ _ A3), (filter_class _ _ _ _ A4), (filter_class _ _ _ _ B1), (filter_class _ _ _ _ B2), (filter_class _ _ _ _ B3), (filter_class _ _ _ _ B4) in G3.
  cbn in G0, G1, G2, G3. rewrite ?app_nil_r in *. auto.
Qed.
(** equal names: the same option, or no operation in both *)
Lemma same_names i o o' t t' : part i o t -> part i o' t' -> names1 o = names1 o' -> o = o' \/ (t = None /\ t' = None).
Proof.
  unfold names1. intros [(-> & ->)|(k & -> & -> & _)] [(-> & ->)|(k' & -> & -> & _)] H; auto; try discriminate. injection H as ->. auto.
Qed.
End Core.
