(** PStr.v -- lemmas about the string functions of Str.v. *)
From Coq Require Import Ascii.
From Verif Require Import Base PyList Str.
Local Open Scope string_scope.
Local Open Scope list_scope.
Local Open Scope nat_scope.

#[global] Arguments is_space : simpl never.
#[global] Arguments newline : simpl never.
#[global] Arguments Ascii.eqb : simpl never.
Fixpoint chars (s : string) : list ascii := match s with "" => [] | String c r => c :: chars r end.
(** a non-empty string without white space *)
Definition word (s : string) : Prop := s <> "" /\ Forall (fun c => is_space c = false) (chars s).
Definition no_newline (s : string) : Prop := ~ In newline (chars s).

Lemma chars_app a b : chars (a ++ b)%string = chars a ++ chars b.
Proof. induction a as [|c a IH]; cbn; [reflexivity|]. rewrite IH. reflexivity. Qed.
Lemma sapp_nil_r (s : string) : (s ++ "")%string = s.
Proof. induction s as [|c s IH]; cbn; [reflexivity|]. rewrite IH. reflexivity. Qed.
Lemma sapp_assoc (a b c : string) : ((a ++ b) ++ c)%string = (a ++ (b ++ c))%string.
Proof. induction a as [|x a IH]; cbn; [reflexivity|]. rewrite IH. reflexivity. Qed.
Lemma slength_app (a b : string) : String.length (a ++ b) = String.length a + String.length b.
Proof. induction a as [|x a IH]; cbn; [reflexivity|]. rewrite IH. reflexivity. Qed.

Lemma newline_space : is_space newline = true. Proof. reflexivity. Qed.
Lemma tab_space : is_space tab_ = true. Proof. reflexivity. Qed.

Lemma word_no_newline s : word s -> no_newline s.
Proof. intros [_ H] K. rewrite Forall_forall in H. specialize (H _ K). rewrite newline_space in H. discriminate. Qed.
Lemma no_newline_app a b : no_newline a -> no_newline b -> no_newline (a ++ b)%string.
Proof. unfold no_newline. rewrite chars_app, in_app_iff. tauto. Qed.

(** ** lines *)
Lemma flines_nil s : flines s = [] <-> s = "".
Proof.
  split; [|intros ->; reflexivity]. destruct s as [|c r]; [reflexivity|]. cbn [flines]. destruct (Ascii.eqb c newline); [discriminate|].
  destruct (flines r); discriminate.
Qed.
Lemma flines_line a b : no_newline a -> flines (a ++ String newline b)%string = (a ++ nl)%string :: flines b.
Proof.
  induction a as [|c a IH]; intros H; cbn [append flines].
  - rewrite Ascii.eqb_refl. reflexivity.
  - destruct (Ascii.eqb_spec c newline) as [->|Hc]; [exfalso; apply H; left; reflexivity|].
    rewrite IH by (intros K; apply H; right; exact K). reflexivity.
Qed.
Fixpoint write_lines (ls : list string) : string := match ls with [] => "" | l :: r => (l ++ nl ++ write_lines r)%string end.
Lemma flines_write ls : Forall no_newline ls -> flines (write_lines ls) = map (fun l => (l ++ nl)%string) ls.
Proof.
  induction 1 as [|l ls Hl Hf IH]; cbn [write_lines map]; [reflexivity|]. unfold nl at 1, str1. cbn [append]. rewrite flines_line by assumption. rewrite IH. reflexivity.
Qed.

(** ** split and strip *)
Lemma split_space c r : is_space c = true -> split (String c r) = split r.
Proof. intros H. cbn. rewrite H. reflexivity. Qed.
Lemma split_word_app w r : word w -> (r = "" \/ exists c r', r = String c r' /\ is_space c = true) -> split (w ++ r)%string = w :: split r.
Proof.
  intros [Hne Hw] Hr. induction w as [|c w IH]; [congruence|]. inversion Hw as [|? ? Hc Hw']; subst.
  cbn [append split]. rewrite Hc. destruct w as [|d w].
  - cbn [append]. destruct Hr as [->|(e & r' & -> & He)]; [reflexivity|]. rewrite He. reflexivity.
  - inversion Hw' as [|? ? Hd _]; subst. cbn [append]. rewrite Hd.
    change (String d (w ++ r)) with (String d w ++ r)%string. rewrite IH; [reflexivity|discriminate|assumption].
Qed.
Lemma split_word w : word w -> split w = [w].
Proof. intros H. rewrite <- (sapp_nil_r w) at 1. rewrite split_word_app by auto. reflexivity. Qed.
Lemma split_words s : Forall word (split s).
Proof.
  induction s as [|c r IH]; cbn; [constructor|]. destruct (is_space c) eqn:Hc; [exact IH|].
  assert (H1 : word (str1 c)) by (split; [discriminate|repeat constructor; exact Hc]).
  destruct r as [|d r'].
  - constructor; [exact H1|constructor].
  - destruct (is_space d) eqn:Hd; [constructor; assumption|]. destruct (split (String d r')) as [|w ws]; [constructor; [assumption|constructor]|].
    inversion IH as [|? ? [W1 W2] Hs]; subst. constructor; [|assumption]. split; [discriminate|]. constructor; assumption.
Qed.
Lemma split_lstrip s : split (lstrip s) = split s.
Proof. induction s as [|c r IH]; [reflexivity|]. cbn [lstrip]. destruct (is_space c) eqn:H; [rewrite IH; cbn; rewrite H; reflexivity|reflexivity]. Qed.
Lemma rstrip_empty s : rstrip s = "" <-> split s = [].
Proof.
  induction s as [|c r IH]; [cbn; tauto|]. cbn [rstrip split]. destruct (is_space c) eqn:Hc; cbn [andb].
  - destruct (String.eqb_spec (rstrip r) ""); [rewrite <- IH; tauto|]. rewrite <- IH. split; [discriminate|tauto].
  - split; [discriminate|]. destruct r as [|d r']; [discriminate|]. destruct (is_space d); [discriminate|]. destruct (split (String d r')); discriminate.
Qed.
Lemma split_rstrip s : split (rstrip s) = split s.
Proof.
  induction s as [|c r IH]; [reflexivity|]. cbn [rstrip]. destruct (is_space c) eqn:Hc; cbn [andb].
  - destruct (String.eqb_spec (rstrip r) "") as [He|Hne].
    + rewrite split_space by assumption. symmetry. apply rstrip_empty, He.
    + rewrite !split_space by assumption. exact IH.
  - cbn [split]. rewrite Hc. destruct r as [|d r']; [reflexivity|].
    destruct (rstrip (String d r')) as [|e q] eqn:Er.
    + pose proof Er as Er'. apply rstrip_empty in Er'. destruct (is_space d) eqn:Hd; [rewrite Er'; reflexivity|].
      cbn in Er'. rewrite Hd in Er'. destruct r' as [|d' r'']; [discriminate|]. destruct (is_space d'); [discriminate|]. destruct (split (String d' r'')); discriminate.
    + assert (e = d) as ->. { cbn in Er. destruct (is_space d && String.eqb (rstrip r') "")%bool; [discriminate|]. injection Er as <- _. reflexivity. }
      rewrite IH. reflexivity.
Qed.
Lemma split_strip s : split (strip s) = split s.
Proof. unfold strip. rewrite split_rstrip. apply split_lstrip. Qed.
Lemma strip_empty s : strip s = "" <-> split s = [].
Proof. unfold strip. rewrite rstrip_empty, split_lstrip. reflexivity. Qed.
Lemma strip_emptyb s : String.eqb (strip s) "" = match split s with [] => true | _ => false end.
Proof.
  destruct (String.eqb_spec (strip s) "") as [H|H].
  - apply strip_empty in H. rewrite H. reflexivity.
  - destruct (split s) eqn:E; [|reflexivity]. exfalso. apply H, strip_empty, E.
Qed.

(** words joined by tabs, with a final newline, are read back *)
Lemma split_join_tab ws r : Forall word ws -> (r = "" \/ exists c r', r = String c r' /\ is_space c = true) ->
  split (join tabs ws ++ r)%string = ws ++ split r.
Proof.
  intros H Hr. induction H as [|w ws Hw Hf IH]; [reflexivity|]. destruct ws as [|v ws].
  - cbn [join String.concat]. apply split_word_app; assumption.
  - unfold join in *. change (String.concat tabs (w :: v :: ws)) with (w ++ tabs ++ String.concat tabs (v :: ws))%string.
    rewrite !sapp_assoc. rewrite split_word_app; [|assumption|right; exists tab_, (String.concat tabs (v :: ws) ++ r)%string; split; [reflexivity|reflexivity]].
    cbn [app]. f_equal. unfold tabs at 1, str1. cbn [append]. rewrite split_space by reflexivity. exact IH.
Qed.
Lemma split_line ws : Forall word ws -> split (join tabs ws ++ nl)%string = ws.
Proof.
  intros H. rewrite split_join_tab; [cbn; apply app_nil_r|assumption|right; exists newline, ""; auto].
Qed.
Lemma join_no_newline ws : Forall word ws -> no_newline (join tabs ws).
Proof.
  induction 1 as [|w ws Hw Hf IH]; [intros K; destruct K|]. destruct ws as [|v ws]; [apply word_no_newline, Hw|].
  unfold join in *. change (String.concat tabs (w :: v :: ws)) with (w ++ tabs ++ String.concat tabs (v :: ws))%string.
  apply no_newline_app; [apply word_no_newline, Hw|]. apply no_newline_app; [|exact IH]. intros K. cbn in K. destruct K as [K|[]]. discriminate.
Qed.

(** ** paths *)
Lemma path_cut_app p s : ~ In slash (chars s) -> path_cut (p ++ s)%string = (fst (path_cut p), (snd (path_cut p) ++ s)%string).
Proof.
  intros Hs. induction p as [|c p IH]; cbn [append path_cut].
  - induction s as [|c s IHs]; [reflexivity|]. cbn [path_cut]. rewrite IHs by (intros K; apply Hs; right; exact K). cbn.
    destruct (Ascii.eqb_spec c slash) as [->|]; [exfalso; apply Hs; left; reflexivity|reflexivity].
  - rewrite IH. destruct (path_cut p) as [h t]. cbn [fst snd]. destruct (String.eqb h ""); cbn [negb fst snd].
    + destruct (Ascii.eqb c slash); reflexivity.
    + reflexivity.
Qed.
Lemma dirname_app p s : ~ In slash (chars s) -> dirname (p ++ s)%string = dirname p.
Proof. intros H. unfold dirname, path_split. rewrite path_cut_app by assumption. destruct (path_cut p). reflexivity. Qed.
