(** Prop_Text.v -- C58 (and C44-C46, C57, C62-C65, which use the same vocabulary): what the lines, fields and stripped lines
    of a text are, without reference to the string functions of the model.  [SpecText] below is the specification. *)
From Coq Require Import Ascii.
From Verif Require Import Base PyList Dict Num Str PStr IO SpecIO SpecPipe SpecPipe2 SpecPipe3 Prop_IO.
Local Open Scope string_scope.
Local Open Scope list_scope.
Local Open Scope nat_scope.

(** ** Specification *)
(** the white space characters of Python 2.7: tab, newline, vertical tab, form feed, carriage return, blank *)
Definition white (c : ascii) : Prop := In c (map ascii_of_nat [9; 10; 11; 12; 13; 32]).
Definition all_white (s : string) : Prop := forall c, In c (chars s) -> white c.
(** the lines of a text: each is a run of characters without newline that ends with its newline; only the last one may lack it,
    and then it is not empty *)
Inductive lines_of : string -> list string -> Prop :=
| lo_end : lines_of "" []
| lo_last : forall l, l <> "" -> ~ In "010"%char (chars l) -> lines_of l [l]
| lo_line : forall l rest ls, ~ In "010"%char (chars l) -> lines_of rest ls -> lines_of (l ++ String "010" rest) ((l ++ String "010" "")%string :: ls).
(** the fields of a line: its maximal runs of characters that are not white space *)
Inductive fields_of : string -> list string -> Prop :=
| fo_none : forall s, all_white s -> fields_of s []
| fo_field : forall a w rest ws, all_white a -> w <> "" -> (forall c, In c (chars w) -> ~ white c) ->
    (rest = "" \/ exists c r, rest = String c r /\ white c) -> fields_of rest ws -> fields_of (a ++ w ++ rest) (w :: ws).
(** [t] is [s] without the white space around it *)
Definition trimmed (s t : string) : Prop :=
  exists a b, s = (a ++ t ++ b)%string /\ all_white a /\ all_white b /\
    (forall c r, t = String c r -> ~ white c) /\ (forall c r, t = (r ++ String c "")%string -> ~ white c).
(** the parts between separators *)
Inductive parts_of (sep : ascii) : string -> list string -> Prop :=
| po_last : forall s, ~ In sep (chars s) -> parts_of sep s [s]
| po_part : forall s rest ps, ~ In sep (chars s) -> parts_of sep rest ps -> parts_of sep (s ++ String sep rest) (s :: ps).
(** the directory of a path (posixpath.dirname): what precedes the last slash, without slashes at its end, unless it consists
    of slashes only *)
Inductive directory_of : string -> string -> Prop :=
| di_none : forall p, ~ In "/"%char (chars p) -> directory_of p ""
| di_root : forall sl t, sl <> "" -> (forall c, In c (chars sl) -> c = "/"%char) -> ~ In "/"%char (chars t) -> directory_of (sl ++ t) sl
| di_dir : forall d c sl t, c <> "/"%char -> sl <> "" -> (forall c, In c (chars sl) -> c = "/"%char) -> ~ In "/"%char (chars t) ->
    directory_of (d ++ String c "" ++ sl ++ t) (d ++ String c "").

(** ** Proofs *)
Lemma white_iff c : is_space c = true <-> white c.
Proof.
  unfold is_space, white. split.
  - intros H. rewrite <- (ascii_nat_embedding c). apply in_map. apply orb_prop in H. destruct H as [H|H]; [apply andb_prop in H; destruct H as (H1 & H2); apply Nat.leb_le in H1; apply Nat.leb_le in H2|apply Nat.eqb_eq in H]; cbn [In]; lia.
  - intros H. repeat (destruct H as [<-|H]; [reflexivity|]). destruct H.
Qed.
Lemma white_iff' c : is_space c = false <-> ~ white c.
Proof. rewrite <- white_iff. destruct (is_space c); split; congruence. Qed.
Lemma nl_eq : newline = "010"%char. Proof. reflexivity. Qed.

(** the texts of a file are cut into lines as specified *)
Theorem C58_lines text ls : flines text = ls <-> lines_of text ls.
Proof.
  split.
  - intros <-. induction text as [|c r IH]; [constructor|]. cbn [flines]. destruct (Ascii.eqb_spec c newline) as [-> |Hc].
    + apply (lo_line ""); [intros []|exact IH].
    + rewrite nl_eq in Hc. inversion IH as [E1 E2|l Hl Hn E1 E2|l rest ls' Hn Hr E1 E2].
      * apply lo_last; [discriminate|]. intros [K|[]]. congruence.
      * apply lo_last; [discriminate|]. intros [K|K]; [congruence|contradiction].
      * apply (lo_line (String c l)); [intros [K|K]; [congruence|contradiction]|exact Hr].
  - intros H. induction H as [|l Hl Hn|l rest ls Hn Hr IH]; [reflexivity| |].
    + induction l as [|c l IH]; [congruence|]. cbn [flines]. destruct (Ascii.eqb_spec c newline) as [-> |Hc]; [exfalso; apply Hn; left; reflexivity|].
      destruct l as [|d l]; [reflexivity|]. rewrite IH; [reflexivity|discriminate|]. intros K. apply Hn. right. exact K.
    + rewrite <- nl_eq. rewrite flines_line; [rewrite IH; reflexivity|]. exact Hn.
Qed.
Lemma fields_white c r ws : is_space c = true -> fields_of r ws -> fields_of (String c r) ws.
Proof.
  intros Hc H. inversion H as [s Hs E1 E2|a w rest ws' Ha Hw Hn Hr Hf E1 E2]; subst.
  - constructor. intros d [<-|K]; [apply white_iff, Hc|exact (Hs d K)].
  - change (String c (a ++ w ++ rest)) with (String c a ++ w ++ rest)%string. apply fo_field; try assumption. intros d [<-|K]; [apply white_iff, Hc|exact (Ha d K)].
Qed.
Lemma all_white_split s : all_white s -> split s = [].
Proof. induction s as [|c s IH]; [reflexivity|]. intros H. cbn [split]. rewrite (proj2 (white_iff c) (H c (or_introl eq_refl))). apply IH. intros d Hd. apply H. right. exact Hd. Qed.
Lemma white_app_split a s : all_white a -> split (a ++ s)%string = split s.
Proof. induction a as [|c a IH]; [reflexivity|]. intros H. cbn [append split]. rewrite (proj2 (white_iff c) (H c (or_introl eq_refl))). apply IH. intros d Hd. apply H. right. exact Hd. Qed.
Lemma fields_sound s : fields_of s (split s).
Proof.
  induction s as [|c r IH]; [constructor; intros d []|]. cbn [split]. destruct (is_space c) eqn:Ec; [apply fields_white; assumption|]. apply white_iff' in Ec.
  destruct r as [|d r'].
  - apply (fo_field "" (str1 c) "" []); [intros x []|discriminate|intros x [<-|[]]; exact Ec|left; reflexivity|constructor; intros x []].
  - destruct (is_space d) eqn:Ed.
    + apply (fo_field "" (str1 c) (String d r')); [intros x []|discriminate|intros x [<-|[]]; exact Ec| |exact IH]. right. exists d, r'. split; [reflexivity|apply white_iff, Ed].
    + inversion IH as [s' Hs E1 E2|a w rest ws Ha Hw Hn Hr Hf E1 E2].
      * exfalso. apply white_iff' in Ed. apply Ed, Hs. left. reflexivity.
      * destruct a as [|a0 a1].
        -- apply (fo_field "" (String c w) rest ws); [intros x []|discriminate|intros x [<-|K]; [exact Ec|exact (Hn x K)]|exact Hr|exact Hf].
        -- exfalso. cbn in E1. injection E1 as <- _. apply white_iff' in Ed. apply Ed, Ha. left. reflexivity.
Qed.
(** str.split() cuts a line into its fields *)
Theorem C58_fields s ws : split s = ws <-> fields_of s ws.
Proof.
  split; [intros <-; apply fields_sound|].
  intros H. induction H as [s Hs|a w rest ws Ha Hw Hn Hr Hf IH]; [apply all_white_split, Hs|]. rewrite white_app_split by exact Ha. rewrite split_word_app.
  - rewrite IH. reflexivity.
  - split; [exact Hw|]. apply Forall_forall. intros c Hc. apply white_iff', Hn, Hc.
  - destruct Hr as [-> |(c & r & -> & Hc)]; [left; reflexivity|right]. exists c, r. split; [reflexivity|apply white_iff, Hc].
Qed.

Lemma rstrip_spec s : exists b, s = (rstrip s ++ b)%string /\ all_white b /\ forall c r, rstrip s = (r ++ String c "")%string -> ~ white c.
Proof.
  induction s as [|c s (b & E & Hb & Hl)]; [exists ""; split; [reflexivity|split; [intros x []|intros c [|] H; discriminate]]|]. cbn [rstrip].
  destruct (is_space c && String.eqb (rstrip s) "")%bool eqn:K.
  - apply andb_prop in K. destruct K as (K1 & K2). apply String.eqb_eq in K2. exists (String c s). split; [reflexivity|]. split; [|intros d [|] H; discriminate].
    intros x [<-|Hx]; [apply white_iff, K1|]. rewrite E, K2 in Hx. exact (Hb x Hx).
  - exists b. split; [cbn; rewrite <- E; reflexivity|]. split; [exact Hb|]. intros d r H. destruct r as [|e r]; cbn in H; injection H as -> H.
    + rewrite H in K. apply white_iff'. destruct (is_space d); [cbn in K; discriminate|reflexivity].
    + exact (Hl d r H).
Qed.
Lemma lstrip_spec s : exists a, s = (a ++ lstrip s)%string /\ all_white a /\ forall c r, lstrip s = String c r -> ~ white c.
Proof.
  induction s as [|c s (a & E & Ha & Hf)]; [exists ""; split; [reflexivity|split; [intros x []|discriminate]]|]. cbn [lstrip]. destruct (is_space c) eqn:Ec.
  - exists (String c a). split; [cbn; rewrite <- E; reflexivity|]. split; [intros x [<-|Hx]; [apply white_iff, Ec|exact (Ha x Hx)]|exact Hf].
  - exists "". split; [reflexivity|]. split; [intros x []|]. intros d r H. injection H as <- _. apply white_iff', Ec.
Qed.
Lemma strip_sound s : trimmed s (strip s).
Proof.
  unfold strip. destruct (lstrip_spec s) as (a & E1 & Ha & Hf). destruct (rstrip_spec (lstrip s)) as (b & E2 & Hb & Hl). exists a, b. rewrite <- E2. split; [exact E1|]. split; [exact Ha|]. split; [exact Hb|]. split; [|exact Hl].
  intros c r H. rewrite H in E2. apply (Hf c (r ++ b)%string). exact E2.
Qed.
Lemma sapp_nil_inv a b : (a ++ b)%string = "" -> a = "" /\ b = "".
Proof. destruct a; [auto|discriminate]. Qed.
Lemma last_cases (t : string) : t = "" \/ exists r c, t = (r ++ String c "")%string.
Proof. induction t as [|c t [-> |(r & d & ->)]]; [left; reflexivity|right; exists "", c; reflexivity|right; exists (String c r), d; reflexivity]. Qed.
(** what is left of a common string after white space is the same *)
Lemma white_prefix a b t u : (a ++ t)%string = (b ++ u)%string -> all_white a -> all_white b -> (forall c r, t = String c r -> ~ white c) -> (forall c r, u = String c r -> ~ white c) -> a = b /\ t = u.
Proof.
  revert b. induction a as [|x a IH]; intros [|y b] H Ha Hb Ht Hu; cbn in H.
  - auto.
  - exfalso. apply (Ht y (b ++ u)%string H), Hb. left. reflexivity.
  - exfalso. symmetry in H. apply (Hu x (a ++ t)%string H), Ha. left. reflexivity.
  - injection H as -> H. destruct (IH b H) as (-> & ->); auto; intros c Hc; [apply Ha|apply Hb]; right; exact Hc.
Qed.
Lemma srev_inj a b (x y : ascii) : (a ++ String x "")%string = (b ++ String y "")%string -> a = b /\ x = y.
Proof.
  revert b. induction a as [|c a IH]; intros [|d b] H; cbn in H.
  - injection H as ->. auto.
  - injection H as _ H. destruct b; discriminate.
  - injection H as _ H. destruct a; discriminate.
  - injection H as -> H. destruct (IH b H) as (-> & ->). auto.
Qed.
Lemma white_suffix n a b t u : String.length a + String.length b <= n -> (t ++ a)%string = (u ++ b)%string -> all_white a -> all_white b -> (forall c r, t = (r ++ String c "")%string -> ~ white c) -> (forall c r, u = (r ++ String c "")%string -> ~ white c) -> t = u.
Proof.
  revert a b. induction n as [|n IH]; intros a b Hn H Ha Hb Ht Hu.
  { destruct a; [|cbn in Hn; lia]. destruct b; [|cbn in Hn; lia]. rewrite !sapp_nil_r in H. exact H. }
  destruct (last_cases a) as [-> |(a' & x & ->)]; destruct (last_cases b) as [-> |(b' & y & ->)]; rewrite ?sapp_nil_r in H.
  - exact H.
  - exfalso. rewrite <- sapp_assoc in H. apply (Ht y (u ++ b')%string H). apply Hb. rewrite chars_app. apply in_or_app. right. left. reflexivity.
  - exfalso. rewrite <- sapp_assoc in H. symmetry in H. apply (Hu x (t ++ a')%string H). apply Ha. rewrite chars_app. apply in_or_app. right. left. reflexivity.
  - rewrite <- !sapp_assoc in H. apply srev_inj in H. destruct H as (H & ->). rewrite !slength_app in Hn. cbn in Hn. apply (IH a' b'); try assumption; [lia| |]; intros c Hc; [apply Ha|apply Hb]; rewrite chars_app; apply in_or_app; left; exact Hc.
Qed.
Lemma trimmed_unique s t u : trimmed s t -> trimmed s u -> t = u.
Proof.
  intros (a & b & E & Ha & Hb & Ht & Ht') (a2 & b2 & E2 & Ha2 & Hb2 & Hu & Hu').
  assert (Wall : forall z a b, all_white a -> all_white b -> z = (a ++ "" ++ b)%string -> all_white z).
  { intros z x y Hx Hy -> c Hc. rewrite chars_app in Hc. apply in_app_or in Hc. destruct Hc; [apply Hx|apply Hy]; assumption. }
  assert (Wno : forall z c r, all_white z -> (exists x y, z = (x ++ String c r ++ y)%string) -> white c).
  { intros z c r Hz (x & y & ->). apply Hz. rewrite chars_app. apply in_or_app. right. left. reflexivity. }
  destruct t as [|x t]; destruct u as [|y u].
  - reflexivity.
  - exfalso. apply (Hu y u eq_refl). apply (Wno s y u); [exact (Wall s a b Ha Hb E)|eauto].
  - exfalso. apply (Ht x t eq_refl). apply (Wno s x t); [exact (Wall s a2 b2 Ha2 Hb2 E2)|eauto].
  - rewrite E in E2. apply white_prefix in E2; [|assumption|assumption| |].
    + destruct E2 as (_ & E2). exact (white_suffix _ b b2 _ _ (le_n _) E2 Hb Hb2 Ht' Hu').
    + intros c r H. cbn in H. injection H as -> _. apply (Ht c t eq_refl).
    + intros c r H. cbn in H. injection H as -> _. apply (Hu c u eq_refl).
Qed.
(** str.strip() *)
Theorem C58_strip s t : strip s = t <-> trimmed s t.
Proof. split; [intros <-; apply strip_sound|]. intros H. exact (trimmed_unique s _ _ (strip_sound s) H). Qed.
(** the records of a text are the fields of its lines, without the lines that have none *)
Theorem C58_records text rs : records text = rs <-> exists ls fss, lines_of text ls /\ Forall2 fields_of ls fss /\ rs = filter nonblank fss.
Proof.
  unfold records. split.
  - intros <-. exists (flines text), (map split (flines text)). split; [apply C58_lines; reflexivity|]. split; [|reflexivity]. induction (flines text); constructor; [apply fields_sound|assumption].
  - intros (ls & fss & Hl & Hf & ->). apply C58_lines in Hl. rewrite Hl. f_equal. clear Hl. induction Hf as [|l f ls fss H _ IH]; [reflexivity|]. cbn. apply C58_fields in H. congruence.
Qed.
(** the stripped lines of a text are its trimmed lines, without the empty ones *)
Theorem C58_text_lines text ts : text_lines text = ts <-> exists ls us, lines_of text ls /\ Forall2 trimmed ls us /\ ts = filter (fun l => negb (String.eqb l "")) us.
Proof.
  unfold text_lines. split.
  - intros <-. exists (flines text), (map strip (flines text)). split; [apply C58_lines; reflexivity|]. split; [|reflexivity]. induction (flines text); constructor; [apply strip_sound|assumption].
  - intros (ls & us & Hl & Hf & ->). apply C58_lines in Hl. rewrite Hl. f_equal. clear Hl. induction Hf as [|l f ls fss H _ IH]; [reflexivity|]. cbn. apply C58_strip in H. congruence.
Qed.
(** str.split(sep) *)
Lemma split_on_nosep sep s : ~ In sep (chars s) -> split_on sep s = [s].
Proof.
  induction s as [|c s IH]; [reflexivity|]. intros H. cbn [split_on]. destruct (Ascii.eqb_spec c sep) as [-> |Hc]; [exfalso; apply H; left; reflexivity|]. rewrite IH; [reflexivity|]. intros K. apply H. right. exact K.
Qed.
Theorem C55_commas sep s ps : split_on sep s = ps <-> parts_of sep s ps.
Proof.
  split.
  - intros <-. induction s as [|c s IH]; [apply po_last; intros []|]. cbn [split_on]. destruct (Ascii.eqb_spec c sep) as [-> |Hc].
    + apply (po_part sep ""); [intros []|exact IH].
    + inversion IH as [s' Hn E1 E2|s' rest ps Hn Hp E1 E2].
      * apply po_last. intros [K|K]; [congruence|contradiction].
      * apply (po_part sep (String c s')); [|exact Hp]. intros [K|K]; [congruence|contradiction].
  - intros H. induction H as [s Hs|s rest ps Hs Hp IH]; [apply split_on_nosep, Hs|]. induction s as [|c s IHs]; cbn [append split_on].
    + rewrite Ascii.eqb_refl, IH. reflexivity.
    + destruct (Ascii.eqb_spec c sep) as [-> |Hc]; [exfalso; apply Hs; left; reflexivity|]. rewrite IHs; [reflexivity|]. intros K. apply Hs. right. exact K.
Qed.
(** os.path.dirname *)
Lemma path_cut_last h t : ~ In slash (chars t) -> path_cut (h ++ String slash t)%string = ((h ++ String slash "")%string, t).
Proof.
  intros Ht. induction h as [|c h IH].
  - cbn [append path_cut]. assert (K : path_cut t = ("", t)) by (pose proof (path_cut_app "" t Ht) as K; exact K). rewrite K. reflexivity.
  - cbn [append path_cut]. rewrite IH. destruct h; reflexivity.
Qed.
Lemma all_slashes_iff s : all_slashes s = true <-> forall c, In c (chars s) -> c = "/"%char.
Proof.
  induction s as [|c s IH]; cbn; [split; [intros _ d []|reflexivity]|]. rewrite andb_true_iff, IH, Ascii.eqb_eq. unfold slash. split.
  - intros (-> & H) d [<-|K]; auto.
  - intros H. split; [apply H; left; reflexivity|]. intros d K. apply H. right. exact K.
Qed.
Lemma rstrip_slash_all s : all_slashes s = true -> rstrip_slash s = "".
Proof. induction s as [|c s IH]; [reflexivity|]. cbn. intros H. apply andb_prop in H. destruct H as (H1 & H2). rewrite (IH H2), H1. reflexivity. Qed.
Lemma rstrip_slash_app d c sl : c <> "/"%char -> all_slashes sl = true -> rstrip_slash (d ++ String c "" ++ sl)%string = (d ++ String c "")%string.
Proof.
  intros Hc Hs. induction d as [|x d IH].
  - cbn [append rstrip_slash]. rewrite (rstrip_slash_all sl Hs). destruct (Ascii.eqb_spec c slash) as [K|]; [exfalso; apply Hc, K|reflexivity].
  - cbn [append rstrip_slash] in *. rewrite IH. replace (String.eqb (d ++ String c "") "") with false by (destruct d; reflexivity). rewrite andb_false_r. reflexivity.
Qed.
Lemma last_slash p : ~ In slash (chars p) \/ exists h t, p = (h ++ String slash t)%string /\ ~ In slash (chars t).
Proof.
  induction p as [|c p [H|(h & t & -> & H)]]; [left; intros []| |right; exists (String c h), t; auto]. destruct (ascii_dec c slash) as [-> |Hc]; [right; exists "", p; auto|left]. intros [K|K]; [congruence|contradiction].
Qed.
Lemma trailing_slashes h : (forall c, In c (chars h) -> c = "/"%char) \/ exists d c sl, h = (d ++ String c "" ++ sl)%string /\ c <> "/"%char /\ forall c, In c (chars sl) -> c = "/"%char.
Proof.
  induction h as [|x h [H|(d & c & sl & -> & H1 & H2)]]; [left; intros c []| |right; exists (String x d), c, sl; auto]. destruct (ascii_dec x "/"%char) as [-> |Hx].
  - left. intros c [<-|K]; auto.
  - right. exists "", x, h. auto.
Qed.
Lemma slash_end sl : sl <> "" -> (forall c, In c (chars sl) -> c = "/"%char) -> exists r, sl = (r ++ String slash "")%string.
Proof. intros Hn H. destruct (last_cases sl) as [K|(r & c & ->)]; [contradiction|]. exists r. rewrite (H c); [reflexivity|]. rewrite chars_app. apply in_or_app. right. left. reflexivity. Qed.
Theorem C49_directory p d : dirname p = d <-> directory_of p d.
Proof.
  assert (S : forall p d, directory_of p d -> dirname p = d).
  { clear. intros p d H. unfold dirname, path_split. destruct H as [p Hp|sl t Hn Hs Ht|d c sl t Hc Hn Hs Ht].
    - assert (K : path_cut p = ("", p)) by (pose proof (path_cut_app "" p Hp) as K; exact K). rewrite K. reflexivity.
    - destruct (slash_end sl Hn Hs) as (r & ->). rewrite sapp_assoc. cbn [append]. rewrite path_cut_last by exact Ht. rewrite (proj2 (all_slashes_iff _) Hs). reflexivity.
    - destruct (slash_end sl Hn Hs) as (r & ->). replace (d ++ String c "" ++ (r ++ String slash "") ++ t)%string with ((d ++ String c "" ++ r) ++ String slash t)%string by (rewrite !sapp_assoc; reflexivity).
      rewrite path_cut_last by exact Ht. replace ((d ++ String c "" ++ r) ++ String slash "")%string with (d ++ String c "" ++ (r ++ String slash ""))%string by (rewrite !sapp_assoc; reflexivity).
      destruct (all_slashes _) eqn:K; cbn [fst].
      + exfalso. apply Hc. apply (proj1 (all_slashes_iff _) K). rewrite chars_app. apply in_or_app. right. left. reflexivity.
      + apply rstrip_slash_app; [exact Hc|apply all_slashes_iff, Hs]. }
  split; [|apply S]. intros <-.
  destruct (last_slash p) as [H|(h & t & -> & H)]; [rewrite (S _ _ (di_none _ H)); apply di_none, H|].
  assert (K : exists d, directory_of (h ++ String slash t) d).
  { replace (h ++ String slash t)%string with ((h ++ String slash "") ++ t)%string by (rewrite sapp_assoc; reflexivity).
    assert (Nn : (h ++ String slash "")%string <> "") by (destruct h; discriminate).
    destruct (trailing_slashes (h ++ String slash "")) as [A|(d & c & sl & E & A & B)].
    - exists (h ++ String slash "")%string. apply di_root; assumption.
    - rewrite E. exists (d ++ String c "")%string. rewrite !sapp_assoc. apply di_dir; try assumption. intros ->. rewrite sapp_nil_r in E. apply srev_inj in E. destruct E as (_ & E). unfold slash in E. congruence. }
  destruct K as (d & K). rewrite (S _ _ K). exact K.
Qed.
(** a text of three lines, one of them blank, the last without newline *)
Example C58_text_example : let t := (" a b" ++ nl ++ " " ++ nl ++ "c")%string in
  lines_of t [(" a b" ++ nl)%string; (" " ++ nl)%string; "c"] /\ records t = [["a"; "b"]; ["c"]] /\ text_lines t = ["a b"; "c"] /\
  split_on ","%char "x,,y" = ["x"; ""; "y"] /\ dirname "/a//b" = "/a" /\ dirname "//b" = "//" /\ dirname "b" = "".
Proof. cbv zeta. split; [apply C58_lines; reflexivity|]. repeat split; reflexivity. Qed.
