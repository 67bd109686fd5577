(** PGetopt.v -- getopt accepts the grammar of SpecGetopt.v. *)
From Coq Require Import Ascii.
From Verif Require Import Base PyList Dict Num Dense Sparse Matrix Scaling Linalg Operation Similarity Space Peripheral Learner Composition Utils LexFun Str PStr IO Pipe SpecPipe PPipe SpecGetopt.
Local Open Scope string_scope.
Local Open Scope list_scope.
Local Open Scope nat_scope.

(** what getopt is given: "a:" for a letter with a value, "name=" for a name with a value *)
Fixpoint enc_short (l : list (ascii * bool)) : string :=
  match l with [] => "" | (c, b) :: l => String c (if b then String ":" (enc_short l) else enc_short l) end.
Definition enc (p : string * bool) : string := if snd p then fst p ++ "=" else fst p.
Definition enc_long (l : list (string * bool)) : list string := map enc l.
Definition well (c : cli) : Prop :=
  NoDup (map fst (letters c)) /\ ~ In ":"%char (map fst (letters c)) /\ ~ In "-"%char (map fst (letters c)) /\
  NoDup (map fst (names c)) /\ Forall (fun p => no_equals (fst p)) (names c).

Lemma short_has l c : NoDup (map fst l) -> ~ In ":"%char (map fst l) ->
  match short_has_arg c (enc_short l) with Ok b => In (c, b) l | Err e => e = SystemExit /\ ~ In c (map fst l) end.
Proof.
  intros Hn Hc. induction l as [|[d b] l IH]; [cbn; auto|]. cbn [map fst] in Hn, Hc. inversion Hn as [|? ? Hd Hn']; subst.
  assert (Hdc : d <> ":"%char) by (intros ->; apply Hc; left; reflexivity). assert (Hc' : ~ In ":"%char (map fst l)) by (intros K; apply Hc; right; exact K). specialize (IH Hn' Hc').
  cbn [enc_short short_has_arg]. destruct (Ascii.eqb_spec c d) as [->|Ncd].
  - destruct (Ascii.eqb_spec d colon) as [Q|_]; [contradiction|]. cbn [andb negb]. destruct b; [left; reflexivity|].
    destruct l as [|[d' b'] l]; cbn [enc_short]; [left; reflexivity|]. destruct (Ascii.eqb_spec d' colon) as [Q|_]; [|left; reflexivity].
    exfalso. apply Hc'. left. exact Q.
  - cbn [andb]. assert (G : short_has_arg c (if b then String ":" (enc_short l) else enc_short l) = short_has_arg c (enc_short l)).
    { destruct b; [|reflexivity]. cbn [short_has_arg]. change colon with ":"%char. rewrite Ascii.eqb_refl, andb_false_r. reflexivity. }
    rewrite G. destruct (short_has_arg c (enc_short l)); cbn [map fst]; [right; exact IH|]. destruct IH as (-> & IH). split; [reflexivity|]. intros [K|K]; [congruence|contradiction].
Qed.
Lemma short_is l c b : NoDup (map fst l) -> ~ In ":"%char (map fst l) -> In (c, b) l -> short_has_arg c (enc_short l) = Ok b.
Proof.
  intros Hn Hc Hi. pose proof (short_has l c Hn Hc) as H. destruct (short_has_arg c (enc_short l)) as [b'|e].
  - f_equal. clear Hc. induction l as [|[d x] l IH]; [contradiction|]. cbn [map fst] in Hn. inversion Hn as [|? ? Hd Hn']; subst.
    destruct H as [H|H], Hi as [Hi|Hi]; try congruence; [| |apply IH; assumption]; exfalso; apply Hd.
    + injection H as -> ->. exact (in_map fst _ _ Hi).
    + injection Hi as -> ->. exact (in_map fst _ _ H).
  - exfalso. apply H. exact (in_map fst _ _ Hi).
Qed.

Lemma prefix_enc n name : no_equals n -> String.prefix n (name ++ "=") = String.prefix n name.
Proof.
  revert n. induction name as [|d name IH]; intros n H; destruct n as [|c n]; try reflexivity.
  - cbn. destruct (ascii_dec c "=") as [->|]; [exfalso; apply H; left; reflexivity|reflexivity].
  - cbn [append prefix]. destruct (ascii_dec c d); [apply IH; intros K; apply H; right; exact K|reflexivity].
Qed.
Lemma enc_prefix n p : no_equals n -> String.prefix n (enc p) = String.prefix n (fst p).
Proof. intros H. unfold enc. destruct (snd p); [apply prefix_enc, H|reflexivity]. Qed.
Lemma prefix_self s : String.prefix s s = true.
Proof. induction s as [|c s IH]; [reflexivity|]. cbn. destruct (ascii_dec c c); [exact IH|contradiction]. Qed.
Lemma app_equals n name : no_equals n -> n <> (name ++ "=")%string.
Proof. intros H ->. apply H. clear H. induction name as [|c name IH]; cbn; [left; reflexivity|right; exact IH]. Qed.
Lemma app_equals_inj a b : no_equals a -> no_equals b -> (a ++ "=")%string = (b ++ "=")%string -> a = b.
Proof.
  revert b. induction a as [|x a IH]; intros b Ha Hb H; destruct b as [|y b]; [reflexivity| | |].
  - cbn in H. injection H as Q _. exfalso. apply Hb. left. congruence.
  - cbn in H. injection H as Q _. exfalso. apply Ha. left. congruence.
  - cbn in H. injection H as -> H. f_equal. apply IH; [intros K; apply Ha; right; exact K|intros K; apply Hb; right; exact K|exact H].
Qed.
(** the option a name stands for *)
Lemma long_has c n : well c -> no_equals n ->
  match long_has_args n (enc_long (names c)) with Ok (b, name) => means c n name b | Err e => e = SystemExit /\ forall name b, ~ means c n name b end.
Proof.
  intros (_ & _ & _ & Hn & He) Hq. rewrite Forall_forall in He. unfold long_has_args, enc_long.
  assert (In1 : forall s, existsb (String.eqb s) (filter (String.prefix n) (map enc (names c))) = true <-> In s (map enc (names c)) /\ String.prefix n s = true).
  { intros s. rewrite existsb_exists. split.
    - intros (x & Hx & Q). apply String.eqb_eq in Q. subst x. apply filter_In in Hx. exact Hx.
    - intros H. exists s. split; [apply filter_In; exact H|apply String.eqb_refl]. }
  assert (Flag : existsb (String.eqb n) (filter (String.prefix n) (map enc (names c))) = true <-> In (n, false) (names c)).
  { rewrite In1. split.
    - intros (Hi & _). apply in_map_iff in Hi. destruct Hi as ([name b] & Q & Hi). unfold enc in Q. cbn [fst snd] in Q. destruct b; [exfalso; exact (app_equals n name Hq (eq_sym Q))|congruence].
    - intros Hi. split; [apply in_map_iff; exists (n, false); split; [reflexivity|exact Hi]|apply prefix_self]. }
  assert (Val : existsb (String.eqb (n ++ "=")) (filter (String.prefix n) (map enc (names c))) = true <-> In (n, true) (names c)).
  { rewrite In1. split.
    - intros (Hi & _). apply in_map_iff in Hi. destruct Hi as ([name b] & Q & Hi). unfold enc in Q. cbn [fst snd] in Q. pose proof (He _ Hi) as Hx. cbn [fst] in Hx.
      destruct b; [|exfalso; exact (app_equals name n Hx Q)]. rewrite <- (app_equals_inj name n Hx Hq Q). exact Hi.
    - intros Hi. split; [apply in_map_iff; exists (n, true); split; [reflexivity|exact Hi]|]. rewrite prefix_enc by exact Hq. apply prefix_self. }
  destruct (existsb (String.eqb n) _) eqn:E1; [apply proj1 in Flag; specialize (Flag eq_refl); split; [exact Flag|split; [exact Hq|left; reflexivity]]|].
  destruct (existsb (String.eqb (n ++ "=")) _) eqn:E2; [apply proj1 in Val; specialize (Val eq_refl); split; [exact Val|split; [exact Hq|left; reflexivity]]|].
  assert (Hno : ~ In n (map fst (names c))).
  { intros K. apply in_map_iff in K. destruct K as ([x b] & Q & K). cbn [fst] in Q. subst x. destruct b; [apply Val in K|apply Flag in K]; discriminate. }
  assert (FE : filter (String.prefix n) (map enc (names c)) = map enc (filter (fun p => String.prefix n (fst p)) (names c))).
  { clear - Hq. induction (names c) as [|p l IH]; [reflexivity|]. cbn [map filter]. rewrite (enc_prefix n p Hq). destruct (String.prefix n (fst p)); [cbn [map]; f_equal|]; exact IH. }
  rewrite FE. set (poss := filter (fun p => String.prefix n (fst p)) (names c)).
  assert (Hp : forall p, In p poss <-> In p (names c) /\ String.prefix n (fst p) = true) by (intros p; apply filter_In).
  assert (Nd : NoDup (map fst poss)).
  { unfold poss. clear - Hn. induction (names c) as [|p l IH]; [constructor|]. cbn [map filter] in *. inversion Hn as [|? ? H1 H2]; subst. destruct (String.prefix n (fst p)); [|apply IH; exact H2].
    cbn [map]. constructor; [|apply IH; exact H2]. intros K. apply H1. apply in_map_iff in K. destruct K as (q & Q & K). rewrite <- Q. apply in_map. apply filter_In in K. apply K. }
  destruct poss as [|[u b] [|[u2 b2] poss']]; cbn [map].
  - split; [reflexivity|]. intros name b (Hi & _ & [-> |(_ & Hx & _)]); [apply Hno; exact (in_map fst _ _ Hi)|]. exact (proj2 (Hp (name, b)) (conj Hi Hx)).
  - destruct (proj1 (Hp (u, b)) (or_introl eq_refl)) as (Hi & Hx). cbn [fst] in Hx. pose proof (He _ Hi) as Hu. cbn [fst] in Hu.
    assert (M : means c n u b).
    { split; [exact Hi|]. split; [exact Hq|]. right. split; [exact Hno|]. split; [exact Hx|]. intros other Ho Hy. apply in_map_iff in Ho. destruct Ho as ([o b'] & Q & Ho). cbn [fst] in Q. subst o.
      destruct (proj2 (Hp (other, b')) (conj Ho Hy)) as [Q|[]]. congruence. }
    unfold enc. cbn [fst snd]. destruct b.
    + change (u ++ "=")%string with (u ++ String "=" "")%string. rewrite (cut_equals_app u "" Hu). exact M.
    + rewrite (cut_equals_none u Hu). exact M.
  - split; [reflexivity|]. intros name b0 (Hi & _ & [-> |(_ & Hx & Hun)]); [apply Hno; exact (in_map fst _ _ Hi)|].
    destruct (proj1 (Hp (u, b)) (or_introl eq_refl)) as (Hi1 & Hx1). destruct (proj1 (Hp (u2, b2)) (or_intror (or_introl eq_refl))) as (Hi2 & Hx2).
    pose proof (Hun u (in_map fst _ _ Hi1) Hx1) as Q1. pose proof (Hun u2 (in_map fst _ _ Hi2) Hx2) as Q2. cbn [map fst] in Nd. inversion Nd as [|? ? K _]; subst. apply K. left. reflexivity.
Qed.
Lemma means_unique c n name b name' b' : well c -> means c n name b -> means c n name' b' -> name = name' /\ b = b'.
Proof.
  intros (_ & _ & _ & Hn & _) (I1 & _ & H1) (I2 & _ & H2). assert (Q : name = name').
  { destruct H1 as [-> |(N1 & P1 & U1)], H2 as [-> |(N2 & P2 & U2)]; [reflexivity| | |].
    - exfalso. apply N2. exact (in_map fst _ _ I1).
    - exfalso. apply N1. exact (in_map fst _ _ I2).
    - apply U2; [exact (in_map fst _ _ I1)|exact P1]. }
  split; [exact Q|]. subst name'. clear H1 H2. induction (names c) as [|[x y] l IH]; [contradiction|]. cbn [map fst] in Hn. inversion Hn as [|? ? Hd Hn']; subst.
  destruct I1 as [I1|I1], I2 as [I2|I2]; [congruence| | |apply IH; assumption]; exfalso; apply Hd.
  - injection I1 as -> ->. exact (in_map fst _ _ I2).
  - injection I2 as -> ->. exact (in_map fst _ _ I1).
Qed.
Lemma long_is c n name b : well c -> means c n name b -> long_has_args n (enc_long (names c)) = Ok (b, name).
Proof.
  intros W M. pose proof (long_has c n W (proj1 (proj2 M))) as H. destruct (long_has_args n _) as [[b' name']|e].
  - destruct (means_unique c n _ _ _ _ W M H) as (-> & ->). reflexivity.
  - exfalso. exact (proj2 H name b M).
Qed.
Lemma shorts_sound c s : well c -> match do_shorts s (enc_short (letters c)) with Ok (os, w) => cluster c s os w | Err e => e = SystemExit /\ forall os w, ~ cluster c s os w end.
Proof.
  intros (Hn & Hc & _). induction s as [|l s IH]; [constructor|]. cbn [do_shorts]. pose proof (short_has (letters c) l Hn Hc) as H.
  assert (I2 : forall b b', In (l, b) (letters c) -> In (l, b') (letters c) -> b = b').
  { intros b b' A B. pose proof (short_is _ _ _ Hn Hc A) as Q1. pose proof (short_is _ _ _ Hn Hc B) as Q2. congruence. }
  destruct (short_has_arg l (enc_short (letters c))) as [[|]|e]; cbn [bind].
  - destruct (String.eqb_spec s "") as [->|Hs]; [apply k_waits; exact H|apply k_value; assumption].
  - destruct (do_shorts s (enc_short (letters c))) as [[os w]|e]; cbn [bind]; [apply k_flag; assumption|]. destruct IH as (-> & IH). split; [reflexivity|].
    intros os w K. inversion K as [|? ? os' ? A B|? ? A B|? A]; subst; [exact (IH _ _ B)|discriminate (I2 _ _ H A)|discriminate (I2 _ _ H A)].
  - destruct H as (-> & H). split; [reflexivity|]. intros os w K. inversion K as [|? ? os' ? A B|? ? A B|? A]; subst; apply H; exact (in_map fst _ _ A).
Qed.
Lemma shorts_complete c s os w : well c -> cluster c s os w -> do_shorts s (enc_short (letters c)) = Ok (os, w).
Proof.
  intros (Hn & Hc & _) H. induction H as [|l s os w A _ IH|l v A Hv|l A]; [reflexivity| | |]; cbn [do_shorts]; rewrite (short_is _ _ _ Hn Hc A); cbn [bind].
  - rewrite IH. reflexivity.
  - rewrite (proj2 (String.eqb_neq v "") Hv). reflexivity.
  - reflexivity.
Qed.
Lemma no_prefix s : String.prefix "-" s = false -> match s with String d _ => Ascii.eqb d dash = false | "" => True end.
Proof. destruct s as [|d s]; [constructor|]. cbn [prefix]. destruct (ascii_dec "-" d) as [Q|H]; [destruct s; discriminate|]. intros _. destruct (Ascii.eqb_spec d dash) as [->|]; [exfalso; apply H; reflexivity|reflexivity]. Qed.
Lemma prefix_no d s : Ascii.eqb d dash = false -> String.prefix "-" (String d s) = false.
Proof. intros H. cbn [prefix]. destruct (ascii_dec "-" d) as [<-|]; [discriminate|reflexivity]. Qed.
Lemma complete c args given rest : well c -> line c args given rest -> getopt args (enc_short (letters c)) (enc_long (names c)) = Ok (given, rest).
Proof.
  intros W H. induction H as [|a rest Ha|rest|s os args given rest Hs Hp Hk _ IH|s os o v args given rest Hp Hk _ IH|n name args given rest Hn M _ IH|n name v args given rest Hn M _ IH|n name v args given rest M _ IH].
  - reflexivity.
  - destruct Ha as [->|Ha]; [reflexivity|]. destruct a as [|d [|e a]]; [reflexivity|reflexivity|]. cbn [getopt]. rewrite (no_prefix _ Ha). reflexivity.
  - reflexivity.
  - destruct s as [|d s]; [congruence|]. cbn [append getopt]. change (Ascii.eqb "-" dash) with true. cbn [negb]. rewrite (no_prefix _ Hp).
    rewrite (shorts_complete _ _ _ _ W Hk). cbn [bind]. rewrite IH. reflexivity.
  - destruct s as [|d s]; [inversion Hk|]. cbn [append getopt]. change (Ascii.eqb "-" dash) with true. cbn [negb]. rewrite (no_prefix _ Hp).
    rewrite (shorts_complete _ _ _ _ W Hk). cbn [bind]. rewrite IH. reflexivity.
  - cbn [append getopt]. change (Ascii.eqb "-" dash) with true. cbn [negb]. rewrite (proj2 (String.eqb_neq n "") Hn). rewrite (cut_equals_none n (proj1 (proj2 M))), (long_is _ _ _ _ W M). cbn [bind]. rewrite IH. reflexivity.
  - cbn [append getopt]. change (Ascii.eqb "-" dash) with true. cbn [negb]. rewrite (proj2 (String.eqb_neq n "") Hn). rewrite (cut_equals_none n (proj1 (proj2 M))), (long_is _ _ _ _ W M). cbn [bind]. rewrite IH. reflexivity.
  - cbn [append getopt]. change (Ascii.eqb "-" dash) with true. cbn [negb].
    assert (K : (n ++ String "=" v)%string <> "") by (destruct n; discriminate). rewrite (proj2 (String.eqb_neq _ "") K).
    rewrite (cut_equals_app n v (proj1 (proj2 M))), (long_is _ _ _ _ W M). cbn [bind]. rewrite IH. reflexivity.
Qed.
Lemma cut_spec r : match cut_equals r with (n, None) => r = n /\ no_equals n | (n, Some v) => r = (n ++ "=" ++ v)%string /\ no_equals n end.
Proof.
  induction r as [|c r IH]; [split; [reflexivity|intros []]|]. cbn [cut_equals]. destruct (Ascii.eqb_spec c equals) as [->|Hc]; [split; [reflexivity|intros []]|].
  destruct (cut_equals r) as [n [v|]]; destruct IH as (-> & H); (split; [reflexivity|]); intros [K|K]; try contradiction; apply Hc; exact K.
Qed.
Lemma sound c args : well c -> match getopt args (enc_short (letters c)) (enc_long (names c)) with Ok (given, rest) => line c args given rest | Err e => e = SystemExit end.
Proof.
  intros W. assert (G : forall m args, length args <= m -> match getopt args (enc_short (letters c)) (enc_long (names c)) with Ok (given, rest) => line c args given rest | Err e => e = SystemExit end); [|apply (G (length args)); constructor].
  clear args. induction m as [|m IH]; intros args Hl.
  { destruct args; [constructor|cbn in Hl; lia]. }
  destruct args as [|a args]; [constructor|]. cbn [length] in Hl. assert (IH1 := IH args ltac:(lia)).
  destruct a as [|d [|k r]]; [apply l_stop; right; reflexivity| |].
  { cbn [getopt]. apply l_stop. destruct (Ascii.eqb_spec d dash) as [->|Hd]; [left; reflexivity|right; apply prefix_no, Ascii.eqb_neq, Hd]. }
  cbn [getopt]. destruct (Ascii.eqb_spec d dash) as [->|Hd]; [|cbn [negb]; apply l_stop; right; apply prefix_no, Ascii.eqb_neq, Hd]. cbn [negb].
  destruct (Ascii.eqb_spec k dash) as [->|Hk].
  - destruct (String.eqb_spec r "") as [->|Hr]; [apply l_dashes|]. pose proof (cut_spec r) as CS. destruct (cut_equals r) as [n [v|]]; destruct CS as (-> & Hq); pose proof (long_has c n W Hq) as LH;
      destruct (long_has_args n (enc_long (names c))) as [[b name]|e]; cbn [bind]; try exact (proj1 LH).
    + destruct b; [|reflexivity]. destruct (getopt args _ _) as [[os more]|e]; cbn [bind]; [|exact IH1]. exact (l_equals c n name v args os more LH IH1).
    + destruct b.
      * destruct args as [|v args]; [reflexivity|]. assert (IH2 := IH args ltac:(cbn in Hl; lia)). destruct (getopt args _ _) as [[os more]|e]; cbn [bind]; [|exact IH2]. exact (l_value c n name v args os more Hr LH IH2).
      * destruct (getopt args _ _) as [[os more]|e]; cbn [bind]; [|exact IH1]. exact (l_flag c n name args os more Hr LH IH1).
  - pose proof (shorts_sound c (String k r) W) as SS. assert (Hp : String.prefix "-" (String k r) = false) by (apply prefix_no, Ascii.eqb_neq, Hk).
    destruct (do_shorts (String k r) (enc_short (letters c))) as [[os [o|]]|e]; cbn [bind]; [| |exact (proj1 SS)].
    + destruct args as [|v args]; [reflexivity|]. assert (IH2 := IH args ltac:(cbn in Hl; lia)). destruct (getopt args _ _) as [[os' more]|e]; cbn [bind]; [|exact IH2].
      exact (l_letters_value c (String k r) os o v args os' more Hp SS IH2).
    + destruct (getopt args _ _) as [[os' more]|e]; cbn [bind]; [|exact IH1]. exact (l_letters c (String k r) os args os' more ltac:(discriminate) Hp SS IH1).
Qed.
