(** Prop_Batch.v -- C61 (build_peripheral_space) and C63 (apply_composition); C57, C61, C65: the batch modes. *)
From Coq Require Import Ascii.
From Verif Require Import Base PyList Dict Num Dense Sparse Matrix Scaling Linalg Operation Similarity Space Peripheral SpecSpace Learner Composition Utils LexFun Str PStr IO SpecIO PIO Prop_IO PExport Prop_Export Pipe SpecPipe SpecPipe2 PFiles PPipe PPipe2 PSave SpecCore PCore Prop_Core SpecPipe3 PPipe3 Prop_Sims.
Local Open Scope string_scope.
Local Open Scope list_scope.
Local Open Scope nat_scope.
(** the directory name with a slash at its end *)
Definition dir_slash (d d' : string) : Prop := (exists e, d = (e ++ "/")%string /\ d' = d) \/ ((forall e, d <> (e ++ "/")%string) /\ d' = (d ++ "/")%string).
Lemma ends_with_iff s suf : ends_with s suf = true <-> exists e, s = (e ++ suf)%string.
Proof.
  induction s as [|c s IH]; cbn [ends_with].
  - rewrite orb_false_r, String.eqb_eq. split; [intros <-; exists ""; reflexivity|]. intros (e & H). destruct e; [exact H|discriminate].
  - rewrite orb_true_iff, String.eqb_eq, IH. split.
    + intros [<-|(e & ->)]; [exists ""; reflexivity|exists (String c e); reflexivity].
    + intros (e & H). destruct e as [|c' e]; [left; exact H|right]. injection H as -> H. exists e. exact H.
Qed.
Lemma with_slash_iff d d' : with_slash d = d' <-> dir_slash d d'.
Proof.
  unfold with_slash, dir_slash. destruct (ends_with d "/") eqn:Ee.
  - pose proof (proj1 (ends_with_iff _ _) Ee) as (e & He). split; [intros <-; left; exists e; auto|]. intros [(_ & _ & ->)|(K & _)]; [reflexivity|]. exfalso. exact (K e He).
  - assert (K : forall e, d <> (e ++ "/")%string) by (intros e He; rewrite (proj2 (ends_with_iff _ _) (ex_intro _ e He)) in Ee; discriminate). split; [intros <-; right; auto|]. intros [(e & He & _)|(_ & ->)]; [|reflexivity]. exfalso. exact (K e He).
Qed.
Lemma contains_iff sub s : contains sub s = true <-> exists a b, s = (a ++ sub ++ b)%string.
Proof.
  induction s as [|c s IH]; cbn [contains].
  - rewrite orb_false_r. split.
    + intros H. destruct sub; [exists "", ""; reflexivity|discriminate].
    + intros (a & b & H). destruct a; [|discriminate]. destruct sub; [reflexivity|discriminate].
  - assert (P : forall u v, String.prefix u v = true <-> exists b, v = (u ++ b)%string).
    { clear. induction u as [|x u IH]; intros v; [split; [intros _; exists v; reflexivity|intros _; destruct v; reflexivity]|]. destruct v as [|y v]; cbn [String.prefix].
      - split; [discriminate|intros (b & H); discriminate].
      - destruct (ascii_dec x y) as [-> |Hne]; [rewrite IH; split; intros (b & H); [exists b; rewrite H; reflexivity|injection H as H; exists b; exact H]|]. split; [discriminate|]. intros (b & H). injection H as H _. congruence. }
    rewrite orb_true_iff, P, IH. split.
    + intros [(b & ->)|(a & b & ->)]; [exists "", b; reflexivity|exists (String c a), b; reflexivity].
    + intros (a & b & H). destruct a as [|c' a]; [left; exists b; exact H|right]. injection H as -> H. exists a, b. exact H.
Qed.
Lemma dir_file d d' f : dir_slash d d' -> ~ In "/"%char (chars f) -> file_name (d' ++ f) f.
Proof.
  intros H Hf. split; [exact Hf|]. right. destruct H as [(e & -> & ->)|(_ & ->)]; [exists e|exists d]; rewrite sapp_assoc; reflexivity.
Qed.
Lemma dir_stem d d' x : dir_slash d d' -> ~ In "/"%char (chars (x ++ ".pkl")) -> stem_of (d' ++ x ++ ".pkl") x.
Proof. intros H Hx. apply (stem_ext _ x "pkl"); [exact (dir_file _ _ _ H Hx)|]. cbn. intros K; repeat (destruct K as [K|K]; [discriminate|]); exact K. Qed.

Section Batch.
Context {N : Num} {E : Ext} {FI : FloatIO} {PI : PipeIO}.
(** ** C61 *)
Definition per_file (out_dir in_name core_name : string) : string := (out_dir ++ "/PER_SS." ++ in_name ++ "." ++ core_name)%string.
(** the peripheral space of the raw data with respect to a core space *)
Definition peripheral_of (core raw s : space) : Prop := mk_peripheral core (s_mat raw) (s_id2row raw) (Some (s_row2id raw)) = Ok s.
Lemma per_file_eq out_dir in_name p x : stem_of p x -> (out_dir ++ "/" ++ "PER_SS." ++ in_name ++ "." ++ stem p)%string = per_file out_dir in_name x.
Proof. intros H. rewrite (stem_eq _ _ H). reflexivity. Qed.
Lemma transform_ok fs raw in_prefix in_name out_dir fmt core_file x fs' : file_name in_prefix in_name -> stem_of core_file x ->
  transform_raw fs raw in_prefix out_dir fmt core_file = Ok fs' ->
  exists core s, space_at fs core_file core /\ peripheral_of core raw s /\ saves fmt [(per_file out_dir in_name x, s)] fs fs'.
Proof.
  intros Hn Hx H. unfold transform_raw in H. apply bind_ok in H. destruct H as (core & Hc & H). apply bind_ok in H. destruct H as (s & Hs & H). exists core, s. split; [apply load_space_at, Hc|]. split; [exact Hs|].
  unfold saves. cbn [foldM fst snd]. rewrite (base_name_file _ _ Hn), (per_file_eq _ _ _ _ Hx) in H. rewrite H. reflexivity.
Qed.
Lemma saves_one fmt p s fs fs' : saves fmt [(p, s)] fs fs' -> space_at fs' (p ++ ".pkl") s /\ (forall f, fmt = Some f -> exported fs' p f s) /\ only_changes (saved_target p) fs fs'.
Proof.
  intros H. unfold saves in H. cbn [foldM fst snd] in H. apply bind_ok in H. destruct H as (fs1 & H & H'). injection H' as <-. destruct (save_export_ok _ _ _ _ _ H) as (K1 & K2). split; [exact K1|]. split; [|exact K2].
  intros f ->. exact (save_export_exported _ _ _ _ _ H).
Qed.
Theorem C61_built fs in_prefix in_name in_format out_dir out_format core_file x gz fs' :
  file_name in_prefix in_name -> stem_of core_file x ->
  build_per_space fs in_prefix in_format out_dir out_format core_file gz = Ok fs' ->
  exists raw core s, input_space fs in_prefix gz in_format raw /\ space_at fs core_file core /\ peripheral_of core raw s /\
    space_at fs' (per_file out_dir in_name x ++ ".pkl") s /\ (forall f, out_format = Some f -> exported fs' (per_file out_dir in_name x) f s) /\
    only_changes (saved_target (per_file out_dir in_name x)) fs fs'.
Proof.
  intros Hn Hx H. unfold build_per_space in H. apply bind_ok in H. destruct H as (raw & Hr & H). destruct (transform_ok _ _ _ _ _ _ _ _ _ Hn Hx H) as (core & s & K1 & K2 & K3).
  exists raw, core, s. split; [apply load_input_space, Hr|]. split; [exact K1|]. split; [exact K2|]. exact (saves_one _ _ _ _ _ K3).
Qed.
Theorem C61_total fs in_prefix in_name in_format root dirs out_format core_file x gz raw core s :
  file_name in_prefix in_name -> stem_of core_file x -> input_space fs in_prefix gz in_format raw -> space_at fs core_file core -> peripheral_of core raw s ->
  writable_as out_format s -> usable_out fs root dirs ("PER_SS." ++ in_name ++ "." ++ x) ->
  exists fs', build_per_space fs in_prefix in_format (path root dirs) out_format core_file gz = Ok fs'.
Proof.
  intros Hn Hx Hi Hc Hp Hw Hu. unfold build_per_space. rewrite (proj2 (load_input_space _ _ _ _ _) Hi). cbn [bind]. unfold transform_raw. rewrite (proj2 (load_space_at _ _ _) Hc). cbn [bind]. unfold peripheral_of in Hp. rewrite Hp. cbn [bind].
  rewrite (base_name_file _ _ Hn), (per_file_eq _ _ _ _ Hx). destruct (save_export_total _ _ _ _ _ _ Hu Hw) as (fs' & K & _). exists fs'. rewrite path_snoc in K by apply Hu. exact K.
Qed.
(** the batch mode: the listed files that end in .pkl and contain the filter *)
Definition chosen (fs : fsys) (dir filter_ f : string) : Prop := In f (listdir fs dir) /\ exists a b x, f = (a ++ filter_ ++ b)%string /\ f = (x ++ ".pkl")%string.
Theorem C61_batch fs in_prefix in_name in_format out_dir out_format core_dir dir filter_ gz fs' :
  file_name in_prefix in_name -> dir_slash core_dir dir -> (forall f, In f (listdir fs dir) -> ~ In "/"%char (chars f)) ->
  (forall x f, chosen fs dir filter_ (x ++ ".pkl") -> chosen fs dir filter_ f -> (per_file out_dir in_name x ++ ".pkl")%string <> (dir ++ f)%string) ->
  build_per_batch fs in_prefix in_format out_dir out_format core_dir filter_ gz = Ok fs' ->
  exists raw, input_space fs in_prefix gz in_format raw /\
    (forall x, chosen fs dir filter_ (x ++ ".pkl") -> exists core s, space_at fs (dir ++ x ++ ".pkl") core /\ peripheral_of core raw s /\
       space_at fs' (per_file out_dir in_name x ++ ".pkl") s /\ (forall f, out_format = Some f -> exported fs' (per_file out_dir in_name x) f s)) /\
    only_changes (fun q => exists x, chosen fs dir filter_ (x ++ ".pkl") /\ saved_target (per_file out_dir in_name x) q) fs fs'.
Proof.
  intros Hn Hd Hns Hcl H. unfold build_per_batch in H. apply bind_ok in H. destruct H as (raw & Hr & H). exists raw. split; [apply load_input_space, Hr|].
  apply bind_ok in H. destruct H as (u & _ & H). rewrite (proj2 (with_slash_iff _ _) Hd) in H.
  (* the saves of a prefix of the listing *)
  assert (G : forall fl, incl fl (listdir fs dir) -> forall fs', foldM (fun fs f => if contains filter_ f && ends_with f ".pkl" then transform_raw fs raw in_prefix out_dir out_format (dir ++ f) else Ok fs) fl fs = Ok fs' ->
    exists l, saves out_format l fs fs' /\ (forall e, In e l -> exists x core, In (x ++ ".pkl")%string fl /\ chosen fs dir filter_ (x ++ ".pkl") /\ fst e = per_file out_dir in_name x /\ space_at fs (dir ++ x ++ ".pkl") core /\ peripheral_of core raw (snd e)) /\
      (forall x, In (x ++ ".pkl")%string fl -> chosen fs dir filter_ (x ++ ".pkl") -> exists s, In (per_file out_dir in_name x, s) l)).
  { clear fs' H. induction fl as [|f fl IH] using rev_ind; intros Hi fs' H.
    - injection H as <-. exists []. split; [reflexivity|]. split; [intros e []|intros x []].
    - rewrite foldM_app in H. apply bind_ok in H. destruct H as (fs1 & H1 & H). cbn [foldM] in H. apply bind_ok in H. destruct H as (fs2 & H2 & H). injection H as <-.
      assert (Hi' : incl fl (listdir fs dir)) by (intros z Hz; apply Hi, in_app_iff; left; exact Hz). assert (Hf : In f (listdir fs dir)) by (apply Hi, in_app_iff; right; left; reflexivity).
      destruct (IH Hi' fs1 H1) as (l & S & D & C). destruct (contains filter_ f && ends_with f ".pkl")%bool eqn:Ec.
      + apply andb_true_iff in Ec. destruct Ec as (Ec1 & Ec2). apply contains_iff in Ec1. destruct Ec1 as (a & b & Ef). apply ends_with_iff in Ec2. destruct Ec2 as (x & ->).
        assert (Hch : chosen fs dir filter_ (x ++ ".pkl")) by (split; [exact Hf|exists a, b, x; auto]).
        destruct (transform_ok _ _ _ _ _ _ _ x _ Hn (dir_stem _ _ _ Hd (Hns _ Hf)) H2) as (core & s & K1 & K2 & K3).
        assert (K1' : space_at fs (dir ++ x ++ ".pkl") core).
        { unfold space_at, object_at in *. rewrite <- K1. symmetry. apply (saves_kept _ _ _ _ S). intros e He [K|K].
          - destruct (D e He) as (x' & _ & _ & Hch' & Ee & _). rewrite Ee in K. symmetry in K. exact (Hcl x' _ Hch' Hch K).
          - revert K. unfold export_target. rewrite <- sapp_assoc. intros K. destruct K as [K|[K|[K|K]]]; apply (last_char _ _ _ _ " "%char) in K; discriminate. }
        exists (l ++ [(per_file out_dir in_name x, s)]). split; [eapply saves_app; eassumption|]. split.
        * intros e He. apply in_app_iff in He. destruct He as [He|[<-|[]]].
          -- destruct (D e He) as (x' & core' & I' & R'). exists x', core'. split; [apply in_app_iff; left; exact I'|exact R'].
          -- exists x, core. split; [apply in_app_iff; right; left; reflexivity|]. auto.
        * intros x' Hin Hch'. apply in_app_iff in Hin. destruct Hin as [Hin|[Hin|[]]].
          -- destruct (C x' Hin Hch') as (s' & Hs'). exists s'. apply in_app_iff. left. exact Hs'.
          -- apply sapp_inj2 in Hin; [|reflexivity]. destruct Hin as (-> & _). exists s. apply in_app_iff. right. left. reflexivity.
      + injection H2 as <-. exists l. split; [exact S|]. split.
        * intros e He. destruct (D e He) as (x' & core' & I' & R'). exists x', core'. split; [apply in_app_iff; left; exact I'|exact R'].
        * intros x' Hin Hch'. apply in_app_iff in Hin. destruct Hin as [Hin|[Hin|[]]]; [exact (C x' Hin Hch')|]. exfalso. subst f. destruct Hch' as (_ & a & b & y & E1 & E2).
          rewrite (proj2 (contains_iff _ _) (ex_intro _ a (ex_intro _ b E1))), (proj2 (ends_with_iff _ _) (ex_intro _ y E2)) in Ec. discriminate. }
  destruct (G (listdir fs dir) (incl_refl _) fs' H) as (l & S & D & C). clear G H.
  assert (Hfun : forall p s s', In (p, s) l -> In (p, s') l -> s = s').
  { intros p s s' H1 H2. destruct (D _ H1) as (x & core & _ & _ & E1 & A1 & B1). destruct (D _ H2) as (x' & core' & _ & _ & E2 & A2 & B2). cbn [fst snd] in *. rewrite E1 in E2. unfold per_file in E2. do 4 (apply sapp_inj in E2). subst x'.
    unfold space_at, object_at in *. rewrite A1 in A2. injection A2 as <-. unfold peripheral_of in *. congruence. }
  split.
  - intros x Hch. destruct (C x (proj1 Hch) Hch) as (s & Hs). destruct (D _ Hs) as (x' & core & _ & _ & E1 & A1 & B1). cbn [fst snd] in *. unfold per_file in E1. do 4 (apply sapp_inj in E1). subst x'.
    exists core, s. split; [exact A1|]. split; [exact B1|]. split; [exact (saves_there _ _ _ _ Hfun S _ _ Hs)|]. intros f ->. exact (saves_exported _ _ _ _ Hfun S _ _ Hs).
  - intros q Hq. apply (saves_kept _ _ _ _ S). intros e He K. destruct (D e He) as (x & core & _ & Hch & E1 & _). apply Hq. exists x. split; [exact Hch|]. rewrite <- E1. exact K.
Qed.

(** ** C63 *)
(** the model: named and created from the parameters, or loaded from a file *)
Inductive model_used (fs : fsys) (alpha beta lambda : option F) : option string -> option string -> pobj -> Prop :=
| mu_wadd : forall tr, model_used fs alpha beta lambda (Some "weighted_add") tr (OComp (mk_wadd alpha beta))
| mu_dil : forall tr, model_used fs alpha beta lambda (Some "dilation") tr (OComp (mk_dil lambda))
| mu_mult : forall tr, model_used fs alpha beta lambda (Some "mult") tr (OComp mk_mult)
| mu_load : forall p o, object_at fs p o -> (forall s, o <> OSpace s) -> model_used fs alpha beta lambda None (Some p) o.
(** the class of a model *)
Inductive class_of : pobj -> string -> Prop :=
| cl_wadd : forall m a b, cm_kind m = WAdd a b -> class_of (OComp m) "WeightedAdditive"
| cl_mult : forall m, cm_kind m = Mult -> class_of (OComp m) "Multiplicative"
| cl_dil : forall m l, cm_kind m = Dil l -> class_of (OComp m) "Dilation"
| cl_fadd : forall m a b c, cm_kind m = FAdd a b c -> class_of (OComp m) "FullAdditive"
| cl_lex : forall m, class_of (OLex m) "LexicalFunction".
(** the composed space: lexical functions use the first argument space only *)
Inductive composed_as : pobj -> list tuple3 -> space -> option space -> space -> Prop :=
| ca_one : forall m data arg s, snd (compose m data (One arg)) = Ok s -> composed_as (OComp m) data arg None s
| ca_two : forall m data arg arg2 s, snd (compose m data (Tup [arg; arg2])) = Ok s -> composed_as (OComp m) data arg (Some arg2) s
| ca_lex : forall m data arg arg2 s, lf_compose m data arg = Ok s -> composed_as (OLex m) data arg arg2 s.
Definition composed_file (out_dir class in_name : string) : string := (out_dir ++ "/COMPOSED_SS." ++ class ++ "." ++ in_name)%string.
Lemma class_of_eq o c : class_of o c -> class_name o = c.
Proof. intros H. destruct H as [m a b H|m H|m l H|m a b c H|m]; cbn [class_name]; try rewrite H; reflexivity. Qed.
Lemma class_of_ex o : (forall s, o <> OSpace s) -> class_of o (class_name o).
Proof. destruct o as [s|m|m]; intros H; [exfalso; apply (H s); reflexivity| |constructor]. cbn [class_name]. destruct (cm_kind m) eqn:K; econstructor; exact K. Qed.
Lemma model_used_iff fs model trained alpha beta lambda o :
  (match model with Some m => create_model m alpha beta lambda | None => let* f := require trained in load_model fs f end) = Ok o <-> model_used fs alpha beta lambda model trained o.
Proof.
  split.
  - destruct model as [m|].
    + unfold create_model. destruct (String.eqb_spec m "weighted_add") as [-> |_]; [intros H; injection H as <-; constructor|]. destruct (String.eqb_spec m "dilation") as [-> |_]; [intros H; injection H as <-; constructor|].
      destruct (String.eqb_spec m "mult") as [-> |_]; [intros H; injection H as <-; constructor|]. discriminate.
    + intros H. apply bind_ok in H. destruct H as (p & Hp & H). destruct trained as [p'|]; [|discriminate]. injection Hp as ->. unfold load_model in H. destruct (fs_file fs p) as [[t|o']|] eqn:Ef; try discriminate.
      destruct o' as [s|m|m]; [discriminate| |]; injection H as <-; (constructor; [exact Ef|discriminate]).
  - intros H. destruct H as [tr|tr|tr|p o Ho Hs]; try reflexivity. cbn [require bind]. unfold load_model. rewrite Ho. destruct o as [s|m|m]; [exfalso; apply (Hs s); reflexivity|reflexivity|reflexivity].
Qed.
Lemma composed_iff o data arg arg2 s : compose_obj o data arg arg2 = Ok s <-> composed_as o data arg arg2 s.
Proof.
  split.
  - unfold compose_obj. destruct o as [x|m|m]; [discriminate| |]; [destruct arg2|]; intros H; constructor; exact H.
  - intros H. destruct H; exact H.
Qed.
Lemma model_not_space fs alpha beta lambda model trained o : model_used fs alpha beta lambda model trained o -> forall s, o <> OSpace s.
Proof. intros H. destruct H; try discriminate. assumption. Qed.
Lemma composed_file_eq out_dir in_file nm o c : file_name in_file nm -> class_of o c -> join "." [(out_dir ++ "/COMPOSED_SS")%string; class_name o; base_name in_file] = composed_file out_dir c nm.
Proof. intros Hn Hc. rewrite (class_of_eq _ _ Hc), (base_name_file _ _ Hn). unfold composed_file. cbn [join String.concat]. rewrite !sapp_assoc. reflexivity. Qed.
Theorem C63_composed fs in_file nm out_dir model trained files alpha beta lambda out_format fs' arg arg2 t :
  file_name in_file nm -> spaces_at fs files arg arg2 -> text_at fs in_file t -> three_fields t ->
  apply_model fs in_file out_dir model trained files alpha beta lambda out_format = Ok fs' ->
  exists o c s, model_used fs alpha beta lambda model trained o /\ class_of o c /\ composed_as o (triples t) arg arg2 s /\
    space_at fs' (composed_file out_dir c nm ++ ".pkl") s /\ (forall f, out_format = Some f -> exported fs' (composed_file out_dir c nm) f s) /\
    only_changes (saved_target (composed_file out_dir c nm)) fs fs'.
Proof.
  intros Hn Hsp Ht H3 H. unfold apply_model in H. apply bind_ok in H. destruct H as (o & Ho & H). apply model_used_iff in Ho. pose proof (class_of_ex o (model_not_space _ _ _ _ _ _ _ Ho)) as Hc. set (c := class_name o) in Hc.
  apply spaces_at_ok in Hsp. apply bind_ok in H. destruct H as (f1 & Hf & H). rewrite Hf in Hsp. cbn [bind] in Hsp. apply bind_ok in H. destruct H as (a & Ha & H). rewrite Ha in Hsp. cbn [bind] in Hsp.
  apply bind_ok in H. destruct H as (a2 & Ha2 & H). rewrite Ha2 in Hsp. cbn [bind] in Hsp. injection Hsp as -> ->. rewrite (read_tuples_at _ _ _ Ht H3) in H. cbn [bind] in H. apply bind_ok in H. destruct H as (s & Hs & H).
  rewrite (composed_file_eq _ _ _ _ _ Hn Hc) in H. exists o, c, s. split; [exact Ho|]. split; [exact Hc|]. split; [apply composed_iff, Hs|]. apply saves_one. unfold saves. cbn [foldM fst snd]. rewrite H. reflexivity.
Qed.
Theorem C63_total fs in_file nm root dirs model trained files alpha beta lambda out_format arg arg2 t o c s :
  file_name in_file nm -> spaces_at fs files arg arg2 -> text_at fs in_file t -> three_fields t ->
  model_used fs alpha beta lambda model trained o -> class_of o c -> composed_as o (triples t) arg arg2 s -> writable_as out_format s -> usable_out fs root dirs ("COMPOSED_SS." ++ c ++ "." ++ nm) ->
  exists fs', apply_model fs in_file (path root dirs) model trained files alpha beta lambda out_format = Ok fs'.
Proof.
  intros Hn Hsp Ht H3 Ho Hc Hs Hw Hu. unfold apply_model. rewrite (proj2 (model_used_iff _ _ _ _ _ _ _) Ho). cbn [bind]. apply spaces_at_ok in Hsp.
  destruct (head_file files) as [f1|]; [|discriminate]. cbn [bind] in *. destruct (load_space fs f1) as [a|]; [|discriminate]. cbn [bind] in *. destruct (load_second fs files) as [a2|]; [|discriminate]. cbn [bind] in *. injection Hsp as -> ->.
  rewrite (read_tuples_at _ _ _ Ht H3). cbn [bind]. rewrite (proj2 (composed_iff _ _ _ _ _) Hs). cbn [bind]. rewrite (composed_file_eq _ _ _ _ _ Hn Hc).
  destruct (save_export_total _ _ _ _ _ _ Hu Hw) as (fs' & K & _). exists fs'. rewrite path_snoc in K by apply Hu. unfold composed_file. exact K.
Qed.
(** fewer than three fields in some line: nothing is composed *)
Theorem C63_short_line fs in_file out_dir model trained files alpha beta lambda out_format t : text_at fs in_file t -> ~ three_fields t ->
  forall fs', apply_model fs in_file out_dir model trained files alpha beta lambda out_format <> Ok fs'.
Proof.
  intros Ht H3 fs' H. unfold apply_model in H. apply bind_ok in H. destruct H as (o & _ & H). apply bind_ok in H. destruct H as (f1 & _ & H). apply bind_ok in H. destruct H as (a & _ & H). apply bind_ok in H. destruct H as (a2 & _ & H).
  apply bind_ok in H. destruct H as (data & Hd & _). destruct (read_tuples_ok _ _ _ Hd) as (t' & K1 & K2 & _). unfold text_at in *. rewrite Ht in K1. injection K1 as <-. contradiction.
Qed.

(** ** C57, batch *)
Theorem C57_batch fs in_file nm a0 a1 c0 c1 out_dir measures in_dir dir t fs' :
  file_name in_file nm -> dir_slash in_dir dir -> (forall f, In f (listdir fs dir) -> ~ In "/"%char (chars f)) -> iparse a0 = Some c0 -> iparse a1 = Some c1 -> text_at fs in_file t ->
  compute_sim_batch fs in_file [a0; a1] out_dir measures in_dir = Ok fs' ->
  (forall x s m sim, In (x ++ ".pkl")%string (listdir fs dir) -> space_at fs (dir ++ x ++ ".pkl") s -> In m measures -> measure_named m sim ->
     exists out, sim_lines s None sim c0 c1 t out /\ text_at fs' (result_file out_dir "SIMS" nm x m) out) /\
  only_changes (fun q => exists x m sim, In (x ++ ".pkl")%string (listdir fs dir) /\ In m measures /\ measure_named m sim /\ q = result_file out_dir "SIMS" nm x m) fs fs'.
Proof.
  intros Hn Hd Hns E0 E1 Ht H. unfold compute_sim_batch in H. apply bind_ok in H. destruct H as (u & _ & H). rewrite (proj2 (with_slash_iff _ _) Hd) in H.
  assert (Rinj : forall x x' m m' sim sim', measure_named m sim -> measure_named m' sim' -> result_file out_dir "SIMS" nm x m = result_file out_dir "SIMS" nm x' m' -> x = x' /\ m = m').
  { intros x x' m m' sim sim' Hm Hm' K. unfold result_file in K. do 6 (apply sapp_inj in K).
    assert (K2 : split_on dot (x ++ "." ++ m) = split_on dot (x' ++ "." ++ m')) by (rewrite K; reflexivity). change ("." ++ m)%string with (String dot m) in K2. change ("." ++ m')%string with (String dot m') in K2.
    rewrite !split_on_app, (split_on_none dot m (measure_nodot _ _ Hm)), (split_on_none dot m' (measure_nodot _ _ Hm')) in K2. apply app_inj_tail in K2. destruct K2 as (_ & ->). split; [|reflexivity].
    apply sapp_inj2 in K; [tauto|reflexivity]. }
  assert (Rpkl : forall q x m sim, measure_named m sim -> (q ++ ".pkl")%string <> result_file out_dir "SIMS" nm x m).
  { intros q x m sim Hm K. unfold result_file in K. rewrite <- !sapp_assoc in K. apply (last_char _ _ _ _ " "%char) in K; [|discriminate|destruct Hm; discriminate]. destruct Hm; discriminate. }
  revert fs' H. assert (Hall : incl (listdir fs dir) (listdir fs dir)) by apply incl_refl. revert Hall. generalize (listdir fs dir) at 1 3 4 5 as fl. 
  intros fl. induction fl as [|f fl IH] using rev_ind; intros Hi fs' H.
  - injection H as <-. split; [intros x s m sim []|apply only_refl].
  - rewrite foldM_app in H. apply bind_ok in H. destruct H as (fs1 & H1 & H). cbn [foldM] in H. apply bind_ok in H. destruct H as (fs2 & H2 & H). injection H as <-.
    assert (Hi' : incl fl (listdir fs dir)) by (intros z Hz; apply Hi, in_app_iff; left; exact Hz). assert (Hf : In f (listdir fs dir)) by (apply Hi, in_app_iff; right; left; reflexivity).
    destruct (IH Hi' fs1 H1) as (I1 & I2). clear IH. destruct (ends_with f ".pkl") eqn:Ee.
    + apply ends_with_iff in Ee. destruct Ee as (x & ->). pose proof (dir_stem _ _ _ Hd (Hns _ Hf)) as Hst.
      assert (T1 : text_at fs1 in_file t).
      { unfold text_at. rewrite I2; [exact Ht|]. intros (x' & m' & sim' & Hx' & _ & Hm' & K). symmetry in K. revert K. apply result_name; [exact Hn| | |exact (measure_noslash _ _ Hm')|discriminate].
        - cbn. intros K; repeat (destruct K as [K|K]; [discriminate|]); exact K.
        - pose proof (Hns _ (Hi' _ Hx')) as K. rewrite chars_app, in_app_iff in K. tauto. }
      assert (S1 : forall y, fs_file fs1 (y ++ ".pkl") = fs_file fs (y ++ ".pkl")).
      { intros y. apply I2. intros (x' & m' & sim' & _ & _ & Hm' & K). exact (Rpkl _ _ _ _ Hm' K). }
      assert (Cases : (exists s, space_at fs1 (dir ++ x ++ ".pkl") s) \/ (forall s, ~ space_at fs1 (dir ++ x ++ ".pkl") s) /\ fs2 = fs1).
      { cbn [compute_sim head_file] in H2. unfold parse_int in H2. rewrite E0, E1 in H2. cbn [bind] in H2. destruct (load_space fs1 (dir ++ x ++ ".pkl")) as [s|e] eqn:El; [left; exists s; apply load_space_at, El|]. right. split.
        - intros s K. apply load_space_at in K. congruence.
        - destruct e; try discriminate. injection H2 as <-. reflexivity. }
      destruct Cases as [(s0 & Hs0)|(Hno & ->)].
      * assert (Hsp : spaces_at fs1 [(dir ++ x ++ ".pkl")%string] s0 None) by (apply sp_one; [discriminate|exact Hs0]).
        assert (Hde : described [(dir ++ x ++ ".pkl")%string] x) by (apply ds_one; [discriminate|exact Hst]).
        destruct (C57_lines _ _ _ _ _ _ _ _ _ _ _ _ _ _ _ Hn Hde E0 E1 Hsp T1 H2) as (K1 & K2). split.
        -- intros y s m sim Hin Hs Hm Hms. destruct (string_dec y x) as [-> |Hne].
           ++ assert (s = s0) as -> by (unfold space_at, object_at in *; rewrite <- sapp_assoc in Hs, Hs0; rewrite S1 in Hs0; congruence). exact (K1 m sim Hm Hms).
           ++ apply in_app_iff in Hin. destruct Hin as [Hin|[Hin|[]]]; [|apply sapp_inj2 in Hin; [destruct Hin; congruence|reflexivity]]. destruct (I1 y s m sim Hin Hs Hm Hms) as (out & O1 & O2). exists out. split; [exact O1|].
              unfold text_at. rewrite K2; [exact O2|]. intros (m' & sim' & _ & Hm' & K). apply (Rinj _ _ _ _ _ _ Hms Hm') in K. destruct K; congruence.
        -- intros q Hq. rewrite K2, I2; [reflexivity| |].
           ++ intros (y & m & sim & Hin & R'). apply Hq. exists y, m, sim. split; [apply in_app_iff; left; exact Hin|exact R'].
           ++ intros (m & sim & R'). apply Hq. exists x, m, sim. split; [apply in_app_iff; right; left; reflexivity|exact R'].
      * split.
        -- intros y s m sim Hin Hs Hm Hms. apply in_app_iff in Hin. destruct Hin as [Hin|[Hin|[]]]; [eauto|]. exfalso. apply sapp_inj2 in Hin; [|reflexivity]. destruct Hin as (-> & _).
           apply (Hno s). unfold space_at, object_at in *. rewrite <- sapp_assoc in *. rewrite S1. exact Hs.
        -- intros q Hq. apply I2. intros (y & m & sim & Hin & R'). apply Hq. exists y, m, sim. split; [apply in_app_iff; left; exact Hin|exact R'].
    + injection H2 as <-. split.
      * intros y s m sim Hin Hs Hm Hms. apply in_app_iff in Hin. destruct Hin as [Hin|[Hin|[]]]; [eauto|]. exfalso. subst f. rewrite (proj2 (ends_with_iff _ _) (ex_intro _ y eq_refl)) in Ee. discriminate.
      * intros q Hq. apply I2. intros (y & m & sim & Hin & R'). apply Hq. exists y, m, sim. split; [apply in_app_iff; left; exact Hin|exact R'].
Qed.

(** ** C65, batch: the name of every chosen file, and its evaluation *)
Theorem C65_batch fs in_dir dir columns measures filter_ out : dir_slash in_dir dir ->
  evaluate_sim_batch fs in_dir columns measures filter_ = Ok out ->
  exists outs, Forall2 (fun f o => evaluate_sim fs (dir ++ f) columns measures = Ok o) (filter (contains filter_) (listdir fs dir)) outs /\
    out = String.concat "" (map (fun fo : string * string => (fst fo ++ nl ++ snd fo)%string) (combine (filter (contains filter_) (listdir fs dir)) outs)).
Proof.
  intros Hd H. unfold evaluate_sim_batch in H. apply bind_ok in H. destruct H as (u & _ & H). rewrite (proj2 (with_slash_iff _ _) Hd) in H.
  assert (G : forall fl o0, foldM (fun out f => if contains filter_ f then let* t := evaluate_sim fs (dir ++ f) columns measures in Ok (out ++ f ++ nl ++ t)%string else Ok out) fl o0 = Ok out ->
    exists outs, Forall2 (fun f o => evaluate_sim fs (dir ++ f) columns measures = Ok o) (filter (contains filter_) fl) outs /\
      out = (o0 ++ String.concat "" (map (fun fo : string * string => (fst fo ++ nl ++ snd fo)%string) (combine (filter (contains filter_) fl) outs)))%string).
  { clear H. induction fl as [|f fl IH]; intros o0 H; cbn [foldM filter] in *.
    - injection H as <-. exists []. split; [constructor|]. cbn. rewrite sapp_nil_r. reflexivity.
    - apply bind_ok in H. destruct H as (o1 & H1 & H). destruct (contains filter_ f).
      + apply bind_ok in H1. destruct H1 as (t & Ht & H1). injection H1 as <-. destruct (IH _ H) as (outs & F2 & ->). exists (t :: outs). split; [constructor; assumption|]. cbn [combine map fst snd]. rewrite concat_cons, !sapp_assoc. reflexivity.
      + injection H1 as <-. exact (IH _ H). }
  exact (G _ "" H).
Qed.
End Batch.
