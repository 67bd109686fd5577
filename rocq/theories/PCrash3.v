(** PCrash3.v -- running a program again on the disk a killed run of it has left. *)
From Coq Require Import Ascii FunctionalExtensionality.
From Verif Require Import Base PyList Dict Num Dense Sparse Matrix Scaling Linalg Operation Similarity Space Peripheral Learner Composition Utils LexFun Str PStr IO Pipe Crash SpecCrash PCrash PCrash2.
Local Open Scope string_scope.
Local Open Scope list_scope.
Local Open Scope nat_scope.

Section PCrash3.
Context {N : Num} {E : Ext} {FI : FloatIO} {PI : PipeIO} {KI : PickleIO}.

(** ** disks only grow *)
Definition grows (a b : fsys) : Prop :=
  (forall q, fs_dir a q = true -> fs_dir b q = true) /\ (forall q, fs_file a q <> None -> fs_file b q <> None).
Lemma grows_refl a : grows a a.
Proof. split; auto. Qed.
Lemma grows_trans a b c : grows a b -> grows b c -> grows a c.
Proof. intros (H1 & H2) (K1 & K2). split; auto. Qed.
Lemma grows_effect fs e : grows fs (effect fs e).
Proof.
  destruct e as [p|p|p c|p o]; split; intros q H; cbn in *; auto.
  - rewrite H. apply orb_true_r.
  - destruct (String.eqb q p); [discriminate|exact H].
  - destruct (String.eqb q p); [|exact H]. destruct (fs_file fs q) as [[s|o]|]; cbn; congruence.
  - destruct (String.eqb q p); [discriminate|exact H].
Qed.
Lemma grows_replay l : forall fs, grows fs (replay fs l).
Proof. induction l as [|e l IH]; intros fs; [apply grows_refl|]. exact (grows_trans _ _ _ (grows_effect fs e) (IH _)). Qed.
Lemma grows_exists a b q : grows a b -> exists_ a q = true -> exists_ b q = true.
Proof.
  intros (H1 & H2). unfold exists_. rewrite !andb_true_iff, !orb_true_iff. intros (Hq & [K|K]); (split; [exact Hq|]); [left; auto|right]. specialize (H2 q). destruct (fs_file a q); [|discriminate]. destruct (fs_file b q); [reflexivity|exfalso; apply H2; congruence].
Qed.

(** ** making the same directories again *)
Inductive anc : string -> string -> Prop :=
| anc_here : forall p, anc p p
| anc_up : forall p q, anc (dirname p) q -> anc p q.
Lemma anc_trans p q r : anc p q -> anc q r -> anc p r.
Proof. induction 1; [auto|]. intros K. apply anc_up. auto. Qed.
Lemma anc_empty q : anc "" q -> q = "".
Proof. intros H. enough (G : forall p, anc p q -> p = "" -> q = "") by (eapply G; eauto). clear. intros p H. induction H as [p|p q H IH]; [auto|]. intros ->. apply IH. reflexivity. Qed.
Lemma sane_anc st p q : sane st -> exists_ st p = true -> anc p q -> q = p \/ q = "" \/ fs_dir st q = true.
Proof.
  intros (S1 & _) Hp H. induction H as [p|p q H IH]; [auto|]. right. destruct (S1 p Hp) as [K|K].
  - rewrite K in H. left. apply anc_empty, H.
  - destruct (String.eqb_spec (dirname p) "") as [Ke|Kn]; [rewrite Ke in H; left; apply anc_empty, H|].
    destruct IH as [-> |IH]; [|right; exact K|exact IH]. unfold exists_. apply String.eqb_neq in Kn. rewrite Kn, K. reflexivity.
Qed.
Definition split_head (p : string) : string * string :=
  let (head, tail) := path_split p in if String.eqb tail "" then path_split head else (head, tail).
Lemma split_head_anc p : anc p (fst (split_head p)).
Proof.
  unfold split_head. assert (H : fst (path_split p) = dirname p) by reflexivity. destruct (path_split p) as [h t]. cbn [fst] in H. subst h. destruct (String.eqb t "").
  - change (fst (path_split (dirname p))) with (dirname (dirname p)). apply anc_up, anc_up, anc_here.
  - apply anc_up, anc_here.
Qed.
Lemma makedirs_S n fs p : makedirs (S n) fs p =
  let (head, tail) := split_head p in
  let* fs := (if negb (String.eqb head "") && negb (String.eqb tail "") && negb (exists_ fs head) then makedirs n fs head else Ok fs) in
  if String.eqb tail "." then Ok fs else mkdir fs p.
Proof. cbn [makedirs]. unfold split_head. destruct (path_split p) as [h t]. destruct (String.eqb t ""); reflexivity. Qed.
Lemma mkdir_ok fs p fs' : mkdir fs p = Ok fs' -> p <> "" /\ exists_ fs p = false /\ (dirname p = "" \/ fs_dir fs (dirname p) = true) /\ fs' = FS (fs_file fs) (fun q => String.eqb q p || fs_dir fs q).
Proof.
  unfold mkdir. destruct (_ || _)%bool eqn:Ec; [discriminate|]. apply orb_false_iff in Ec. destruct Ec as (Ec & Ep). apply orb_false_iff in Ec. destruct Ec as (Ee & Ex). apply negb_false_iff, orb_true_iff in Ep. intros H. injection H as <-.
  split; [apply String.eqb_neq, Ee|]. split; [exact Ex|]. split; [|reflexivity]. destruct Ep as [Ep|Ep]; [left; apply String.eqb_eq, Ep|right; exact Ep].
Qed.
Lemma mkdir_can fs p : p <> "" -> exists_ fs p = false -> (dirname p = "" \/ fs_dir fs (dirname p) = true) -> mkdir fs p = Ok (FS (fs_file fs) (fun q => String.eqb q p || fs_dir fs q)).
Proof.
  intros H1 H2 H3. unfold mkdir. apply String.eqb_neq in H1. rewrite H1, H2. cbn [orb]. replace (String.eqb (dirname p) "" || fs_dir fs (dirname p))%bool with true; [reflexivity|]. symmetry. apply orb_true_iff. destruct H3 as [H3|H3]; [left; apply String.eqb_eq, H3|right; exact H3].
Qed.
Lemma makedirs_new n : forall a p a', makedirs n a p = Ok a' ->
  fs_file a' = fs_file a /\ (forall q, fs_dir a q = true -> fs_dir a' q = true) /\ (forall q, fs_dir a' q = true -> fs_dir a q = true \/ (q <> "" /\ anc p q)).
Proof.
  induction n as [|n IH]; intros a p a' H; [discriminate|]. rewrite makedirs_S in H. pose proof (split_head_anc p) as Hh. destruct (split_head p) as [h t]. cbn [fst] in Hh. apply bind_ok in H. destruct H as (a1 & H1 & H).
  assert (K : fs_file a1 = fs_file a /\ (forall q, fs_dir a q = true -> fs_dir a1 q = true) /\ (forall q, fs_dir a1 q = true -> fs_dir a q = true \/ (q <> "" /\ anc p q))).
  { destruct (_ && _)%bool; [|injection H1 as <-; auto]. destruct (IH _ _ _ H1) as (K1 & K2 & K3). split; [exact K1|]. split; [exact K2|]. intros q Hq. destruct (K3 q Hq) as [L|(L1 & L2)]; [left; exact L|right]. split; [exact L1|exact (anc_trans _ _ _ Hh L2)]. }
  destruct (String.eqb t "."); [injection H as <-; exact K|]. destruct (mkdir_ok _ _ _ H) as (Hne & _ & _ & ->). destruct K as (K1 & K2 & K3). cbn. split; [exact K1|]. split.
  - intros q Hq. rewrite (K2 q Hq). apply orb_true_r.
  - intros q. destruct (String.eqb_spec q p) as [->|_]; [intros _; right; split; [exact Hne|apply anc_here]|]. cbn [orb]. apply K3.
Qed.
(** what the first run makes is there, when the second run finds its goal there *)
Lemma makedirs_there n a st b p a' : makedirs n a p = Ok a' -> grows a st -> grows st b -> sane st -> sane b -> (forall q, fs_dir a' q = true -> fs_dir b q = true) -> exists_ st p = true ->
  forall q, fs_dir a' q = true -> fs_dir st q = true.
Proof.
  intros H (G1 & _) (_ & G2) Ss (_ & Sb) Hb Hex q Hq. destruct (makedirs_new _ _ _ _ H) as (_ & _ & K). destruct (K q Hq) as [L|(L1 & L2)]; [auto|]. destruct (sane_anc _ _ _ Ss Hex L2) as [->|[->|L]]; [|congruence|exact L].
  pose proof (Sb p (Hb p Hq)) as Hn. unfold exists_ in Hex. apply andb_true_iff in Hex. destruct Hex as (_ & Hex). apply orb_true_iff in Hex. destruct Hex as [Hex|Hex]; [exact Hex|]. exfalso. apply (G2 p); [|exact Hn]. destruct (fs_file st p); discriminate.
Qed.
Lemma makedirs_again n : forall a st b p a', makedirs n a p = Ok a' -> grows a st -> grows st b -> sane st -> sane b -> (forall q, fs_dir a' q = true -> fs_dir b q = true) -> exists_ st p = false ->
  exists st', makedirs n st p = Ok st' /\ (forall q, fs_dir a' q = true -> fs_dir st' q = true) /\ (forall q, fs_dir st' q = true -> fs_dir st q = true \/ fs_dir a' q = true).
Proof.
  induction n as [|n IH]; intros a st b p a' H Ga Gb Ss Sb Hb Hex; [discriminate|]. rewrite makedirs_S in *. destruct (split_head p) as [h t]. apply bind_ok in H. destruct H as (a1 & H1 & H).
  assert (Ha1 : forall q, fs_dir a1 q = true -> fs_dir a' q = true). { destruct (String.eqb t "."); [injection H as <-; auto|]. destruct (mkdir_ok _ _ _ H) as (_ & _ & _ & ->). cbn. intros q ->. apply orb_true_r. }
  assert (Fst : forall m x y z, makedirs m x y = Ok z -> fs_file z = fs_file x) by (intros m x y z K; exact (proj1 (makedirs_new _ _ _ _ K))).
  assert (K : exists st1, (if negb (String.eqb h "") && negb (String.eqb t "") && negb (exists_ st h) then makedirs n st h else Ok st) = Ok st1 /\ fs_file st1 = fs_file st /\
     (forall q, fs_dir a1 q = true -> fs_dir st1 q = true) /\ (forall q, fs_dir st1 q = true -> fs_dir st q = true \/ fs_dir a1 q = true)).
  { destruct (negb (String.eqb h "") && negb (String.eqb t ""))%bool; cbn [andb] in *.
    - destruct (exists_ a h) eqn:Ea; cbn [negb] in *.
      + rewrite (grows_exists _ _ _ Ga Ea). injection H1 as <-. exists st. split; [reflexivity|]. split; [reflexivity|]. split; [apply (proj1 Ga)|auto].
      + destruct (exists_ st h) eqn:Eh; cbn [negb].
        * exists st. split; [reflexivity|]. split; [reflexivity|]. split; [|auto]. exact (makedirs_there _ _ _ _ _ _ H1 Ga Gb Ss Sb (fun q Hq => Hb q (Ha1 q Hq)) Eh).
        * destruct (IH _ _ _ _ _ H1 Ga Gb Ss Sb (fun q Hq => Hb q (Ha1 q Hq)) Eh) as (st1 & K1 & K2 & K3). exists st1. split; [exact K1|]. split; [exact (Fst _ _ _ _ K1)|]. auto.
    - injection H1 as <-. exists st. split; [reflexivity|]. split; [reflexivity|]. split; [apply (proj1 Ga)|auto]. }
  destruct K as (st1 & -> & F1 & D1 & D2). cbn [bind]. destruct (String.eqb t "."); [injection H as <-; exists st1; auto|].
  destruct (mkdir_ok _ _ _ H) as (Hne & Hna & Hpar & ->). rewrite mkdir_can; [|exact Hne| |].
  - eexists. split; [reflexivity|]. cbn. split.
    + intros q. destruct (String.eqb q p); [reflexivity|]. apply D1.
    + intros q. destruct (String.eqb q p); [auto|]. cbn [orb]. apply D2.
  - unfold exists_ in *. apply String.eqb_neq in Hne. rewrite Hne in *. cbn [negb andb] in *. apply orb_false_iff in Hex, Hna. rewrite F1. apply orb_false_iff. split; [|apply Hex]. destruct (fs_dir st1 p) eqn:Ed; [|reflexivity]. destruct (D2 p Ed); destruct Hex, Hna; congruence.
  - destruct Hpar as [Hpar|Hpar]; [left; exact Hpar|right; apply D1, Hpar].
Qed.
Lemma parents_again a st b p a' : create_parent_directories a p = Ok a' -> grows a st -> grows st b -> sane st -> sane b -> grows a' b ->
  exists st', create_parent_directories st p = Ok st' /\ grows a' st' /\ grows st' b.
Proof.
  unfold create_parent_directories. intros H Ga Gb Ss Sb Gb'. destruct (exists_ a (dirname p)) eqn:Ea.
  - injection H as <-. rewrite (grows_exists _ _ _ Ga Ea). exists st. auto.
  - destruct (makedirs_new _ _ _ _ H) as (F1 & _ & _). destruct (exists_ st (dirname p)) eqn:Es.
    + exists st. split; [reflexivity|]. split; [|exact Gb]. split; [exact (makedirs_there _ _ _ _ _ _ H Ga Gb Ss Sb (proj1 Gb') Es)|]. intros q. rewrite F1. apply (proj2 Ga).
    + destruct (makedirs_again _ _ _ _ _ _ H Ga Gb Ss Sb (proj1 Gb') Es) as (st' & K1 & K2 & K3). exists st'. split; [exact K1|]. destruct (makedirs_new _ _ _ _ K1) as (F2 & _ & _). split; (split; [|intros q; rewrite ?F1, ?F2]).
      * exact K2.
      * apply (proj2 Ga).
      * intros q Hq. destruct (K3 q Hq) as [L|L]; [apply (proj1 Gb), L|apply (proj1 Gb'), L].
      * apply (proj2 Gb).
Qed.
Lemma write_again a st b p c c' a' : write_file a p c = Ok a' -> grows a st -> grows st b -> sane b -> grows a' b -> is_ok (write_file st p c') = true /\ grows a' (setf st p c') /\ grows (setf st p c') b.
Proof.
  intros H (A1 & A2) (B1 & B2) (_ & Sb) (C1 & C2). unfold write_file in H. destruct (_ || _)%bool eqn:Ec in H; [discriminate|]. apply orb_false_iff in Ec. destruct Ec as (Ec & Ep). apply orb_false_iff in Ec. destruct Ec as (Ee & Ed). apply negb_false_iff, orb_true_iff in Ep. injection H as <-. cbn in C1, C2.
  assert (Hb : fs_file b p <> None) by (apply C2; rewrite String.eqb_refl; discriminate).
  assert (Hd : fs_dir st p = false) by (destruct (fs_dir st p) eqn:K; [|reflexivity]; exfalso; apply Hb, Sb, B1, K). split; [|split; split; cbn].
  - unfold write_file. rewrite Ee, Hd. cbn [orb]. replace (String.eqb (dirname p) "" || fs_dir st (dirname p))%bool with true; [reflexivity|]. symmetry. apply orb_true_iff. destruct Ep as [Ep|Ep]; auto.
  - exact A1.
  - intros q. destruct (String.eqb q p); [discriminate|apply A2].
  - exact B1.
  - intros q. destruct (String.eqb_spec q p) as [->|_]; [auto|apply B2].
Qed.
End PCrash3.
