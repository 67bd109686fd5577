(** PConc2.v -- programs that use different files do not notice each other. *)
From Coq Require Import Ascii FunctionalExtensionality.
From Verif Require Import Base PyList Dict Num Dense Sparse Matrix Scaling Linalg Operation Similarity Space Peripheral Learner Composition Utils LexFun Str PStr IO Pipe Crash SpecCrash PCrash PCrash2 Conc PConc.
Local Open Scope string_scope.
Local Open Scope list_scope.
Local Open Scope nat_scope.

Section PConc2.
Context {N : Num} {E : Ext} {FI : FloatIO} {PI : PipeIO} {KI : PickleIO}.
Implicit Types (I W : string -> Prop) (dirs : string -> bool) (fs g v : fsys).

(** ** confinement *)
Definition same_on I a b : Prop := forall q, I q -> fs_file a q = fs_file b q.
Definition touches (e : event) (q : string) : bool :=
  match e with Emkdir _ => false | Eopen p | Eput p _ | Eseal p _ => String.eqb q p end.
Definition event_in W (e : event) : Prop := match e with Emkdir _ => False | Eopen p | Eput p _ | Eseal p _ => W p end.
Definition steady dirs I {X} (f : fsys -> X) : Prop := forall a b, fs_dir a = dirs -> fs_dir b = dirs -> same_on I a b -> f a = f b.
(** on disks with the directories [dirs], the program looks at files in [I] and changes files in [W] only *)
Fixpoint confined dirs I W {A} (P : prog A) : Prop :=
  match P with
  | Ret _ | Raise _ => True
  | Look f k => steady dirs I f /\ forall a x, fs_dir a = dirs -> f a = Ok x -> confined dirs I W (k x)
  | Act f k => steady dirs I f /\ (forall a l, fs_dir a = dirs -> f a = Ok l -> Forall (event_in W) l) /\ confined dirs I W k
  end.
Lemma same_sym I a b : same_on I a b -> same_on I b a.
Proof. intros H q Hq. symmetry. apply H, Hq. Qed.
Lemma same_trans I a b c : same_on I a b -> same_on I b c -> same_on I a c.
Proof. intros H K q Hq. rewrite H, K; auto. Qed.
(** *** effects *)
Lemma effect_same I a b e : same_on I a b -> same_on I (effect a e) (effect b e).
Proof. intros H q Hq. specialize (H q Hq). destruct e; cbn [effect fs_file]; try exact H; destruct (String.eqb q p); congruence. Qed.
Lemma replay_same I l : forall a b, same_on I a b -> same_on I (replay a l) (replay b l).
Proof. induction l as [|e l IH]; intros a b H; [exact H|]. cbn [replay fold_left]. apply IH, effect_same, H. Qed.
Lemma effect_else a e q : touches e q = false -> fs_file (effect a e) q = fs_file a q.
Proof. destruct e; cbn [touches effect fs_file]; intros H; try rewrite H; reflexivity. Qed.
Lemma replay_else l q : forall a, existsb (fun e => touches e q) l = false -> fs_file (replay a l) q = fs_file a q.
Proof.
  induction l as [|e l IH]; intros a H; [reflexivity|]. cbn [existsb] in H. apply orb_false_iff in H. destruct H as (H1 & H2). cbn [replay fold_left]. change (fs_file (replay (effect a e) l) q = fs_file a q). rewrite IH by exact H2. apply effect_else, H1.
Qed.
Lemma event_touches W e q : event_in W e -> touches e q = true -> W q.
Proof. destruct e; cbn [event_in touches]; intros H K; try contradiction; apply String.eqb_eq in K; rewrite K; exact H. Qed.
Lemma events_touch W l q : Forall (event_in W) l -> existsb (fun e => touches e q) l = true -> W q.
Proof. intros H K. apply existsb_exists in K. destruct K as (e & K1 & K2). rewrite Forall_forall in H. exact (event_touches W e q (H e K1) K2). Qed.
Lemma events_else W l q a : Forall (event_in W) l -> ~ W q -> fs_file (replay a l) q = fs_file a q.
Proof. intros H K. apply replay_else. destruct (existsb _ l) eqn:Ex; [|reflexivity]. exfalso. apply K. exact (events_touch W l q H Ex). Qed.
Lemma events_dirs W l : forall a, Forall (event_in W) l -> fs_dir (replay a l) = fs_dir a.
Proof. induction l as [|e l IH]; intros a H; [reflexivity|]. inversion H as [|? ? H1 H2]; subst. cbn [replay fold_left]. change (fs_dir (replay (effect a e) l) = fs_dir a). rewrite IH by exact H2. destruct e; [destruct H1| | |]; reflexivity. Qed.

(** *** building confined programs *)
Lemma c_bind dirs I W {A B} (m : prog A) (k : A -> prog B) : confined dirs I W m -> (forall a, confined dirs I W (k a)) -> confined dirs I W (pbind m k).
Proof.
  induction m as [a|e|X f c IH|f c IH]; cbn [pbind confined]; intros H K; [apply K|exact H| |].
  - destruct H as (H1 & H2). split; [exact H1|]. intros a x Ha Hx. apply IH; [exact (H2 a x Ha Hx)|exact K].
  - destruct H as (H1 & H2 & H3). split; [exact H1|]. split; [exact H2|]. apply IH; assumption.
Qed.
Lemma c_pure dirs I W {A B} (r : res A) (k : A -> prog B) : (forall a, r = Ok a -> confined dirs I W (k a)) -> confined dirs I W (pbind (pure r) k).
Proof. intros K. destruct r as [a|e]; [apply K; reflexivity|exact Logic.I]. Qed.
Lemma c_pure0 dirs I W {A} (r : res A) : confined dirs I W (pure r).
Proof. destruct r; exact Logic.I. Qed.
Lemma c_look dirs I W {A} (f : fsys -> res A) : steady dirs I f -> confined dirs I W (look f).
Proof. intros H. split; [exact H|]. intros; exact Logic.I. Qed.
Lemma c_fold dirs I W {A} (f : A -> prog unit) l : (forall x, In x l -> confined dirs I W (f x)) -> confined dirs I W (p_fold f l).
Proof. induction l as [|x l IH]; intros H; [exact Logic.I|]. cbn [p_fold]. apply c_bind; [apply H; left; reflexivity|]. intros _. apply IH. intros y Hy. apply H. right. exact Hy. Qed.
Lemma c_parents dirs I W p : dirname p <> "" -> dirs (dirname p) = true -> confined dirs I W (p_parents p).
Proof.
  intros H1 H2. assert (K : forall a, fs_dir a = dirs -> exists_ a (dirname p) = true).
  { intros a <-. unfold exists_. rewrite H2. destruct (String.eqb_spec (dirname p) ""); [contradiction|reflexivity]. }
  unfold p_parents. cbn. split; [intros a b Ha Hb _; rewrite !K by assumption; reflexivity|]. intros a x Ha Hx. rewrite (K a Ha) in Hx. assert (x = true) by congruence. subst x. exact Logic.I.
Qed.
Lemma c_open dirs I W p : W p -> confined dirs I W (p_open p).
Proof.
  intros H. split; [|split; [|exact Logic.I]].
  - intros a b Ha Hb _. unfold write_file. rewrite Ha, Hb. destruct (_ || _)%bool; reflexivity.
  - intros a l _ K. unfold write_file in K. destruct (_ || _)%bool; [discriminate|]. cbn in K. assert (l = [Eopen p]) by congruence. subst l. repeat constructor. exact H.
Qed.
Lemma c_event dirs I W e : event_in W e -> confined dirs I W (act (fun _ => Ok [e])).
Proof. intros H. split; [intros a b _ _ _; reflexivity|]. split; [|exact Logic.I]. intros a l _ K. assert (l = [e]) by congruence. subst l. repeat constructor. exact H. Qed.
Lemma c_put dirs I W p s : W p -> confined dirs I W (p_put p s).
Proof. intros H. apply c_fold. intros c _. apply c_event. exact H. Qed.
Lemma c_scan dirs I W {A S} p (g : S -> A -> res (S * string)) l : W p -> forall st, confined dirs I W (p_scan p g l st).
Proof. intros H. induction l as [|x l IH]; intros st; [exact Logic.I|]. cbn [p_scan]. apply c_pure. intros (st' & s) _. apply c_bind; [apply c_put, H|]. intros _. apply IH. Qed.
Lemma c_write dirs I W {A S} p (g : S -> A -> res (S * string)) l st : W p -> confined dirs I W (p_write p g l st).
Proof. intros H. apply c_bind; [apply c_open, H|]. intros _. apply c_scan, H. Qed.
Lemma c_dump dirs I W p o : W p -> confined dirs I W (p_dump p o).
Proof. intros H. apply c_bind; [apply c_open, H|]. intros _. apply c_bind; [apply c_put, H|]. intros _. apply c_event. exact H. Qed.
Definition has_dir dirs p : Prop := dirname p <> "" /\ dirs (dirname p) = true.
Lemma c_save dirs I W o p : W p -> has_dir dirs p -> confined dirs I W (p_save o p).
Proof. intros H (K1 & K2). apply c_bind; [apply c_parents; assumption|]. intros _. apply c_dump, H. Qed.
Lemma c_print_sparse dirs I W m r c p : W p -> confined dirs I W (p_print_sparse m r c p).
Proof.
  intros H. unfold p_print_sparse. apply c_pure. intros _ _. destruct m as [d|x]; [apply c_write, H|]. apply c_bind; [apply c_open, H|]. intros _. apply c_pure. intros nr _. apply c_pure. intros row _. apply c_scan, H.
Qed.
Lemma c_export dirs I W s p f : (forall ext, In ext [".dm"; ".sm"; ".rows"; ".cols"] -> W (p ++ ext)%string) -> has_dir dirs p -> confined dirs I W (p_export s p f).
Proof.
  intros H (K1 & K2). unfold p_export. apply c_bind; [apply c_parents; assumption|]. intros _. apply c_bind.
  - destruct f as [f|]; [|exact Logic.I]. destruct (String.eqb f "dm"); [apply c_write, H; cbn; auto|]. destruct (String.eqb f "sm"); [apply c_print_sparse, H; cbn; auto|exact Logic.I].
  - intros _. unfold p_export_row_column. apply c_bind; [destruct (s_col2id s); [exact Logic.I|apply c_write, H; cbn; auto]|]. intros _. apply c_write, H. cbn. auto.
Qed.
Lemma no_slash_ext e : In e [".pkl"; ".dm"; ".sm"; ".rows"; ".cols"; ".params"] -> ~ In "/"%char (chars e).
Proof. intros H. repeat (destruct H as [<-|H]; [cbn; intros Q; repeat (destruct Q as [Q|Q]; [discriminate|]); exact Q|]). destruct H. Qed.
Lemma dir_ext dirs p e : In e [".pkl"; ".dm"; ".sm"; ".rows"; ".cols"; ".params"] -> has_dir dirs (p ++ e)%string <-> has_dir dirs p.
Proof. intros H. unfold has_dir. rewrite dirname_app by (apply no_slash_ext, H). reflexivity. Qed.
Lemma c_save_export dirs I W s out fmt : (forall ext, In ext [".pkl"; ".dm"; ".sm"; ".rows"; ".cols"] -> W (out ++ ext)%string) -> has_dir dirs out -> confined dirs I W (p_save_export s out fmt).
Proof.
  intros H K. unfold p_save_export. apply c_bind.
  - apply c_save; [apply H; left; reflexivity|]. apply dir_ext; [left; reflexivity|exact K].
  - intros _. destruct fmt as [f|]; [|exact Logic.I]. apply c_export; [|exact K]. intros ext He. apply H. right. exact He.
Qed.

Lemma c_append dirs I W p : I p -> W p -> confined dirs I W (act (fun fs => match fs_file fs p with Some _ => Ok [] | None => let* _ := write_file fs p (Text "") in Ok [Eopen p] end)).
Proof.
  intros HI HW. split; [|split; [|exact Logic.I]].
  - intros a b Ha Hb Hab. rewrite (Hab p HI). destruct (fs_file b p); [reflexivity|]. unfold write_file. rewrite Ha, Hb. destruct (_ || _)%bool; reflexivity.
  - intros a l _ K. destruct (fs_file a p); [assert (l = []) by congruence; subst l; constructor|]. unfold write_file in K. destruct (_ || _)%bool; [discriminate|]. cbn in K. assert (l = [Eopen p]) by congruence. subst l. repeat constructor. exact HW.
Qed.
Lemma c_log dirs I W p : I p -> W p -> has_dir dirs p -> confined dirs I W (p_log p).
Proof. intros HI HW (H1 & H2). apply c_bind; [apply c_parents; assumption|]. intros _. apply c_append; assumption. Qed.

(** *** reading *)
Lemma c_read_text dirs I W p : I p -> confined dirs I W (p_read_text p).
Proof. intros H. apply c_look. intros a b _ _ K. unfold read_text. rewrite (K p H). reflexivity. Qed.
Lemma s_load_space dirs I p : I p -> steady dirs I (fun fs => load_space fs p).
Proof. intros H a b _ _ K. unfold load_space. rewrite (K p H). reflexivity. Qed.
Lemma c_load_space dirs I W p : I p -> confined dirs I W (p_load_space p).
Proof. intros H. apply c_look, s_load_space, H. Qed.
Lemma c_load_model dirs I W p : I p -> confined dirs I W (p_load_model p).
Proof. intros H. apply c_look. intros a b _ _ K. unfold load_model. rewrite (K p H). reflexivity. Qed.
Lemma c_load_second dirs I W files : (forall f, In f files -> I f) -> confined dirs I W (p_load_second files).
Proof. intros H. destruct files as [|f [|g [|]]]; try exact Logic.I. apply c_bind; [apply c_load_space, H; cbn; auto|]. intros s. exact Logic.I. Qed.
Lemma c_read_tuples dirs I W p : I p -> confined dirs I W (p_read_tuples p).
Proof. intros H. apply c_bind; [apply c_read_text, H|]. intros t. apply c_pure0. Qed.
Lemma c_exists dirs I W p : I p -> confined dirs I W (p_exists p).
Proof. intros H. apply c_look. intros a b Ha Hb K. unfold exists_. rewrite Ha, Hb, (K p H). reflexivity. Qed.
Lemma c_read_index dirs I W p : I p -> confined dirs I W (p_read_index p).
Proof. intros H. apply c_bind; [apply c_read_text, H|]. intros t. apply c_pure0. Qed.
Lemma c_build dirs I W data fmt rows cols : I data -> (forall p, rows = Some p -> I p) -> (forall p, cols = Some p -> I p) -> confined dirs I W (p_build data fmt rows cols).
Proof.
  intros Hd Hr Hc. unfold p_build. apply c_pure. intros _ _. apply c_bind.
  { destruct rows as [p|]; [|exact Logic.I]. apply c_bind; [apply c_read_index, Hr; reflexivity|]. intros x. exact Logic.I. }
  intros ri. apply c_bind.
  { destruct cols as [p|]; [|destruct (String.eqb fmt "sm"); exact Logic.I]. apply c_bind; [apply c_read_index, Hc; reflexivity|]. intros x. exact Logic.I. }
  intros ci. apply c_bind; [destruct ri; [exact Logic.I|apply c_read_index, Hd]|]. intros (id2row & row2id). apply c_bind; [apply c_read_text, Hd|]. intros t. apply (c_pure0 dirs I W (let* mat := _ in _)).
Qed.

(** ** runs of confined programs *)
Fixpoint after {A} (n : nat) (P : prog A) fs : prog A * fsys := match n with 0 => (P, fs) | S n => let (P', fs') := pstep P fs in after n P' fs' end.
(** one step of a program that is alone *)
Lemma step_alone {A} (P : prog A) fs : exists l, snd (pstep P fs) = replay fs l /\ fst (alone P fs) = l ++ fst (alone (fst (pstep P fs)) (snd (pstep P fs))) /\
  snd (alone P fs) = snd (alone (fst (pstep P fs)) (snd (pstep P fs))) /\ steps (fst (pstep P fs)) (snd (pstep P fs)) = pred (steps P fs).
Proof.
  destruct P as [a|e|X f k|f k]; cbn [pstep alone steps]; try (exists []; repeat split; reflexivity); destruct (f fs) as [x|e]; try (exists []; repeat split; reflexivity).
  exists x. repeat split; reflexivity.
Qed.
Lemma after_alone {A} n : forall (P : prog A) fs, exists l, snd (after n P fs) = replay fs l /\ fst (alone P fs) = l ++ fst (alone (fst (after n P fs)) (snd (after n P fs))) /\
  snd (alone P fs) = snd (alone (fst (after n P fs)) (snd (after n P fs))) /\ steps (fst (after n P fs)) (snd (after n P fs)) = steps P fs - n.
Proof.
  induction n as [|n IH]; intros P fs; [exists []; cbn [after fst snd]; rewrite Nat.sub_0_r; repeat split; reflexivity|].
  cbn [after]. destruct (step_alone P fs) as (l & H1 & H2 & H3 & H4). destruct (pstep P fs) as [P' fs']. cbn [fst snd] in *. destruct (IH P' fs') as (l' & K1 & K2 & K3 & K4).
  exists (l ++ l'). rewrite replay_app, <- H1. split; [exact K1|]. split; [rewrite H2, K2 at 1; rewrite app_assoc; reflexivity|]. split; [rewrite H3; exact K3|]. rewrite K4, H4. lia.
Qed.
Lemma ended_alone {A} (P : prog A) fs r : ended P = Some r -> alone P fs = ([], r).
Proof. destruct P; cbn; intros H; try discriminate; injection H as <-; reflexivity. Qed.
Lemma steps_ended {A} (P : prog A) fs : steps P fs = 0 -> exists r, ended P = Some r.
Proof. destruct P; cbn; intros H; try discriminate; eexists; reflexivity. Qed.
(** the same program on two disks *)
Lemma step_same dirs I W {A} (P : prog A) g v : confined dirs I W P -> fs_dir g = dirs -> fs_dir v = dirs -> same_on I g v ->
  fst (pstep P g) = fst (pstep P v) /\ confined dirs I W (fst (pstep P v)) /\ exists l, Forall (event_in W) l /\ snd (pstep P g) = replay g l /\ snd (pstep P v) = replay v l /\
    fst (alone P v) = l ++ fst (alone (fst (pstep P v)) (snd (pstep P v))).
Proof.
  intros H Hg Hv Hs. destruct P as [a|e|X f k|f k]; cbn [pstep alone confined] in *; try (split; [reflexivity|]; split; [exact H|]; exists []; repeat split; constructor).
  - destruct H as (H1 & H2). rewrite (H1 g v Hg Hv Hs). destruct (f v) as [x|e] eqn:Ef; cbn [fst snd]; (split; [reflexivity|]); (split; [first [exact (H2 v x Hv Ef)|exact Logic.I]|]); exists []; repeat split; constructor.
  - destruct H as (H1 & H2 & H3). rewrite (H1 g v Hg Hv Hs). destruct (f v) as [l|e] eqn:Ef; cbn [fst snd]; (split; [reflexivity|]).
    + split; [exact H3|]. exists l. split; [exact (H2 v l Hv Ef)|]. repeat split.
    + split; [exact Logic.I|]. exists []. repeat split; constructor.
Qed.
Lemma alone_events dirs I W {A} (P : prog A) : forall v, confined dirs I W P -> fs_dir v = dirs -> Forall (event_in W) (fst (alone P v)).
Proof.
  induction P as [a|e|X f k IH|f k IH]; intros v H Hv; cbn [alone confined] in *; try constructor.
  - destruct H as (H1 & H2). destruct (f v) as [x|e] eqn:Ef; [|constructor]. apply IH; [exact (H2 v x Hv Ef)|exact Hv].
  - destruct H as (H1 & H2 & H3). destruct (f v) as [l|e] eqn:Ef; [|constructor]. cbn [fst]. apply Forall_app. pose proof (H2 v l Hv Ef) as Hl. split; [exact Hl|]. apply IH; [exact H3|]. rewrite (events_dirs W) by exact Hl. exact Hv.
Qed.
Lemma alone_same dirs I W {A} (P : prog A) : forall g v, confined dirs I W P -> fs_dir g = dirs -> fs_dir v = dirs -> same_on I g v -> alone P g = alone P v.
Proof.
  induction P as [a|e|X f k IH|f k IH]; intros g v H Hg Hv Hs; cbn [alone confined] in *; try reflexivity.
  - destruct H as (H1 & H2). rewrite (H1 g v Hg Hv Hs). destruct (f v) as [x|e] eqn:Ef; [|reflexivity]. apply IH; [exact (H2 v x Hv Ef)|assumption..].
  - destruct H as (H1 & H2 & H3). rewrite (H1 g v Hg Hv Hs). destruct (f v) as [l|e] eqn:Ef; [|reflexivity]. pose proof (H2 v l Hv Ef) as Hl.
    rewrite (IH (replay g l) (replay v l)); [reflexivity|exact H3|rewrite (events_dirs W) by exact Hl; exact Hg|rewrite (events_dirs W) by exact Hl; exact Hv|apply replay_same, Hs].
Qed.
Lemma after_last {A} n : forall (P : prog A) fs, after (S n) P fs = pstep (fst (after n P fs)) (snd (after n P fs)).
Proof.
  induction n as [|n IH]; intros P fs; [cbn [after fst snd]; destruct (pstep P fs); reflexivity|]. change (after (S (S n)) P fs) with (let (P', fs') := pstep P fs in after (S n) P' fs').
  change (after (S n) P fs) with (let (P', fs') := pstep P fs in after n P' fs'). destruct (pstep P fs) as [P' fs']. apply IH.
Qed.

(** ** the schedule *)
Lemma nth_replace {A} (l : list A) : forall i k x, nth_error (replace i x l) k = if Nat.eqb i k then match nth_error l i with Some _ => Some x | None => None end else nth_error l k.
Proof.
  induction l as [|y l IH]; intros [|i] [|k] x; cbn [replace nth_error Nat.eqb]; try reflexivity; [destruct (Nat.eqb i k); reflexivity|]. apply IH.
Qed.
Record kept dirs (I W : nat -> string -> Prop) (Ps0 : list (prog unit)) fs (n : nat -> nat) (st : list (prog unit) * fsys) : Prop := {
  k_prog : forall i P, nth_error Ps0 i = Some P -> nth_error (fst st) i = Some (fst (after (n i) P fs)) /\ confined dirs (I i) (W i) (fst (after (n i) P fs)) /\
    fs_dir (snd (after (n i) P fs)) = dirs /\ same_on (I i) (snd st) (snd (after (n i) P fs));
  k_none : forall i, nth_error Ps0 i = None -> nth_error (fst st) i = None;
  k_dirs : fs_dir (snd st) = dirs;
  k_else : forall q, (forall i P, nth_error Ps0 i = Some P -> existsb (fun e => touches e q) (fst (alone P fs)) = false) -> fs_file (snd st) q = fs_file fs q }.
Section Sched.
Variables (dirs : string -> bool) (I W : nat -> string -> Prop) (Ps0 : list (prog unit)) (fs : fsys).
Hypothesis Hdirs : fs_dir fs = dirs.
Hypothesis Hconf : forall i P, nth_error Ps0 i = Some P -> confined dirs (I i) (W i) P.
Hypothesis Hapart : forall i k q, i < length Ps0 -> k < length Ps0 -> i <> k -> W i q -> ~ I k q.
Lemma kept_start : kept dirs I W Ps0 fs (fun _ => 0) (Ps0, fs).
Proof.
  constructor; cbn [fst snd after]; auto. intros i P Hi. repeat split; auto.
Qed.
Lemma kept_turn n st i : kept dirs I W Ps0 fs n st -> kept dirs I W Ps0 fs (fun k => if Nat.eqb i k then S (n k) else n k) (turn st i).
Proof.
  intros [K1 K2 K3 K4]. unfold turn. destruct (nth_error Ps0 i) as [P|] eqn:Ei.
  - destruct (K1 i P Ei) as (A1 & A2 & A3 & A4). rewrite A1. set (Q := fst (after (n i) P fs)) in *. set (v := snd (after (n i) P fs)) in *.
    destruct (step_same dirs (I i) (W i) Q (snd st) v A2 K3 A3 A4) as (B1 & B2 & l & B3 & B4 & B5 & B6). destruct (pstep Q (snd st)) as [Q' g'] eqn:Es. cbn [fst snd] in B1, B4. subst Q' g'.
    assert (Tl : forall q, existsb (fun e => touches e q) (fst (alone P fs)) = false -> existsb (fun e => touches e q) l = false).
    { intros q Hq. destruct (after_alone (n i) P fs) as (l0 & _ & C & _). fold Q v in C. rewrite C, B6, !existsb_app in Hq. apply orb_false_iff in Hq. destruct Hq as (_ & Hq). apply orb_false_iff in Hq. apply Hq. }
    constructor; cbn [fst snd].
    + intros k R Hk. rewrite nth_replace. destruct (Nat.eqb_spec i k) as [<-|Hik].
      * assert (R = P) by congruence. subst R. rewrite A1. rewrite after_last. fold Q v. split; [reflexivity|]. split; [exact B2|]. rewrite B5. split; [rewrite (events_dirs (W i)) by exact B3; exact A3|apply replay_same, A4].
      * destruct (K1 k R Hk) as (D1 & D2 & D3 & D4). split; [exact D1|]. split; [exact D2|]. split; [exact D3|]. intros q Hq. rewrite (events_else (W i)); [apply D4, Hq|exact B3|].
        intros Hw. refine (Hapart i k q _ _ Hik Hw Hq); apply nth_error_Some; congruence.
    + intros k Hk. rewrite nth_replace. destruct (Nat.eqb_spec i k) as [<-|Hik]; [congruence|]. apply K2, Hk.
    + rewrite (events_dirs (W i)) by exact B3. exact K3.
    + intros q Hq. rewrite replay_else; [apply K4, Hq|]. apply Tl. exact (Hq i P Ei).
  - rewrite (K2 i Ei). constructor; auto. intros k R Hk. destruct (Nat.eqb_spec i k) as [<-|_]; [congruence|]. apply K1, Hk.
Qed.
Lemma kept_turns sched : forall n st, kept dirs I W Ps0 fs n st -> kept dirs I W Ps0 fs (fun k => n k + count_occ Nat.eq_dec sched k) (fold_left turn sched st).
Proof.
  induction sched as [|i sched IH]; intros n st K; cbn [fold_left count_occ].
  - destruct K as [K1 K2 K3 K4]. constructor; auto. intros k P. rewrite Nat.add_0_r. apply K1.
  - specialize (IH _ _ (kept_turn n st i K)). destruct IH as [K1 K2 K3 K4]. constructor; auto. intros k P Hk. specialize (K1 k P Hk). cbv beta in K1.
    replace (n k + (if Nat.eq_dec i k then S (count_occ Nat.eq_dec sched k) else count_occ Nat.eq_dec sched k)) with ((if Nat.eqb i k then S (n k) else n k) + count_occ Nat.eq_dec sched k); [exact K1|].
    destruct (Nat.eq_dec i k) as [Hik|Hik]; [apply Nat.eqb_eq in Hik; rewrite Hik; lia|apply Nat.eqb_neq in Hik; rewrite Hik; reflexivity].
Qed.
Lemma kept_all sched : kept dirs I W Ps0 fs (count_occ Nat.eq_dec sched) (turns sched Ps0 fs).
Proof. exact (kept_turns sched _ _ kept_start). Qed.
End Sched.
End PConc2.
