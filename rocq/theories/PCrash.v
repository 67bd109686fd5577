(** PCrash.v -- lemmas about runs as sequences of effects (Crash.v): what the disk looks like after a part of them, and that
    the runs that end normally are those of Pipe.v. *)
From Coq Require Import Ascii FunctionalExtensionality.
From Verif Require Import Base PyList Dict Num Dense Sparse Matrix Scaling Linalg Operation Similarity Space Peripheral Learner Composition Utils LexFun Str PStr IO Pipe Crash SpecCrash.
Local Open Scope string_scope.
Local Open Scope list_scope.
Local Open Scope nat_scope.
Notation "'let^' x ':=' e 'in' k" := (tbind e (fun x => k))
  (at level 200, x pattern, e at level 100, k at level 200, right associativity).

Lemma sapp_nil (s : string) : (s ++ "")%string = s.
Proof. induction s as [|c s IH]; cbn; [|rewrite IH]; reflexivity. Qed.
Lemma sapp_ass (a b c : string) : ((a ++ b) ++ c)%string = (a ++ b ++ c)%string.
Proof. induction a as [|x a IH]; cbn; [|rewrite IH]; reflexivity. Qed.
Lemma ascii_app a b : list_ascii_of_string (a ++ b) = list_ascii_of_string a ++ list_ascii_of_string b.
Proof. induction a as [|c a IH]; cbn; [|rewrite IH]; reflexivity. Qed.

Section PCrash.
Context {N : Num} {E : Ext} {FI : FloatIO} {PI : PipeIO} {KI : PickleIO}.

(** ** one file *)
Definition setf (fs : fsys) (p : string) (c : content) : fsys :=
  FS (fun q => if String.eqb q p then Some c else fs_file fs q) (fs_dir fs).
Lemma setf_setf fs p a b : setf (setf fs p a) p b = setf fs p b.
Proof. unfold setf. cbn. f_equal. apply functional_extensionality. intros q. destruct (String.eqb q p); reflexivity. Qed.
Lemma setf_at fs p c : fs_file (setf fs p c) p = Some c.
Proof. cbn. rewrite String.eqb_refl. reflexivity. Qed.
Lemma setf_other fs p c q : q <> p -> fs_file (setf fs p c) q = fs_file fs q.
Proof. intros H. cbn. destruct (String.eqb_spec q p); [contradiction|reflexivity]. Qed.
Definition puts (p s : string) : list event := map (Eput p) (list_ascii_of_string s).
Lemma puts_app p a b : puts p (a ++ b) = puts p a ++ puts p b.
Proof. unfold puts. rewrite ascii_app, map_app. reflexivity. Qed.
Lemma put_setf fs p a c : effect (setf fs p (Text a)) (Eput p c) = setf fs p (Text (a ++ str1 c)).
Proof. unfold effect, setf. cbn. f_equal. apply functional_extensionality. intros q. destruct (String.eqb q p); reflexivity. Qed.
Lemma replay_app fs l k : replay fs (l ++ k) = replay (replay fs l) k.
Proof. apply fold_left_app. Qed.
Lemma replay_puts fs p s : forall a, replay (setf fs p (Text a)) (puts p s) = setf fs p (Text (a ++ s)).
Proof.
  induction s as [|c s IH]; intros a; [cbn; rewrite sapp_nil; reflexivity|].
  change (puts p (String c s)) with (Eput p c :: puts p s). unfold replay. cbn [fold_left]. rewrite put_setf. change (fold_left effect (puts p s) ?x) with (replay x (puts p s)). rewrite IH, sapp_ass. reflexivity.
Qed.
(** writing a whole file *)
Definition job (w : string * content) : list event :=
  Eopen (fst w) :: match snd w with
                   | Text s => puts (fst w) s
                   | Pickle o => puts (fst w) (dump_bytes o) ++ [Eseal (fst w) o]
                   end.
Lemma replay_open fs p l : replay fs (Eopen p :: l) = replay (setf fs p (Text "")) l.
Proof. reflexivity. Qed.
Lemma seal_setf fs p a o : effect (setf fs p (Text a)) (Eseal p o) = setf fs p (Pickle o).
Proof. exact (setf_setf fs p (Text a) (Pickle o)). Qed.
Lemma replay_job fs p c : replay fs (job (p, c)) = setf fs p c.
Proof.
  unfold job. cbn [fst snd]. rewrite replay_open. destruct c as [s|o]; [apply replay_puts|]. rewrite replay_app, replay_puts. cbn [append].
  unfold replay. cbn [fold_left]. apply seal_setf.
Qed.
Lemma firstn_puts p s m : exists a r, s = (a ++ r)%string /\ firstn m (puts p s) = puts p a.
Proof.
  revert m. induction s as [|c s IH]; intros m; [exists "", ""; split; [reflexivity|]; destruct m; reflexivity|]. destruct m as [|m]; [exists "", (String c s); split; reflexivity|].
  destruct (IH m) as (a & r & -> & H). exists (String c a), r. split; [reflexivity|]. change (puts p (String c (a ++ r))) with (Eput p c :: puts p (a ++ r)). cbn [firstn]. rewrite H. reflexivity.
Qed.
Lemma part_of_job fs w m : firstn m (job w) = [] \/ replay fs (firstn m (job w)) = setf fs (fst w) (snd w) \/
  exists s, begins s (snd w) /\ replay fs (firstn m (job w)) = setf fs (fst w) (Text s).
Proof.
  destruct w as [p c]. destruct m as [|m]; [left; reflexivity|right]. unfold job. cbn [fst snd firstn]. rewrite replay_open. destruct c as [t|o].
  - destruct (firstn_puts p t m) as (a & r & E1 & E2). right. exists a. split; [exists r; exact E1|]. rewrite E2. apply replay_puts.
  - rewrite firstn_app. destruct (firstn_puts p (dump_bytes o) m) as (a & r & E1 & E2). destruct (m - length (puts p (dump_bytes o))) as [|k] eqn:Em.
    + right. exists a. split; [exists r; exact E1|]. cbn [firstn]. rewrite app_nil_r, E2. apply replay_puts.
    + left. rewrite firstn_all2 by lia. cbn [firstn]. rewrite firstn_nil, replay_app, replay_puts. unfold replay. cbn [fold_left]. apply seal_setf.
Qed.

(** ** whole runs: the writes and the directories *)
Definition is_dir (e : event) : bool := match e with Emkdir _ => true | _ => false end.
Definition nf (l : list event) : list event := filter (fun e => negb (is_dir e)) l.
Definition made (l : list event) : list string := flat_map (fun e => match e with Emkdir p => [p] | _ => [] end) l.
Lemma nf_app a b : nf (a ++ b) = nf a ++ nf b.
Proof. apply filter_app. Qed.
Lemma made_app a b : made (a ++ b) = made a ++ made b.
Proof. apply flat_map_app. Qed.
Lemma nf_job w : nf (job w) = job w.
Proof.
  destruct w as [p c]. unfold job, nf. cbn [fst snd filter is_dir negb]. f_equal.
  assert (K : forall s, filter (fun e => negb (is_dir e)) (puts p s) = puts p s) by (intros s; unfold puts; induction (list_ascii_of_string s); cbn; congruence).
  destruct c; [apply K|]. rewrite filter_app, K. reflexivity.
Qed.
Lemma made_job w : made (job w) = [].
Proof.
  destruct w as [p c]. unfold job, made. cbn [fst snd flat_map app].
  assert (K : forall s, flat_map (fun e => match e with Emkdir p => [p] | _ => [] end) (puts p s) = []) by (intros s; unfold puts; induction (list_ascii_of_string s); cbn; congruence).
  destruct c; [apply K|]. rewrite flat_map_app, K. reflexivity.
Qed.
(** the files depend on the writes only, the directories on the directories made *)
Lemma file_nf l : forall fs fs', fs_file fs = fs_file fs' -> fs_file (replay fs l) = fs_file (replay fs' (nf l)).
Proof.
  induction l as [|e l IH]; intros fs fs' H; [exact H|]. unfold replay. cbn [fold_left nf filter]. destruct e as [p|p|p c|p o]; cbn [is_dir negb fold_left]; apply IH; cbn; rewrite ?H; reflexivity.
Qed.
Lemma dir_made l : forall fs q, fs_dir (replay fs l) q = fs_dir fs q || existsb (String.eqb q) (made l).
Proof.
  induction l as [|e l IH]; intros fs q; [cbn; rewrite orb_false_r; reflexivity|]. unfold replay. cbn [fold_left]. change (fold_left effect l ?x) with (replay x l). rewrite IH.
  destruct e as [p|p|p c|p o]; cbn; try reflexivity. destruct (String.eqb q p), (fs_dir fs q); reflexivity.
Qed.
Lemma made_firstn l n q : In q (made (firstn n l)) -> In q (made l).
Proof. intros H. rewrite <- (firstn_skipn n l), made_app. apply in_app_iff. left. exact H. Qed.
Lemma nf_firstn l n : exists m, nf (firstn n l) = firstn m (nf l).
Proof.
  exists (length (nf (firstn n l))). replace (nf l) with (nf (firstn n l ++ skipn n l)) by (rewrite firstn_skipn; reflexivity). rewrite nf_app, firstn_app, Nat.sub_diag. cbn [firstn]. rewrite app_nil_r. symmetry. apply firstn_all.
Qed.
(** what a killed run leaves at a path: the old file, the beginning of one of its writes, or one of its writes *)
Lemma jobs_part W : forall fs m q, let st := replay fs (firstn m (flat_map job W)) in
  fs_file st q = fs_file fs q \/ exists c, In (q, c) W /\ (fs_file st q = Some c \/ exists s, begins s c /\ fs_file st q = Some (Text s)).
Proof.
  induction W as [|[p c] W IH]; intros fs m q st; subst st; cbn [flat_map]; [left; rewrite firstn_nil; reflexivity|]. rewrite firstn_app, replay_app.
  destruct (m - length (job (p, c))) as [|k] eqn:Em.
  - cbn [firstn]. change (replay ?x []) with x. destruct (part_of_job fs (p, c) m) as [H|[H|(s & Hs & H)]]; rewrite H; cbn [fst snd].
    + left. reflexivity.
    + destruct (String.eqb_spec q p) as [->|Hne]; [|left; apply setf_other, Hne]. right. exists c. split; [left; reflexivity|]. left. apply setf_at.
    + destruct (String.eqb_spec q p) as [->|Hne]; [|left; apply setf_other, Hne]. right. exists c. split; [left; reflexivity|]. right. exists s. split; [exact Hs|]. apply setf_at.
  - rewrite firstn_all2 by lia. rewrite replay_job. rewrite <- Em. destruct (IH (setf fs p c) (m - length (job (p, c))) q) as [H|(c' & Hc' & H)].
    + rewrite H. destruct (String.eqb_spec q p) as [->|Hne]; [|left; apply setf_other, Hne]. right. exists c. split; [left; reflexivity|]. left. apply setf_at.
    + right. exists c'. split; [right; exact Hc'|exact H].
Qed.
(** the file after all writes *)
Definition latest (q : string) (W : list (string * content)) : option content :=
  fold_left (fun acc w => if String.eqb q (fst w) then Some (snd w) else acc) W None.
Lemma jobs_all W q : forall fs, fs_file (replay fs (flat_map job W)) q = fold_left (fun acc w => if String.eqb q (fst w) then Some (snd w) else acc) W (fs_file fs q).
Proof. induction W as [|[p c] W IH]; intros fs; [reflexivity|]. cbn [flat_map fold_left]. rewrite replay_app, replay_job, IH. reflexivity. Qed.
Lemma fold_latest q W : forall x, fold_left (fun acc (w : string * content) => if String.eqb q (fst w) then Some (snd w) else acc) W x = match latest q W with Some c => Some c | None => x end.
Proof.
  unfold latest. induction W as [|[p c] W IH]; intros x; [reflexivity|]. cbn [fold_left fst snd]. destruct (String.eqb q p).
  - rewrite (IH (Some c)). destruct (fold_left _ W None); reflexivity.
  - apply IH.
Qed.
Lemma latest_in q W c : In (q, c) W -> latest q W <> None.
Proof.
  induction W as [|[p c'] W IH]; [intros []|]. intros H. unfold latest. cbn [fold_left fst snd]. destruct (String.eqb_spec q p) as [->|Hne].
  - rewrite fold_latest. destruct (latest p W); discriminate.
  - destruct H as [H|H]; [congruence|]. apply IH, H.
Qed.

(** ** properties of runs, and how they compose *)
(** the result is the disk after the effects, and the disk is a file system all the time *)
Definition sound (fs : fsys) (t : tr fsys) : Prop :=
  (forall fs', snd t = Ok fs' -> fs' = replay fs (fst t)) /\ forall n, sane fs -> sane (replay fs (firstn n (fst t))).
(** the writes satisfy R, the new directories D *)
Definition runs {A} (R : string * content -> Prop) (D : string -> Prop) (t : tr A) : Prop :=
  exists W, nf (fst t) = flat_map job W /\ Forall R W /\ Forall D (made (fst t)).
(** runs that end normally write the same *)
Definition blind {A B} (t : tr A) (t' : tr B) : Prop := is_ok (snd t) = true -> is_ok (snd t') = true -> nf (fst t) = nf (fst t').
(** ends normally just when, and as, Pipe.v says *)
Definition same {A} (t : tr A) (r : res A) : Prop := forall x, snd t = Ok x <-> r = Ok x.

Lemma tbind_lift {A B} (r : res A) (k : A -> tr B) : tbind (lift r) k = match r with Ok a => k a | Err e => ([], Err e) end.
Proof. destruct r; [|reflexivity]. cbn. destruct (k a); reflexivity. Qed.
Lemma tbind_ok {A B} (m : tr A) (k : A -> tr B) b : snd (tbind m k) = Ok b -> exists a, snd m = Ok a /\ snd (k a) = Ok b.
Proof. destruct m as [l [a|e]]; cbn; [eauto|discriminate]. Qed.

Lemma sound_nil {A} fs (r : res A) : (forall n, sane fs -> sane (replay fs (firstn n []))).
Proof. intros n H. rewrite firstn_nil. exact H. Qed.
Lemma sound_lift fs : sound fs (lift (Ok fs)).
Proof. split; [intros fs' H; injection H as <-; reflexivity|apply (sound_nil fs (Ok tt))]. Qed.
Lemma sound_err fs e : sound fs (lift (Err e)).
Proof. split; [intros fs' H; discriminate|apply (sound_nil fs (Ok tt))]. Qed.
Lemma sound_bind fs a k : sound fs a -> (forall x, sound x (k x)) -> sound fs (tbind a k).
Proof.
  intros [Ha Sa] Hk. split.
  - intros fs' H. destruct a as [l [x|e]]; cbn [tbind fst snd] in *; [|discriminate]. rewrite replay_app. rewrite <- (Ha x eq_refl). apply Hk, H.
  - intros n H. destruct a as [l [x|e]]; cbn [tbind fst snd] in *; [|apply Sa, H]. rewrite firstn_app, replay_app. destruct (n - length l) as [|k'] eqn:En.
    + cbn [firstn]. change (replay ?y []) with y. apply Sa, H.
    + rewrite firstn_all2 by lia. rewrite <- (Ha x eq_refl). apply Hk. rewrite (Ha x eq_refl). rewrite <- (firstn_all l). apply Sa, H.
Qed.
Lemma sound_pure {A} fs (r : res A) k : (forall x, sound fs (k x)) -> sound fs (tbind (lift r) k).
Proof. intros H. rewrite tbind_lift. destruct r; [apply H|apply sound_err]. Qed.
Lemma sound_fold {A} (f : fsys -> A -> tr fsys) l : (forall fs x, sound fs (f fs x)) -> forall fs, sound fs (foldT f l fs).
Proof. intros H. induction l as [|x l IH]; intros fs; [apply sound_lift|]. cbn [foldT]. apply sound_bind; [apply H|exact IH]. Qed.

Lemma runs_lift {A} R D (r : res A) : runs R D (lift r).
Proof. exists []. repeat split; constructor. Qed.
Lemma runs_nil {A} R D (r : res A) : runs R D (([], r) : tr A).
Proof. apply runs_lift. Qed.
Lemma runs_bind {A B} R D (a : tr A) (k : A -> tr B) : runs R D a -> (forall x, snd a = Ok x -> runs R D (k x)) -> runs R D (tbind a k).
Proof.
  intros (W & H1 & H2 & H3) Hk. destruct a as [l [x|e]]; cbn [tbind fst snd] in *; [|exists W; auto]. destruct (Hk x eq_refl) as (W' & K1 & K2 & K3).
  exists (W ++ W'). unfold runs. cbn [fst]. rewrite nf_app, H1, K1, flat_map_app, made_app. split; [reflexivity|]. split; apply Forall_app; auto.
Qed.
Lemma runs_fold {A S} R D (f : S -> A -> tr S) l : (forall s x, In x l -> runs R D (f s x)) -> forall s, runs R D (foldT f l s).
Proof.
  induction l as [|x l IH]; intros H s; [apply runs_lift|]. cbn [foldT]. apply runs_bind; [apply H; left; reflexivity|]. intros s' _. apply IH. intros s'' y Hy. apply H. right. exact Hy.
Qed.
Lemma runs_weaken {A} (R R' : string * content -> Prop) (D D' : string -> Prop) (t : tr A) : (forall w, R w -> R' w) -> (forall p, D p -> D' p) -> runs R D t -> runs R' D' t.
Proof. intros H K (W & H1 & H2 & H3). exists W. split; [exact H1|]. split; eapply Forall_impl; eauto. Qed.

Lemma blind_refl_lift {A B} (r : res A) (r' : res B) : blind (lift r) (lift r').
Proof. intros _ _. reflexivity. Qed.
Lemma blind_bind {A B C C'} (a : tr A) (b : tr B) (k : A -> tr C) (k' : B -> tr C') : blind a b -> (forall x y, snd a = Ok x -> snd b = Ok y -> blind (k x) (k' y)) -> blind (tbind a k) (tbind b k').
Proof.
  intros H K. destruct a as [l [x|e]], b as [l' [y|e']]; cbn [tbind fst snd] in *; intros H1 H2; cbn in H1, H2; try discriminate. cbn [fst]. rewrite !nf_app. pose proof (H eq_refl eq_refl) as Hx. cbn [fst] in Hx. rewrite Hx. f_equal. apply (K x y eq_refl eq_refl); assumption.
Qed.
Lemma blind_fold {A S S'} (f : S -> A -> tr S) (g : S' -> A -> tr S') l : (forall s s' x, In x l -> blind (f s x) (g s' x)) -> forall s s', blind (foldT f l s) (foldT g l s').
Proof.
  induction l as [|x l IH]; intros H s s'; [apply blind_refl_lift|]. cbn [foldT]. apply blind_bind; [apply H; left; reflexivity|]. intros a b _ _. apply IH. intros; apply H; right; assumption.
Qed.
Lemma blind_pure {A C C'} (r : res A) (k : A -> tr C) (k' : A -> tr C') : (forall x, r = Ok x -> blind (k x) (k' x)) -> blind (tbind (lift r) k) (tbind (lift r) k').
Proof. intros H. apply blind_bind; [apply blind_refl_lift|]. cbn. intros x y -> K. injection K as <-. apply H. reflexivity. Qed.

Lemma same_lift {A} (r : res A) : same (lift r) r.
Proof. intros x. reflexivity. Qed.
Lemma same_bind {A B} (a : tr A) r (k : A -> tr B) k' : same a r -> (forall x, r = Ok x -> same (k x) (k' x)) -> same (tbind a k) (bind r k').
Proof.
  intros H K b. split.
  - intros Hb. apply tbind_ok in Hb. destruct Hb as (x & Hx & Hb). apply H in Hx. rewrite Hx. cbn [bind]. apply (K x Hx), Hb.
  - intros Hb. apply bind_ok in Hb. destruct Hb as (x & Hx & Hb). pose proof (proj2 (H x) Hx) as Hx'. destruct a as [l [y|e]]; cbn in *; [|discriminate]. injection Hx' as ->. apply (K x Hx), Hb.
Qed.
Lemma same_pure {A B} (r : res A) (k : A -> tr B) k' : (forall x, same (k x) (k' x)) -> same (tbind (lift r) k) (bind r k').
Proof. intros H. apply same_bind; [apply same_lift|auto]. Qed.
Lemma same_fold {A S} (f : S -> A -> tr S) f' l : (forall s x, same (f s x) (f' s x)) -> forall s, same (foldT f l s) (foldM f' l s).
Proof. intros H. induction l as [|x l IH]; intros s; [apply same_lift|]. cbn [foldT foldM]. apply same_bind; [apply H|]. intros; apply IH. Qed.
Lemma same_ok {A} (t : tr A) r : same t r -> is_ok (snd t) = is_ok r.
Proof.
  intros H. destruct (snd t) as [x|e] eqn:Es.
  - rewrite (proj1 (H x) Es). reflexivity.
  - destruct r as [x|]; [|reflexivity]. pose proof (proj2 (H x) eq_refl). congruence.
Qed.

(** ** directories *)
Lemma mkdir_effect fs p fs' : mkdir fs p = Ok fs' -> fs' = effect fs (Emkdir p).
Proof. unfold mkdir. destruct (_ || _)%bool; [discriminate|]. intros H. injection H as <-. reflexivity. Qed.
Lemma sane_mkdir fs p : is_ok (mkdir fs p) = true -> sane fs -> sane (effect fs (Emkdir p)).
Proof.
  unfold mkdir. destruct (_ || _)%bool eqn:Ec; [discriminate|]. intros _. apply orb_false_iff in Ec. destruct Ec as (Ec & Ep). apply orb_false_iff in Ec. destruct Ec as (Ee & Ex). apply negb_false_iff, orb_true_iff in Ep. intros (H1 & H2). split.
  - intros q. unfold exists_. cbn. destruct (String.eqb_spec q p) as [->|Hne].
    + intros _. destruct Ep as [Ep|Ep]; [left; apply String.eqb_eq, Ep|right; rewrite Ep; apply orb_true_r].
    + cbn [orb]. intros K. destruct (H1 q K) as [L|L]; [left; exact L|right; rewrite L; apply orb_true_r].
  - intros q. cbn. destruct (String.eqb_spec q p) as [->|Hne]; [|apply H2]. intros _. unfold exists_ in Ex. rewrite Ee in Ex. cbn [negb andb] in Ex. apply orb_false_iff in Ex. destruct Ex as (Ea & Eb). destruct (fs_file fs p); [discriminate|reflexivity].
Qed.
Lemma sound_mkdir fs p : sound fs (t_mkdir fs p).
Proof.
  unfold t_mkdir. destruct (mkdir fs p) as [fs1|e] eqn:H; [|split; [intros x; discriminate|apply (sound_nil fs (Ok tt))]]. split.
  - intros fs' K. injection K as <-. apply mkdir_effect, H.
  - intros [|n] K; cbn [fst firstn]; [exact K|]. rewrite firstn_nil. apply sane_mkdir; [rewrite H; reflexivity|exact K].
Qed.
Lemma sound_makedirs n : forall fs p, sound fs (t_makedirs n fs p).
Proof.
  induction n as [|n IH]; intros fs p; cbn [t_makedirs]; [apply sound_err|]. destruct (path_split p) as [h t]. destruct (if String.eqb t "" then path_split h else (h, t)) as [h' t']. apply sound_bind.
  - destruct (_ && _)%bool; [apply IH|apply sound_lift].
  - intros x. destruct (String.eqb t' "."); [apply sound_lift|apply sound_mkdir].
Qed.
Lemma sound_parents fs p : sound fs (t_parents fs p).
Proof. unfold t_parents. destruct (exists_ fs (dirname p)); [apply sound_lift|apply sound_makedirs]. Qed.
Lemma same_mkdir fs p : same (t_mkdir fs p) (mkdir fs p).
Proof. unfold t_mkdir. destruct (mkdir fs p); intros y; reflexivity. Qed.
Lemma same_makedirs n : forall fs p, same (t_makedirs n fs p) (makedirs n fs p).
Proof.
  induction n as [|n IH]; intros fs p; cbn [t_makedirs makedirs]; [intros x; split; discriminate|]. destruct (path_split p) as [h t]. destruct (if String.eqb t "" then path_split h else (h, t)) as [h' t']. apply same_bind.
  - destruct (_ && _)%bool; [apply IH|apply same_lift].
  - intros x _. destruct (String.eqb t' "."); [apply same_lift|apply same_mkdir].
Qed.
Lemma same_parents fs p : same (t_parents fs p) (create_parent_directories fs p).
Proof. unfold t_parents, create_parent_directories. destruct (exists_ fs (dirname p)); [apply same_lift|apply same_makedirs]. Qed.
(** a directory made is a beginning of the path *)
Lemma leads_refl p : leads p p.
Proof. exists "". rewrite sapp_nil. reflexivity. Qed.
Lemma leads_trans a b c : leads a b -> leads b c -> leads a c.
Proof. intros (r & ->) (s & ->). exists (r ++ s)%string. apply sapp_ass. Qed.
Lemma rstrip_leads p : leads (rstrip_slash p) p.
Proof.
  induction p as [|c p (r & IH)]; [exists ""; reflexivity|]. cbn [rstrip_slash]. destruct (_ && _)%bool; [exists (String c p); reflexivity|]. exists r. cbn. rewrite <- IH. reflexivity.
Qed.
Lemma path_cut_eq p : p = (fst (path_cut p) ++ snd (path_cut p))%string.
Proof.
  induction p as [|c p IH]; [reflexivity|]. cbn [path_cut]. destruct (path_cut p) as [h t]. cbn [fst snd] in IH. destruct (String.eqb_spec h "") as [->|]; cbn [negb]; [|cbn; rewrite <- IH; reflexivity].
  cbn [append] in IH. subst t. destruct (Ascii.eqb c slash); reflexivity.
Qed.
Lemma path_split_leads p : leads (fst (path_split p)) p.
Proof.
  unfold path_split. pose proof (path_cut_eq p) as H. destruct (path_cut p) as [h t]. cbn [fst snd] in *. apply (leads_trans _ h); [|exists t; exact H]. destruct (all_slashes h); [apply leads_refl|apply rstrip_leads].
Qed.
Lemma runs_mkdir R fs p : runs R (fun d => leads d p) (t_mkdir fs p).
Proof. unfold t_mkdir. destruct (mkdir fs p); [|apply runs_nil]. exists []. cbn. repeat split; repeat constructor. apply leads_refl. Qed.
Lemma runs_makedirs R n : forall fs p, runs R (fun d => leads d p) (t_makedirs n fs p).
Proof.
  induction n as [|n IH]; intros fs p; cbn [t_makedirs]; [apply runs_lift|]. pose proof (path_split_leads p) as L. destruct (path_split p) as [h t]. cbn [fst] in L.
  assert (L' : leads (fst (if String.eqb t "" then path_split h else (h, t))) p).
  { destruct (String.eqb t ""); [|exact L]. exact (leads_trans _ _ _ (path_split_leads h) L). }
  destruct (if String.eqb t "" then path_split h else (h, t)) as [h' t']. cbn [fst] in L'. apply runs_bind.
  - destruct (_ && _)%bool; [|apply runs_lift]. eapply runs_weaken; [| |apply IH]; [intros w Hw; exact Hw|]. intros d Hd. exact (leads_trans _ _ _ Hd L').
  - intros x _. destruct (String.eqb t' "."); [apply runs_lift|apply runs_mkdir].
Qed.
(** the directories made for a file lead to its directory *)
Lemma runs_parents R fs p : runs R (fun d => leads d (dirname p)) (t_parents fs p).
Proof. unfold t_parents. destruct (exists_ fs (dirname p)); [apply runs_lift|]. apply runs_makedirs. Qed.
Lemma nf_parents fs p : nf (fst (t_parents fs p)) = [].
Proof.
  destruct (runs_parents (fun _ => False) fs p) as (W & H & HR & _). rewrite H. destruct HR; [reflexivity|contradiction].
Qed.
Lemma blind_parents fs fs' p p' : blind (t_parents fs p) (t_parents fs' p').
Proof. intros _ _. rewrite !nf_parents. reflexivity. Qed.

(** ** files *)
Lemma write_file_eq fs p c : write_file fs p c = match write_file fs p (Text "") with Ok _ => Ok (setf fs p c) | Err e => Err e end.
Proof. unfold write_file. destruct (_ || _)%bool; reflexivity. Qed.
Lemma t_open_eq fs p : t_open fs p = match write_file fs p (Text "") with Ok _ => ([Eopen p], Ok (setf fs p (Text ""))) | Err e => ([], Err e) end.
Proof. unfold t_open. rewrite (write_file_eq fs p (Text "")). destruct (write_file fs p (Text "")); reflexivity. Qed.
Fixpoint scan_text {A S} (g : S -> A -> res (S * string)) (l : list A) (st : S) : string * res unit :=
  match l with
  | [] => ("", Ok tt)
  | x :: l => match g st x with
              | Err e => ("", Err e)
              | Ok (st, s) => let (t, r) := scan_text g l st in ((s ++ t)%string, r)
              end
  end.
Lemma t_scan_eq {A S} p (g : S -> A -> res (S * string)) l : forall st fs a,
  t_scan p g l st (setf fs p (Text a)) =
  (puts p (fst (scan_text g l st)), match snd (scan_text g l st) with Ok _ => Ok (setf fs p (Text (a ++ fst (scan_text g l st)))) | Err e => Err e end).
Proof.
  induction l as [|x l IH]; intros st fs a; cbn [t_scan scan_text]; [cbn; rewrite sapp_nil; reflexivity|]. rewrite tbind_lift. destruct (g st x) as [[st' s]|e]; [|reflexivity].
  unfold t_put. fold (puts p s). cbn [tbind fst snd]. rewrite replay_puts, IH. destruct (scan_text g l st') as [t r]. cbn [fst snd]. rewrite puts_app, sapp_ass. reflexivity.
Qed.
Lemma t_write_eq {A S} fs p (g : S -> A -> res (S * string)) l st :
  t_write fs p g l st = match write_file fs p (Text "") with
                        | Err e => ([], Err e)
                        | Ok _ => (job (p, Text (fst (scan_text g l st))),
                                   match snd (scan_text g l st) with Ok _ => Ok (setf fs p (Text (fst (scan_text g l st)))) | Err e => Err e end)
                        end.
Proof. unfold t_write. rewrite t_open_eq. destruct (write_file fs p (Text "")); [|reflexivity]. cbn [tbind]. rewrite t_scan_eq. reflexivity. Qed.
Lemma t_dump_eq fs p o : t_dump fs p o = match write_file fs p (Text "") with Err e => ([], Err e) | Ok _ => (job (p, Pickle o), Ok (setf fs p (Pickle o))) end.
Proof.
  unfold t_dump. rewrite t_open_eq. destruct (write_file fs p (Text "")); [|reflexivity]. unfold t_put. fold (puts p (dump_bytes o)). cbn [tbind fst snd]. rewrite replay_puts, seal_setf. reflexivity.
Qed.
Lemma sane_setf fs p c c' : is_ok (write_file fs p c') = true -> sane fs -> sane (setf fs p c).
Proof.
  unfold write_file. destruct (_ || _)%bool eqn:Ec; [discriminate|]. intros _. apply orb_false_iff in Ec. destruct Ec as (Ec & Ep). apply orb_false_iff in Ec. destruct Ec as (_ & Ex). apply negb_false_iff, orb_true_iff in Ep. intros (H1 & H2). split.
  - intros q. unfold exists_. cbn. destruct (String.eqb_spec q p) as [->|Hne].
    + intros _. destruct Ep as [Ep|Ep]; [left; apply String.eqb_eq, Ep|right; exact Ep].
    + apply H1.
  - intros q. cbn. destruct (String.eqb_spec q p) as [->|Hne]; [congruence|apply H2].
Qed.
Lemma sound_job fs w : is_ok (write_file fs (fst w) (Text "")) = true -> forall r, (forall fs', r = Ok fs' -> fs' = setf fs (fst w) (snd w)) -> sound fs (job w, r).
Proof.
  intros Hw r Hr. split.
  - intros fs' H. cbn [snd] in H. destruct w as [p c]. cbn [fst snd] in *. rewrite replay_job. apply Hr, H.
  - intros n H. cbn [fst]. destruct (part_of_job fs w n) as [K|[K|(s & _ & K)]]; rewrite K; [exact H| |]; eapply sane_setf; eassumption.
Qed.
Lemma sound_write {A S} fs p (g : S -> A -> res (S * string)) l st : sound fs (t_write fs p g l st).
Proof.
  rewrite t_write_eq. destruct (write_file fs p (Text "")) eqn:Ew; [|apply (sound_err fs)]. apply sound_job; cbn [fst snd]; [rewrite Ew; reflexivity|]. intros fs'. destruct (snd (scan_text g l st)); [|discriminate]. intros H. injection H as <-. reflexivity.
Qed.
Lemma sound_dump fs p o : sound fs (t_dump fs p o).
Proof. rewrite t_dump_eq. destruct (write_file fs p (Text "")) eqn:Ew; [|apply (sound_err fs)]. apply sound_job; cbn [fst snd]; [rewrite Ew; reflexivity|]. intros fs' H. injection H as <-. reflexivity. Qed.
Lemma sound_open fs p : sound fs (t_open fs p).
Proof. rewrite t_open_eq. destruct (write_file fs p (Text "")) eqn:Ew; [|apply (sound_err fs)]. apply (sound_job fs (p, Text "")); cbn [fst snd]; [rewrite Ew; reflexivity|]. intros fs' H. injection H as <-. reflexivity. Qed.
Lemma runs_job {A} (R : string * content -> Prop) D w (r : res A) : R w -> runs R D ((job w, r) : tr A).
Proof. intros H. exists [w]. cbn [fst flat_map]. rewrite nf_job, made_job, app_nil_r. repeat split; repeat constructor. exact H. Qed.
Lemma runs_write {A S} (R : string * content -> Prop) D fs p (g : S -> A -> res (S * string)) l st : R (p, Text (fst (scan_text g l st))) -> runs R D (t_write fs p g l st).
Proof. intros H. rewrite t_write_eq. destruct (write_file fs p (Text "")); [|apply runs_nil]. apply runs_job, H. Qed.
Lemma runs_dump (R : string * content -> Prop) D fs p o : R (p, Pickle o) -> runs R D (t_dump fs p o).
Proof. intros H. rewrite t_dump_eq. destruct (write_file fs p (Text "")); [|apply runs_nil]. apply runs_job, H. Qed.
Lemma runs_open (R : string * content -> Prop) D fs p : R (p, Text "") -> runs R D (t_open fs p).
Proof. intros H. rewrite t_open_eq. destruct (write_file fs p (Text "")); [|apply runs_nil]. exact (runs_job R D (p, Text "") _ H). Qed.
Lemma blind_write {A S} fs fs' p (g : S -> A -> res (S * string)) l st : blind (t_write fs p g l st) (t_write fs' p g l st).
Proof. rewrite !t_write_eq. destruct (write_file fs p (Text "")), (write_file fs' p (Text "")); intros H K; try discriminate. reflexivity. Qed.
Lemma blind_dump fs fs' p o : blind (t_dump fs p o) (t_dump fs' p o).
Proof. rewrite !t_dump_eq. destruct (write_file fs p (Text "")), (write_file fs' p (Text "")); intros H K; try discriminate. reflexivity. Qed.
(** the text computed first and then written, as in IO.v and Pipe.v *)
Definition text_is {A S} (g : S -> A -> res (S * string)) (l : list A) (st : S) (r : res string) : Prop :=
  forall t, scan_text g l st = (t, Ok tt) <-> r = Ok t.
Lemma same_write {A S} fs p (g : S -> A -> res (S * string)) l st r : text_is g l st r -> same (t_write fs p g l st) (let* t := r in write_file fs p (Text t)).
Proof.
  intros H fs'. rewrite t_write_eq. split.
  - destruct (write_file fs p (Text "")) as [x|] eqn:Ew; [|discriminate]. cbn [snd]. destruct (scan_text g l st) as [t [[]|e]] eqn:Es; [|discriminate]. cbn [fst snd]. intros K. injection K as <-.
    rewrite (proj1 (H t) Es). cbn [bind]. rewrite write_file_eq, Ew. reflexivity.
  - intros K. apply bind_ok in K. destruct K as (t & Ht & K). rewrite write_file_eq in K. destruct (write_file fs p (Text "")) as [x|]; [|discriminate]. injection K as <-. apply H in Ht. rewrite Ht. reflexivity.
Qed.
Lemma same_dump fs p o : same (t_dump fs p o) (write_file fs p (Pickle o)).
Proof. rewrite t_dump_eq, (write_file_eq fs p (Pickle o)). destruct (write_file fs p (Text "")); intros x; reflexivity. Qed.
Lemma same_open fs p : same (t_open fs p) (write_file fs p (Text "")).
Proof. unfold t_open. destruct (write_file fs p (Text "")); intros x; reflexivity. Qed.
End PCrash.
