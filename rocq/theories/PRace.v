(** PRace.v -- programs that make their output directory while others do the same. *)
From Coq Require Import Ascii FunctionalExtensionality.
From Verif Require Import Base PyList Dict Num Dense Sparse Matrix Scaling Linalg Operation Similarity Space Peripheral Learner Composition Utils LexFun Str PStr IO Pipe Crash SpecCrash PCrash PCrash2 Conc PConc PConc2.
Local Open Scope string_scope.
Local Open Scope list_scope.
Local Open Scope nat_scope.

Section PRace.
Context {N : Num} {E : Ext} {FI : FloatIO} {PI : PipeIO} {KI : PickleIO}.
Lemma bind_assoc {A B C} (m : prog A) (k : A -> prog B) (h : B -> prog C) : pbind (pbind m k) h = pbind m (fun a => pbind (k a) h).
Proof.
  induction m as [a|e|X f c IH|f c IH]; cbn [pbind]; try reflexivity; [f_equal; apply functional_extensionality; intros x; apply IH|f_equal; exact IH].
Qed.
Lemma bind_ret {A} (m : prog A) : pbind m Ret = m.
Proof. induction m as [a|e|X f c IH|f c IH]; cbn [pbind]; try reflexivity; [f_equal; apply functional_extensionality; intros x; apply IH|f_equal; exact IH]. Qed.

Section Dir.
Implicit Types (I W : string -> Prop).
(** the directory, its parent, and the directories before; the files a program may look at and change *)
Variables (d h : string) (dirs0 : string -> bool).
Definition dirs1 (q : string) : bool := String.eqb q d || dirs0 q.
Hypothesis Hd : dirs0 d = false.
Hypothesis Hne : d <> "".
Hypothesis Hsplit : exists t, path_split d = (h, t) /\ t <> "" /\ t <> ".".
Hypothesis Hparent : h = "" \/ dirs0 h = true.
Definition okd (g : fsys) : Prop := (fs_dir g = dirs0 \/ fs_dir g = dirs1) /\ fs_file g d = None.
Definition steady2 (I : string -> Prop) {X} (f : fsys -> X) : Prop := forall a b, okd a -> okd b -> same_on I a b -> f a = f b.
(** a program that looks at the disk until it has the directory made, and is confined afterwards *)
Inductive early (I W : string -> Prop) {A} : prog A -> Prop :=
| e_ret : forall a, early I W (Ret a)
| e_raise : forall e, early I W (Raise e)
| e_look : forall X (f : fsys -> res X) k, steady2 I f -> (forall a x, okd a -> f a = Ok x -> early I W (k x)) -> early I W (Look f k)
| e_parents : forall p k, dirname p = d -> confined dirs1 I W k -> early I W (pbind (p_parents p) (fun _ => k)).
Definition both (I W : string -> Prop) {A} (P : prog A) : Prop := early I W P /\ confined dirs1 I W P.
Lemma early_bind I W {A B} (m : prog A) (k : A -> prog B) : early I W m -> (forall a, both I W (k a)) -> early I W (pbind m k).
Proof.
  intros H K. induction H as [a|e|X f c Hf Hc IH|p c Hp Hc]; cbn [pbind].
  - apply K.
  - constructor.
  - apply e_look; [exact Hf|exact IH].
  - rewrite bind_assoc. apply e_parents; [exact Hp|]. apply c_bind; [exact Hc|]. intros a. apply K.
Qed.
Lemma b_bind I W {A B} (m : prog A) (k : A -> prog B) : both I W m -> (forall a, both I W (k a)) -> both I W (pbind m k).
Proof. intros (H1 & H2) K. split; [apply early_bind; assumption|]. apply c_bind; [exact H2|]. intros a. apply K. Qed.
Lemma b_pure I W {A B} (r : res A) (k : A -> prog B) : (forall a, r = Ok a -> both I W (k a)) -> both I W (pbind (pure r) k).
Proof. intros K. destruct r as [a|e]; [apply K; reflexivity|]. split; [apply e_raise|exact Logic.I]. Qed.
Lemma b_ret I W {A} (a : A) : both I W (Ret a).
Proof. split; [constructor|exact Logic.I]. Qed.
Lemma b_raise I W {A} e : both I W (@Raise _ A e).
Proof. split; [constructor|exact Logic.I]. Qed.
Lemma b_pure0 I W {A} (r : res A) : both I W (pure r).
Proof. destruct r; [apply b_ret|apply b_raise]. Qed.
Lemma b_fold I W {A} (f : A -> prog unit) l : (forall x, In x l -> both I W (f x)) -> both I W (p_fold f l).
Proof. induction l as [|x l IH]; intros H; [apply b_ret|]. cbn [p_fold]. apply b_bind; [apply H; left; reflexivity|]. intros _. apply IH. intros y Hy. apply H. right. exact Hy. Qed.
Lemma d1 : dirs1 d = true.
Proof. unfold dirs1. rewrite String.eqb_refl. reflexivity. Qed.
Lemma b_parents I W {A} p (k : prog A) : dirname p = d -> confined dirs1 I W k -> both I W (pbind (p_parents p) (fun _ => k)).
Proof. intros H K. split; [apply e_parents; assumption|]. apply c_bind; [|intros _; exact K]. apply c_parents; rewrite H; [exact Hne|exact d1]. Qed.
Lemma b_save I W o p : W p -> dirname p = d -> both I W (p_save o p).
Proof. intros H K. apply b_parents; [exact K|]. apply c_dump, H. Qed.
Lemma hd1 p : dirname p = d -> has_dir dirs1 p.
Proof. intros H. unfold has_dir. rewrite H. split; [exact Hne|exact d1]. Qed.
Lemma b_export I W s p f : (forall ext, In ext [".dm"; ".sm"; ".rows"; ".cols"] -> W (p ++ ext)%string) -> dirname p = d -> both I W (p_export s p f).
Proof.
  intros H K. split; [|apply c_export; [exact H|apply hd1, K]]. unfold p_export. apply e_parents; [exact K|]. apply c_bind.
  - destruct f as [f|]; [|exact Logic.I]. destruct (String.eqb f "dm"); [apply c_write, H; cbn; auto|]. destruct (String.eqb f "sm"); [apply c_print_sparse, H; cbn; auto|exact Logic.I].
  - intros _. unfold p_export_row_column. apply c_bind; [destruct (s_col2id s); [exact Logic.I|apply c_write, H; cbn; auto]|]. intros _. apply c_write, H. cbn. auto.
Qed.
Lemma b_save_export I W s out fmt : (forall ext, In ext [".pkl"; ".dm"; ".sm"; ".rows"; ".cols"] -> W (out ++ ext)%string) -> dirname out = d -> both I W (p_save_export s out fmt).
Proof.
  intros H K. unfold p_save_export. apply b_bind.
  - apply b_save; [apply H; left; reflexivity|]. rewrite dirname_app; [exact K|]. apply no_slash_ext. left. reflexivity.
  - intros _. destruct fmt as [f|]; [|apply b_ret]. apply b_export; [|exact K]. intros ext He. apply H. right. exact He.
Qed.
(** *** reading *)
Lemma b_file I W {A} p (f : fsys -> res A) : I p -> (forall a b, fs_file a p = fs_file b p -> f a = f b) -> both I W (look f).
Proof. intros Hp H. split; [apply e_look; [|intros; constructor]|apply c_look]; [intros a b _ _ Hab|intros a b _ _ Hab]; apply H, Hab, Hp. Qed.
Lemma b_read_text I W p : I p -> both I W (p_read_text p).
Proof. intros H. apply (b_file I W p); [exact H|]. intros a b Hab. unfold read_text. rewrite Hab. reflexivity. Qed.
Lemma b_load_space I W p : I p -> both I W (p_load_space p).
Proof. intros H. apply (b_file I W p); [exact H|]. intros a b Hab. unfold load_space. rewrite Hab. reflexivity. Qed.
Lemma b_load_model I W p : I p -> both I W (p_load_model p).
Proof. intros H. apply (b_file I W p); [exact H|]. intros a b Hab. unfold load_model. rewrite Hab. reflexivity. Qed.
Lemma b_load_second I W files : (forall f, In f files -> I f) -> both I W (p_load_second files).
Proof. intros H. destruct files as [|f [|g [|]]]; try apply b_ret. apply b_bind; [apply b_load_space, H; cbn; auto|]. intros s. apply b_ret. Qed.
Lemma b_read_tuples I W p : I p -> both I W (p_read_tuples p).
Proof. intros H. apply b_bind; [apply b_read_text, H|]. intros t. apply b_pure0. Qed.
Lemma ok_dir g p : okd g -> p <> d -> fs_dir g p = dirs0 p.
Proof. intros ([-> | ->] & _) Hp; [reflexivity|]. unfold dirs1. destruct (String.eqb_spec p d); [contradiction|reflexivity]. Qed.
Lemma b_exists I W p : I p -> p <> d -> both I W (p_exists p).
Proof.
  intros H Hp. split; [apply e_look; [|intros; constructor]|apply c_exists, H]. intros a b Ha Hb Hab. unfold exists_. rewrite (ok_dir a p Ha Hp), (ok_dir b p Hb Hp), (Hab p H). reflexivity.
Qed.
Lemma b_read_index I W p : I p -> both I W (p_read_index p).
Proof. intros H. apply b_bind; [apply b_read_text, H|]. intros t. apply b_pure0. Qed.
Lemma b_build I W data fmt rows cols : I data -> (forall p, rows = Some p -> I p) -> (forall p, cols = Some p -> I p) -> both I W (p_build data fmt rows cols).
Proof.
  intros Hda Hr Hc. unfold p_build. apply b_pure. intros _ _. apply b_bind.
  { destruct rows as [p|]; [|apply b_ret]. apply b_bind; [apply b_read_index, Hr; reflexivity|]. intros x. apply b_ret. }
  intros ri. apply b_bind.
  { destruct cols as [p|]; [|destruct (String.eqb fmt "sm"); [apply b_raise|apply b_ret]]. apply b_bind; [apply b_read_index, Hc; reflexivity|]. intros x. apply b_ret. }
  intros ci. apply b_bind; [destruct ri; [apply b_ret|apply b_read_index, Hda]|]. intros (id2row & row2id). apply b_bind; [apply b_read_text, Hda|]. intros t. apply (b_pure0 I W (let* mat := _ in _)).
Qed.

(** ** the steps of making the directory *)
Definition asking (n : nat) : prog unit := Look (fun fs => Ok (exists_ fs h)) (fun b : bool => pbind (if b then Ret tt else p_makedirs n h) (fun _ => p_mkdir d)).
Lemma makedirs_eq n : p_makedirs (S n) d = if String.eqb h "" then p_mkdir d else asking n.
Proof.
  destruct Hsplit as (t & Hs & T1 & T2). cbn [p_makedirs]. rewrite Hs. rewrite (proj2 (String.eqb_neq t "") T1), (proj2 (String.eqb_neq t "") T1), (proj2 (String.eqb_neq t ".") T2).
  destruct (String.eqb h ""); reflexivity.
Qed.
Lemma exists_d g : okd g -> exists_ g d = fs_dir g d.
Proof. intros (_ & H). unfold exists_. rewrite H. destruct (String.eqb_spec d ""); [contradiction|]. cbn. apply orb_false_r. Qed.
Lemma exists_h g : okd g -> h <> "" -> exists_ g h = true.
Proof.
  intros Hg Hh. destruct Hparent as [?|Hp]; [contradiction|]. unfold exists_. destruct (String.eqb_spec h ""); [contradiction|]. cbn.
  assert (fs_dir g h = true) as -> by (destruct Hg as ([-> | ->] & _); [exact Hp|unfold dirs1; rewrite Hp; apply orb_true_r]). reflexivity.
Qed.
Lemma mkdir_d g : okd g -> mkdir g d = if fs_dir g d then Err OSError else Ok (FS (fs_file g) dirs1).
Proof.
  intros Hg. unfold mkdir. rewrite (exists_d g Hg). destruct (String.eqb_spec d ""); [contradiction|]. cbn [orb]. destruct (fs_dir g d) eqn:Eg; cbn [orb]; [reflexivity|].
  destruct Hsplit as (t & Hs & _). unfold dirname. rewrite Hs. cbn [fst].
  assert (fs_dir g = dirs0) as E0 by (destruct Hg as ([?|E1] & _); [assumption|rewrite E1, d1 in Eg; discriminate]).
  assert (String.eqb h "" || fs_dir g h = true)%bool as ->. { destruct Hparent as [-> |Hp]; [reflexivity|]. rewrite E0, Hp. apply orb_true_r. }
  cbn [negb]. rewrite E0. reflexivity.
Qed.

(** ** one program on the shared disk, and the same program on the disk [fs1] that has the directory and nobody else *)
Section Sim.
Variables (I W : string -> Prop) (P : prog unit) (fs1 : fsys).
Hypothesis H1 : fs_dir fs1 = dirs1.
Hypothesis H2 : fs_file fs1 d = None.
Let steps1 := steps P fs1.
Inductive rel (g : fsys) (Pg : prog unit) (c : nat) : Prop :=
| rl_early : forall m, Pg = fst (after m P fs1) -> snd (after m P fs1) = fs1 -> early I W Pg -> c <= 4 * m -> same_on I g fs1 -> rel g Pg c
| rl_making : forall m M k, Pg = pbind M (fun _ => k) -> k = fst (after m P fs1) -> snd (after m P fs1) = fs1 -> confined dirs1 I W k -> m <= steps1 ->
    (M = p_mkdir d /\ c + 2 <= 4 * m \/ (exists n, M = asking n) /\ h <> "" /\ c + 3 <= 4 * m) -> same_on I g fs1 -> rel g Pg c
| rl_late : forall m, Pg = fst (after m P fs1) -> fs_dir (snd (after m P fs1)) = dirs1 -> confined dirs1 I W Pg -> fs_dir g = dirs1 -> c <= 4 * m -> same_on I g (snd (after m P fs1)) -> rel g Pg c
| rl_lost : Pg = Raise OSError -> fs_dir g = dirs1 -> same_on I g fs1 -> rel g Pg c.
(** what the other programs do *)
Lemma rel_other g g' Pg c : rel g Pg c -> same_on I g' g -> (fs_dir g = dirs1 -> fs_dir g' = dirs1) -> rel g' Pg c.
Proof.
  intros R S D. destruct R as [m R1 R2 R3 R4 R5|m M k R1 R2 R3 R4 R5 R6 R7|m R1 R2 R3 R4 R5 R6|R1 R2 R3].
  - eapply rl_early; eauto using same_trans.
  - eapply rl_making; eauto using same_trans.
  - eapply rl_late; eauto using same_trans.
  - eapply rl_lost; eauto using same_trans.
Qed.
(** the effects of a step of its own: on its files, or the directory is made, and then the program is past that *)
Definition past (g : fsys) (Pg : prog unit) : Prop := exists m, Pg = fst (after m P fs1) /\ fs_dir (snd (after m P fs1)) = dirs1 /\ confined dirs1 I W Pg /\ same_on I g (snd (after m P fs1)).
Lemma same_files I0 (a : fsys) l x : same_on I0 (FS (fs_file a) l) x <-> same_on I0 a x.
Proof. split; intros H q Hq; exact (H q Hq). Qed.
Lemma rel_step g Pg c : okd g -> rel g Pg c -> rel (snd (pstep Pg g)) (fst (pstep Pg g)) (S c) /\
  ((exists l, snd (pstep Pg g) = replay g l /\ Forall (event_in W) l /\ forall q, existsb (fun e => touches e q) l = true -> existsb (fun e => touches e q) (fst (alone P fs1)) = true) \/
   (fs_dir g = dirs0 /\ snd (pstep Pg g) = FS (fs_file g) dirs1 /\ past (snd (pstep Pg g)) (fst (pstep Pg g)))).
Proof.
  intros Hg R. destruct R as [m R1 R2 R3 R4 R5|m M k R1 R2 R3 R4 R5 R6 R7|m R1 R2 R3 R4 R5 R6|R1 R2 R3].
  - (* early *)
    pose proof (after_last m P fs1) as AL. rewrite <- R1, R2 in AL. destruct R3 as [a|e|X f k Hf Hk|p k Hp Hk].
    + cbn [pstep fst snd] in *. split; [apply (rl_early _ _ _ (S m)); [rewrite AL; reflexivity|rewrite AL; reflexivity|constructor|lia|exact R5]|]. left. exists []. repeat split; [constructor|discriminate].
    + cbn [pstep fst snd] in *. split; [apply (rl_early _ _ _ (S m)); [rewrite AL; reflexivity|rewrite AL; reflexivity|constructor|lia|exact R5]|]. left. exists []. repeat split; [constructor|discriminate].
    + assert (O1 : okd fs1) by (split; [right; exact H1|exact H2]). cbn [pstep] in *. rewrite (Hf g fs1 Hg O1 R5) in *. destruct (f fs1) as [x|e] eqn:Ef; cbn [fst snd] in *.
      * split; [apply (rl_early _ _ _ (S m)); [rewrite AL; reflexivity|rewrite AL; reflexivity|exact (Hk fs1 x O1 Ef)|lia|exact R5]|]. left. exists []. repeat split; [constructor|discriminate].
      * split; [apply (rl_early _ _ _ (S m)); [rewrite AL; reflexivity|rewrite AL; reflexivity|constructor|lia|exact R5]|]. left. exists []. repeat split; [constructor|discriminate].
    + assert (O1 : okd fs1) by (split; [right; exact H1|exact H2]). destruct (after_alone m P fs1) as (_ & _ & _ & _ & St). rewrite <- R1, R2 in St. fold steps1 in St. unfold p_parents, p_exists, look in *. cbv zeta in *. rewrite Hp in *. cbn [pbind pstep steps] in *.
      rewrite (exists_d fs1 O1), H1, d1 in AL. rewrite (exists_d g Hg). cbn [pbind fst snd] in *.
      destruct (fs_dir g d) eqn:Eg; cbn [pbind].
      * assert (D1 : fs_dir g = dirs1) by (destruct Hg as ([E0|E1] & _); [rewrite E0, Hd in Eg; discriminate|exact E1]).
        split; [apply (rl_late _ _ _ (S m)); rewrite ?AL; cbn [fst snd]; [reflexivity|exact H1|exact Hk|exact D1|lia|exact R5]|]. left. exists []. repeat split; [constructor|discriminate].
      * split; [|left; exists []; repeat split; [constructor|discriminate]]. apply (rl_making _ _ _ (S m) (p_makedirs (S (String.length d)) d) k); rewrite ?AL; cbn [fst snd]; [reflexivity|reflexivity|reflexivity|exact Hk|lia| |exact R5].
        rewrite makedirs_eq. destruct (String.eqb_spec h "") as [Hh|Hh]; [left; split; [reflexivity|lia]|right; split; [exists (String.length d); reflexivity|split; [exact Hh|lia]]].
  - (* making the directory *)
    destruct R6 as [(-> & Hc)|((n & ->) & Hh & Hc)]; subst Pg.
    + unfold p_mkdir, act. cbn [pbind pstep]. rewrite (mkdir_d g Hg). destruct (fs_dir g d) eqn:Eg; cbn [bind fst snd].
      * assert (D1 : fs_dir g = dirs1) by (destruct Hg as ([E0|E1] & _); [rewrite E0, Hd in Eg; discriminate|exact E1]).
        split; [apply rl_lost; [reflexivity|exact D1|exact R7]|]. left. exists []. repeat split; [constructor|discriminate].
      * assert (D0 : fs_dir g = dirs0) by (destruct Hg as ([E0|E1] & _); [exact E0|rewrite E1, d1 in Eg; discriminate]).
        assert (Er : replay g [Emkdir d] = FS (fs_file g) dirs1) by (unfold replay; cbn [fold_left effect]; rewrite D0; reflexivity). rewrite Er.
        split; [apply (rl_late _ _ _ m); [exact R2|rewrite R3; exact H1|exact R4|reflexivity|lia|rewrite R3; exact R7]|]. right. split; [exact D0|]. split; [reflexivity|].
        exists m. split; [exact R2|]. split; [rewrite R3; exact H1|]. split; [exact R4|rewrite R3; exact R7].
    + unfold asking. cbn [pbind pstep]. rewrite (exists_h g Hg Hh). cbn [pbind fst snd]. split; [|left; exists []; repeat split; [constructor|discriminate]].
      apply (rl_making _ _ _ m (p_mkdir d) k); [reflexivity|exact R2|exact R3|exact R4|exact R5|left; split; [reflexivity|lia]|exact R7].
  - (* after that *)
    subst Pg. set (Q := fst (after m P fs1)) in *. set (v := snd (after m P fs1)) in *. destruct (step_same dirs1 I W Q g v R3 R4 R2 R6) as (B1 & B2 & l & B3 & B4 & B5 & B6).
    pose proof (after_last m P fs1) as AL. fold Q v in AL. split.
    + apply (rl_late _ _ _ (S m)); rewrite ?AL; [exact B1|rewrite B5, (events_dirs W) by exact B3; exact R2|rewrite B1; exact B2|rewrite B4, (events_dirs W) by exact B3; exact R4|lia|rewrite B4, B5; apply replay_same, R6].
    + left. exists l. split; [exact B4|]. split; [exact B3|]. intros q Hq. destruct (after_alone m P fs1) as (l0 & _ & C & _). fold Q v in C. rewrite C, B6, !existsb_app, Hq. cbn [orb]. rewrite orb_true_r. reflexivity.
  - subst Pg. cbn [pstep fst snd]. split; [apply rl_lost; [reflexivity|exact R2|exact R3]|]. left. exists []. repeat split; [constructor|discriminate].
Qed.
(** the end of the program *)
Lemma rel_end g Pg c r : rel g Pg c -> ended Pg = Some r -> (r = snd (alone P fs1) /\ same_on I g (replay fs1 (fst (alone P fs1)))) \/ (r = Err OSError /\ fs_dir g = dirs1 /\ same_on I g fs1).
Proof.
  intros R He. destruct R as [m R1 R2 R3 R4 R5|m M k R1 R2 R3 R4 R5 R6 R7|m R1 R2 R3 R4 R5 R6|R1 R2 R3].
  - left. destruct (after_alone m P fs1) as (l & B1 & B2 & B3 & _). rewrite <- R1, R2, (ended_alone _ _ _ He) in B2, B3. cbn [fst snd] in B2, B3. rewrite app_nil_r in B2. split; [symmetry; exact B3|]. rewrite B2, <- B1, R2. exact R5.
  - destruct R6 as [(-> & _)|((n & ->) & _)]; subst Pg; discriminate.
  - left. destruct (after_alone m P fs1) as (l & B1 & B2 & B3 & _). rewrite <- R1, (ended_alone _ _ _ He) in B2, B3. cbn [fst snd] in B2, B3. rewrite app_nil_r in B2. split; [symmetry; exact B3|]. rewrite B2, <- B1. exact R6.
  - right. subst Pg. cbn in He. split; [congruence|]. split; assumption.
Qed.
Lemma rel_ends g Pg c : rel g Pg c -> 4 * steps1 < c -> exists r, ended Pg = Some r.
Proof.
  intros R Hc. destruct R as [m R1 R2 R3 R4 R5|m M k R1 R2 R3 R4 R5 R6 R7|m R1 R2 R3 R4 R5 R6|R1 R2 R3].
  - destruct (after_alone m P fs1) as (_ & _ & _ & _ & B). rewrite <- R1 in B. fold steps1 in B. apply (steps_ended Pg (snd (after m P fs1))). lia.
  - exfalso. destruct R6 as [(_ & K)|(_ & _ & K)]; lia.
  - destruct (after_alone m P fs1) as (_ & _ & _ & _ & B). rewrite <- R1 in B. fold steps1 in B. apply (steps_ended Pg (snd (after m P fs1))). lia.
  - subst Pg. eexists. reflexivity.
Qed.
(** a program past the directory stays so *)
Lemma past_step g Pg : fs_dir g = dirs1 -> past g Pg -> past (snd (pstep Pg g)) (fst (pstep Pg g)).
Proof.
  intros Hg (m & P1 & P2 & P3 & P4). subst Pg. set (Q := fst (after m P fs1)) in *. set (v := snd (after m P fs1)) in *. destruct (step_same dirs1 I W Q g v P3 Hg P2 P4) as (B1 & B2 & l & B3 & B4 & B5 & B6).
  pose proof (after_last m P fs1) as AL. fold Q v in AL. exists (S m). rewrite AL. split; [exact B1|]. split; [rewrite B5, (events_dirs W) by exact B3; exact P2|]. split; [rewrite B1; exact B2|]. rewrite B4, B5. apply replay_same, P4.
Qed.
Lemma past_end g Pg r : past g Pg -> ended Pg = Some r -> r = snd (alone P fs1).
Proof.
  intros (m & P1 & _) He. destruct (after_alone m P fs1) as (l & B1 & B2 & B3 & _). rewrite <- P1, (ended_alone _ _ _ He) in B3. symmetry. exact B3.
Qed.
End Sim.
End Dir.
End PRace.
