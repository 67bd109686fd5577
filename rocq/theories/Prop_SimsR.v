(** Prop_SimsR.v -- C57 and C64 over the reals: the values written, and cases that succeed or fail. *)
From Coq Require Import Reals Lra Ascii.
From Verif Require Import Base PyList Dict Num SpecReal Dense Sparse Matrix Scaling Linalg Operation Similarity Space Peripheral SpecSpace PSpace Prop_Space Prop_Sim Prop_Neigh
  Learner Composition Utils LexFun Str PStr IO SpecIO PIO Prop_IO PExport Prop_Export Pipe SpecPipe SpecPipe2 PFiles PPipe PPipe2 PSave SpecPipe3 PPipe3 Prop_Sims.
#[local] Existing Instance RNum.
Local Open Scope R_scope.
Local Open Scope string_scope.
Local Open Scope list_scope.
Local Open Scope nat_scope.
Section SimsR.
Context {E : @Ext RNum} {FI : @FloatIO RNum} {PI : PipeIO}.
(** the similarity of two words: 0 if one of them is missing, else the measure of their rows *)
Definition word_sim (s : space) (s2 : option space) (sim : similarity) (w1 w2 : string) (v : R) : Prop :=
  ((~ In w1 (s_id2row s) \/ ~ In w2 (s_id2row (searched s s2))) /\ v = 0%R) \/
  exists p q, nth_error (s_id2row s) p = Some w1 /\ nth_error (s_id2row (searched s s2)) q = Some w2 /\ v = sim_spec sim (m_nc (s_mat s)) (ment (s_mat s) p) (ment (s_mat (searched s s2)) q).
Lemma word_sim_get s s2 sim w1 w2 : consistent s -> consistent (searched s s2) -> m_nc (s_mat s) = m_nc (s_mat (searched s s2)) -> exists v, word_sim s s2 sim w1 w2 v /\ get_sim s w1 w2 sim s2 = Ok v.
Proof.
  intros Hc Hc2 Hn. destruct (in_dec string_dec w1 (s_id2row s)) as [I1|I1]; [|exists 0%R; split; [left; auto|apply C10_get_sim_missing; auto]].
  destruct (in_dec string_dec w2 (s_id2row (searched s s2))) as [I2|I2]; [|exists 0%R; split; [left; auto|apply C10_get_sim_missing; auto]].
  apply In_nth_error in I1, I2. destruct I1 as (p & H1), I2 as (q & H2). eexists. split; [right; exists p, q; split; [exact H1|]; split; [exact H2|reflexivity]|]. apply C10_get_sim_present; assumption.
Qed.
(** every line in order, with the similarity of its words *)
Definition sim_values (s : space) (s2 : option space) (sim : similarity) (c0 c1 : Z) (t out : string) : Prop :=
  exists vals, Forall2 (fun l v => exists w1 w2, column l c0 w1 /\ column l c1 w2 /\ word_sim s s2 sim w1 w2 v) (text_lines t) vals /\
    out = String.concat "" (map (fun lv : string * R => (fst lv ++ " " ++ fstr (snd lv) ++ nl)%string) (combine (text_lines t) vals)).
(** consistent spaces of equal width, every line with both columns, a usable output directory: the tool succeeds, and writes those values *)
Theorem C57_values fs in_file nm a0 a1 c0 c1 root dirs measures files d s s2 t :
  file_name in_file nm -> described files d -> iparse a0 = Some c0 -> iparse a1 = Some c1 -> spaces_at fs files s s2 -> text_at fs in_file t ->
  consistent s -> consistent (searched s s2) -> m_nc (s_mat s) = m_nc (s_mat (searched s s2)) ->
  (forall l, In l (text_lines t) -> exists w1 w2, column l c0 w1 /\ column l c1 w2) ->
  (forall m sim, In m measures -> measure_named m sim -> usable_file fs root dirs (result_name_of "SIMS" nm d m)) ->
  exists fs', compute_sim fs in_file [a0; a1] (path root dirs) measures files = Ok fs' /\
    (forall m sim, In m measures -> measure_named m sim -> exists out, sim_values s s2 sim c0 c1 t out /\ text_at fs' (result_file (path root dirs) "SIMS" nm d m) out) /\
    only_changes (fun q => exists m sim, In m measures /\ measure_named m sim /\ q = result_file (path root dirs) "SIMS" nm d m) fs fs'.
Proof.
  intros Hn Hd E0 E1 Hsp Ht Hc Hc2 Hw Hcol Hu.
  destruct (C57_total fs in_file nm a0 a1 c0 c1 root dirs measures files d s s2 t Hn Hd E0 E1 Hsp Ht) as (fs' & H).
  { intros m sim Hin Hm. split; [|exact (Hu m sim Hin Hm)]. unfold sim_lines. clear - Hc Hc2 Hw Hcol. induction (text_lines t) as [|l ls IH]; [eexists; exists []; split; [constructor|reflexivity]|].
    destruct IH as (o & vals & F2 & _); [intros l' Hl; apply Hcol; right; exact Hl|]. destruct (Hcol l (or_introl eq_refl)) as (w1 & w2 & W1 & W2). destruct (word_sim_get s s2 sim w1 w2 Hc Hc2 Hw) as (v & _ & Hv).
    eexists; exists (v :: vals). split; [constructor; [exists w1, w2; auto|exact F2]|reflexivity]. }
  exists fs'. split; [exact H|]. destruct (C57_lines _ _ _ _ _ _ _ _ _ _ _ _ _ _ _ Hn Hd E0 E1 Hsp Ht H) as (K1 & K2). split; [|exact K2].
  intros m sim Hin Hm. destruct (K1 m sim Hin Hm) as (out & (vals & F2 & ->) & O2). eexists. split; [exists vals; split; [|reflexivity]|exact O2].
  clear - F2 Hc Hc2 Hw. induction F2 as [|l v ls vs (w1 & w2 & W1 & W2 & Hv) F2 IH]; constructor; [|exact IH]. exists w1, w2. split; [exact W1|]. split; [exact W2|].
  destruct (word_sim_get s s2 sim w1 w2 Hc Hc2 Hw) as (v' & K & Hv'). rewrite Hv in Hv'. injection Hv' as ->. exact K.
Qed.
(** the output of the neighbour tool: the true ranking for every word *)
Definition neighbour_values (s : space) (s2 : option space) (sim : similarity) (k : Z) (t out : string) : Prop :=
  exists ns, Forall2 (fun w l => exists score, top_k (s_id2row (searched s s2)) score (Z.to_nat k) l /\ forall q x, nth_error (s_id2row (searched s s2)) q = Some x -> word_sim s s2 sim w x (score q)) (text_lines t) ns /\
    out = String.concat "" (map (fun wl : string * list (string * R) =>
      (fst wl ++ nl ++ String.concat "" (map (fun nx : string * R => (tabs ++ fst nx ++ " " ++ fstr (snd nx) ++ nl)%string) (snd wl)))%string) (combine (text_lines t) ns)).
Theorem C64_values fs in_file nm k root dirs m sim files d s s2 t :
  file_name in_file nm -> described files d -> measure_named m sim -> spaces_at fs files s s2 -> text_at fs in_file t ->
  consistent s -> consistent (searched s s2) -> m_nc (s_mat s) = m_nc (s_mat (searched s s2)) -> (forall w, In w (text_lines t) -> In w (s_id2row s)) ->
  usable_file fs root dirs (result_name_of "NEIGHBOURS" nm d m) ->
  exists fs' out, compute_neighbours fs in_file k (path root dirs) m files = Ok fs' /\ neighbour_values s s2 sim k t out /\
    text_at fs' (result_file (path root dirs) "NEIGHBOURS" nm d m) out /\ only_changes (eq (result_file (path root dirs) "NEIGHBOURS" nm d m)) fs fs'.
Proof.
  intros Hn Hd Hm Hsp Ht Hc Hc2 Hw Hin Hu.
  destruct (C64_total fs in_file nm k root dirs m sim files d s s2 t Hn Hd Hm Hsp Ht) as (fs' & H); [|exact Hu|].
  { intros w Hw'. destruct (C09_neighbours s w k sim s2 Hc Hc2 (Hin w Hw') Hw) as (l & _ & Hl & _). eauto. }
  destruct (C64_neighbours _ _ _ _ _ _ _ _ _ _ _ _ _ Hn Hd Hm Hsp Ht H) as (out & (ns & F2 & ->) & K1 & K2). exists fs'. eexists. split; [exact H|]. split; [|split; [exact K1|exact K2]].
  exists ns. split; [|reflexivity]. clear - F2 Hc Hc2 Hw Hin. induction F2 as [|w l ws ls Hl F2 IH]; constructor; [|apply IH; intros w' Hw'; apply Hin; right; exact Hw'].
  destruct (C09_neighbours s w k sim s2 Hc Hc2 (Hin w (or_introl eq_refl)) Hw) as (l' & score & Hl' & Htk & Hsc). rewrite Hl in Hl'. injection Hl' as <-. exists score. split; [exact Htk|].
  intros q x Hq. destruct (word_sim_get s s2 sim w x Hc Hc2 Hw) as (v & K & Hv). rewrite (Hsc q x Hq) in Hv. injection Hv as ->. exact K.
Qed.
(** a word of the input that is not in the space: KeyError *)
Theorem C64_missing_word fs in_file nm k root dirs m sim files d s s2 t w :
  file_name in_file nm -> described files d -> measure_named m sim -> spaces_at fs files s s2 -> text_at fs in_file t ->
  consistent s -> consistent (searched s s2) -> m_nc (s_mat s) = m_nc (s_mat (searched s s2)) -> In w (text_lines t) -> ~ In w (s_id2row s) ->
  usable_file fs root dirs (result_name_of "NEIGHBOURS" nm d m) ->
  compute_neighbours fs in_file k (path root dirs) m files = Err KeyError.
Proof.
  intros Hn Hd Hm Hsp Ht Hc Hc2 Hw Hin Hno Hu.
  assert (S : exists ws1 w' ws2, text_lines t = ws1 ++ w' :: ws2 /\ (forall x, In x ws1 -> In x (s_id2row s)) /\ ~ In w' (s_id2row s)).
  { clear - Hin Hno. induction (text_lines t) as [|l ls IH]; [destruct Hin|]. destruct (in_dec string_dec l (s_id2row s)) as [Hl|Hl].
    - destruct Hin as [-> |Hin]; [contradiction|]. destruct (IH Hin) as (a & b & c & -> & K1 & K2). exists (l :: a), b, c. split; [reflexivity|]. split; [|exact K2]. intros x [<-|Hx]; auto.
    - exists [], l, ls. split; [reflexivity|]. split; [intros x []|exact Hl]. }
  destruct S as (ws1 & w' & ws2 & S & K1 & K2). eapply C64_fails; try eassumption.
  - intros x Hx. destruct (C09_neighbours s x k sim s2 Hc Hc2 (K1 x Hx) Hw) as (l & _ & Hl & _). eauto.
  - apply C09_missing; assumption.
Qed.
End SimsR.
(** *** concrete cases *)
From Verif Require Import Qio Pio.
Section Ex.
Context {E : @Ext RNum}.
(** a number format: enough to read column numbers *)
#[local] Instance Rio : @FloatIO RNum := {| fparse := fun _ => None; frepr := fun _ => "0.0"; ffmt := fun _ => "0.0"; fstr := fun _ => "0.0"; iparse := zparse |}.
Definition sims_fs : fsys := FS (fun q => if String.eqb q "in/sp.pkl" then Some (Pickle (OSpace sp22)) else if String.eqb q "in/pairs" then Some (Text ("x car dog" ++ nl ++ nl ++ "y cow dog" ++ nl)%string)
  else if String.eqb q "in/words" then Some (Text (" dog" ++ nl ++ "car")%string) else if String.eqb q "in/bad" then Some (Text ("dog" ++ nl ++ "cow")%string) else None) (fun _ => false).

Ltac no_char := cbn; intros K; repeat (destruct K as [K|K]; [discriminate|]); exact K.
Lemma sims_usable nm : In nm ["SIMS.pairs.sp.cos"; "SIMS.pairs.sp.euclidean"; "NEIGHBOURS.words.sp.cos"; "NEIGHBOURS.bad.sp.cos"] -> usable_file sims_fs "" ["out"] nm.
Proof.
  intros H. assert (Hn : name nm) by (repeat (destruct H as [<-|H]; [split; [discriminate|split; [discriminate|no_char]]|]); destruct H).
  split; [|split; [discriminate|reflexivity]]. split; [left; reflexivity|]. split; [constructor; [split; [discriminate|split; [discriminate|no_char]]|constructor]|]. split; [exact Hn|]. split; [right; discriminate|]. split; [discriminate|].
  intros a b Hab Ha. destruct a as [|x a]; [congruence|]. injection Hab as <- Hab. destruct a; [|discriminate]. reflexivity.
Qed.
Lemma sims_described : described ["in/sp.pkl"] "sp".
Proof. apply ds_one; [discriminate|]. apply (stem_ext _ "sp" "pkl"); [split; [no_char|right; exists "in"; reflexivity]|no_char]. Qed.
Lemma sims_spaces : spaces_at sims_fs ["in/sp.pkl"] sp22 None.
Proof. apply sp_one; [discriminate|reflexivity]. Qed.
(** two measures (and an unknown one) on two pairs, one of which has an unknown word *)
Example C57_example : exists fs' out, compute_sim sims_fs "in/pairs" ["2"; "3"] "out" ["cos"; "none such"; "euclidean"] ["in/sp.pkl"] = Ok fs' /\
  text_at fs' "out/SIMS.pairs.sp.euclidean" out /\ out = ("x car dog 0.0" ++ nl ++ "y cow dog 0.0" ++ nl)%string /\ fs_file fs' "out/SIMS.pairs.sp.none such" = None /\
  sim_values sp22 None Euclid 2 3 ("x car dog" ++ nl ++ nl ++ "y cow dog" ++ nl)%string out.
Proof.
  destruct (C57_values sims_fs "in/pairs" "pairs" "2" "3" 2 3 "" ["out"] ["cos"; "none such"; "euclidean"] ["in/sp.pkl"] "sp" sp22 None ("x car dog" ++ nl ++ nl ++ "y cow dog" ++ nl)%string) as (fs' & H & K & O).
  - split; [no_char|right; exists "in"; reflexivity].
  - exact sims_described.
  - reflexivity.
  - reflexivity.
  - exact sims_spaces.
  - reflexivity.
  - exact sp22_consistent.
  - exact sp22_consistent.
  - reflexivity.
  - intros l [<-|[<-|[]]]; [exists "car", "dog"|exists "cow", "dog"]; (split; [exists 1; split; [reflexivity|left; reflexivity]|exists 2; split; [reflexivity|left; reflexivity]]).
  - intros m sim [<-|[<-|[<-|[]]]] Hm; [apply sims_usable; left; reflexivity|inversion Hm|apply sims_usable; right; left; reflexivity].
  - destruct (K "euclidean" Euclid) as (out & V & T); [right; right; left; reflexivity|constructor|]. exists fs', out. split; [exact H|]. split; [exact T|]. split; [|split; [|exact V]].
    + destruct V as (vals & F2 & ->). inversion F2 as [|? v1 ? r1 _ F2']. inversion F2' as [|? v2 ? r2 _ F2'']. inversion F2''. reflexivity.
    + rewrite O; [reflexivity|]. intros (m & sim & Hin & Hm & K'). destruct Hin as [<-|[<-|[<-|[]]]]; [discriminate|inversion Hm|discriminate].
Qed.
Example C64_example : exists fs' out, compute_neighbours sims_fs "in/words" 1 "out" "cos" ["in/sp.pkl"] = Ok fs' /\
  text_at fs' "out/NEIGHBOURS.words.sp.cos" out /\ neighbour_values sp22 None Cos 1 (" dog" ++ nl ++ "car")%string out.
Proof.
  destruct (C64_values sims_fs "in/words" "words" 1 "" ["out"] "cos" Cos ["in/sp.pkl"] "sp" sp22 None (" dog" ++ nl ++ "car")%string) as (fs' & out & H & K & T & _).
  - split; [no_char|right; exists "in"; reflexivity].
  - exact sims_described.
  - constructor.
  - exact sims_spaces.
  - reflexivity.
  - exact sp22_consistent.
  - exact sp22_consistent.
  - reflexivity.
  - intros w [<-|[<-|[]]]; [right; left; reflexivity|left; reflexivity].
  - apply sims_usable. do 2 right. left. reflexivity.
  - exists fs', out. auto.
Qed.
Example C64_missing_example : compute_neighbours sims_fs "in/bad" 1 "out" "cos" ["in/sp.pkl"] = Err KeyError.
Proof.
  apply (C64_missing_word sims_fs "in/bad" "bad" 1 "" ["out"] "cos" Cos ["in/sp.pkl"] "sp" sp22 None ("dog" ++ nl ++ "cow")%string "cow").
  - split; [no_char|right; exists "in"; reflexivity].
  - exact sims_described.
  - constructor.
  - exact sims_spaces.
  - reflexivity.
  - exact sp22_consistent.
  - exact sp22_consistent.
  - reflexivity.
  - right. left. reflexivity.
  - intros [K|[K|[]]]; discriminate.
  - apply sims_usable. do 3 right. left. reflexivity.
Qed.
End Ex.
