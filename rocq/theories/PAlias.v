(** PAlias.v -- lemmas for Prop_Alias.v: reshaped views, and the in-place methods on any object *)
From Verif Require Import Base PyList Dict Num Dense Sparse Matrix PMatrix Scaling Linalg Operation Similarity Space LexFun Imp PImp Prop_Imp.
Section PAlias.
Context {N : Num} {E : Ext}.
Local Open Scope nat_scope.

Lemma pos_split p r c : p < r * c -> p / c < r /\ p mod c < c /\ p / c * c + p mod c = p.
Proof.
  intros H. assert (c <> 0) by (intros ->; lia). split; [apply Nat.div_lt_upper_bound; lia|]. split; [apply Nat.mod_upper_bound; assumption|].
  rewrite (Nat.div_mod_eq p c) at 3. lia.
Qed.
Lemma pos_lt i j r c : i < r -> j < c -> i * c + j < r * c.
Proof. intros Hi Hj. assert (i * c + c <= r * c) by (replace (i * c + c) with (S i * c) by lia; apply Nat.mul_le_mono_r; lia). lia. Qed.
Lemma reshape_map f d r c : r * c = d_nr d * d_nc d -> d_reshape (d_map f d) r c = d_map f (d_reshape d r c).
Proof.
  intros H. unfold d_reshape, d_map at 2. cbn [d_nr d_nc tab]. apply tab_ext. intros i j Hi Hj. cbv zeta.
  rewrite dent_tab by assumption. cbn [d_map d_nr d_nc tab]. pose proof (pos_lt i j r c Hi Hj) as Hp. rewrite H in Hp. destruct (pos_split _ _ _ Hp) as (A & B & _).
  change (d_nc (d_map f d)) with (d_nc d). unfold d_map. rewrite dent_tab by assumption. reflexivity.
Qed.
Lemma reshape_reshape d r c r2 c2 : r * c = d_nr d * d_nc d -> r2 * c2 = r * c -> d_reshape (d_reshape d r c) r2 c2 = d_reshape d r2 c2.
Proof.
  intros H H2. unfold d_reshape at 1 3. apply tab_ext. intros i j Hi Hj. cbv zeta. change (d_nc (d_reshape d r c)) with c.
  pose proof (pos_lt i j r2 c2 Hi Hj) as Hp. rewrite H2 in Hp. destruct (pos_split _ _ _ Hp) as (A & B & C). unfold d_reshape. rewrite dent_tab by assumption. cbv zeta. rewrite C. reflexivity.
Qed.
(** the view of an object fits its memory *)
Definition view_ok (st : mem) (o : mobj) : Prop :=
  match nth_error (m_arrs st) (mo_arr o), mo_view o with
  | Some (AD d), Some (r, c) => r * c = d_nr d * d_nc d
  | _, _ => True
  end.
Lemma view_none st o : mo_view o = None -> view_ok st o.
Proof. intros H. unfold view_ok. rewrite H. destruct (nth_error (m_arrs st) (mo_arr o)) as [[]|]; exact I. Qed.
Lemma view_map f d o : (match mo_view o with Some (r, c) => r * c = d_nr d * d_nc d | None => True end) -> view_of (mo_view o) (d_map f d) = d_map f (view_of (mo_view o) d).
Proof. destruct (mo_view o) as [[r c]|]; cbn [view_of]; [apply reshape_map|reflexivity]. Qed.

(** what an in-place method may have done: [i] is the object, the others keep theirs; the array of [i] may have got another content of the same shape *)
Definition same_shape_arr (a b : arr) : Prop :=
  match a, b with AD x, AD y => d_nr x = d_nr y /\ d_nc x = d_nc y | AS _, AS _ => True | _, _ => False end.
Definition touched (st st' : mem) (i : nat) : Prop :=
  exists o, nth_error (m_objs st) i = Some o /\
  (forall j, j <> i -> nth_error (m_objs st') j = nth_error (m_objs st) j) /\
  (forall j a, j <> mo_arr o -> nth_error (m_arrs st) j = Some a -> nth_error (m_arrs st') j = Some a) /\
  (forall a, nth_error (m_arrs st) (mo_arr o) = Some a -> exists a', nth_error (m_arrs st') (mo_arr o) = Some a' /\ same_shape_arr a a') /\
  (exists o', nth_error (m_objs st') i = Some o' /\ view_ok st' o' /\ (mo_arr o' = mo_arr o \/ length (m_arrs st) <= mo_arr o')).
Definition in_place_ok (p : nat -> prog unit) (g : matrix -> res matrix) : Prop :=
  forall st i m o, nth_error (m_objs st) i = Some o -> view_ok st o -> value st i = Some m ->
  match g m with
  | Ok v => snd (p i st) = Ok tt /\ touched st (fst (p i st)) i /\ value (fst (p i st)) i = Some v
  | Err e => p i st = (st, Err e)
  end.
Lemma same_shape_refl a : (forall l, a <> AV l) -> same_shape_arr a a.
Proof. destruct a; cbn; auto. intros H. exfalso. apply (H l). reflexivity. Qed.
(** the result of [self.mat = new array] *)
Lemma rebind_touched st i o a v : nth_error (m_objs st) i = Some o -> (forall b l, nth_error (m_arrs st) (mo_arr o) = Some b -> b <> AV l) -> v = arr_of a ->
  let st2 := MEM (m_arrs st ++ [v]) (upd (m_objs st) i (MO (length (m_arrs st)) None)) in touched st st2 i /\ value st2 i = Some a.
Proof.
  intros Ho Hn -> st2. pose proof (nth_lt _ _ _ Ho) as Lt. split.
  - exists o. split; [exact Ho|]. cbn [m_arrs m_objs st2]. split; [intros j Hj; apply upd_ne; auto|]. split; [intros j b _ Hb; apply nth_ext, Hb|].
    split; [intros b Hb; exists b; split; [apply nth_ext, Hb|apply same_shape_refl; intros l; eapply Hn, Hb]|].
    eexists. split; [apply upd_eq, Lt|]. split; [|right; cbn; lia]. apply view_none; reflexivity.
  - unfold value, st2. cbn [m_arrs m_objs]. rewrite upd_eq by exact Lt. cbn [mo_arr mo_view]. rewrite nth_error_app2, Nat.sub_diag by lia. cbn [nth_error]. destruct a; reflexivity.
Qed.
(** the result of changing the csr_matrix itself *)
Lemma set_sparse_touched st i o c c' : nth_error (m_objs st) i = Some o -> nth_error (m_arrs st) (mo_arr o) = Some (AS c) ->
  let st2 := MEM (upd (m_arrs st) (mo_arr o) (AS c')) (m_objs st) in touched st st2 i /\ value st2 i = Some (MS c').
Proof.
  intros Ho Ha st2. pose proof (nth_lt _ _ _ Ha) as Lt. split.
  - exists o. split; [exact Ho|]. cbn [m_arrs m_objs st2]. split; [reflexivity|]. split; [intros j b Hj Hb; rewrite upd_ne by auto; exact Hb|].
    split; [intros b Hb; exists (AS c'); split; [apply upd_eq, Lt|]; rewrite Ha in Hb; injection Hb as <-; exact I|].
    exists o. split; [exact Ho|]. split; [|left; reflexivity]. unfold view_ok, st2. cbn [m_arrs]. rewrite upd_eq by exact Lt. exact I.
  - unfold value, st2. cbn [m_arrs m_objs]. rewrite Ho, upd_eq by exact Lt. reflexivity.
Qed.
Lemma not_av st o a l : nth_error (m_arrs st) o = Some a -> (forall k, a <> AV k) -> forall b, nth_error (m_arrs st) o = Some b -> b <> AV l.
Proof. intros H Hn b Hb. rewrite H in Hb. injection Hb as <-. apply Hn. Qed.
Lemma nonneg_ok : in_place_ok x_to_non_negative (fun m => Ok (m_to_non_negative m)).
Proof.
  intros st i m o Ho Hv V. destruct (value_obj _ _ _ V) as (o' & Ho' & HA). assert (o' = o) by congruence. subst o'.
  unfold x_to_non_negative, pbind, get_obj, get_arr. rewrite Ho. destruct m as [d|c].
  - destruct HA as (d0 & Ha & ->). rewrite Ha. unfold get. rewrite V. cbn [to_dense m_to_non_negative]. unfold new_arr, set_obj. cbn [fst snd m_arrs m_objs].
    split; [reflexivity|]. apply (rebind_touched st i o (MD _) _ Ho); [|reflexivity]. intros b l. apply (not_av st _ _ l Ha). intros k; discriminate.
  - rewrite HA. unfold set_arr. cbn [fst snd m_to_non_negative]. split; [reflexivity|]. apply (set_sparse_touched st i o c); assumption.
Qed.
Lemma ones_ok : in_place_ok x_to_ones (fun m => Ok (m_to_ones m)).
Proof.
  intros st i m o Ho Hv V. destruct (value_obj _ _ _ V) as (o' & Ho' & HA). assert (o' = o) by congruence. subst o'.
  unfold x_to_ones, pbind, get_obj, get_arr. rewrite Ho. destruct m as [d|c].
  - destruct HA as (d0 & Ha & ->). rewrite Ha. unfold get. rewrite V. cbn [to_dense m_to_ones]. unfold new_arr, set_obj. cbn [fst snd m_arrs m_objs].
    split; [reflexivity|]. apply (rebind_touched st i o (MD _) _ Ho); [|reflexivity]. intros b l. apply (not_av st _ _ l Ha). intros k; discriminate.
  - rewrite HA. unfold set_arr. cbn [fst snd m_to_ones]. split; [reflexivity|]. apply (set_sparse_touched st i o c); assumption.
Qed.
Lemma plog_ok : in_place_ok x_plog (fun m => Ok (m_plog m)).
Proof.
  intros st i m o Ho Hv V. destruct (value_obj _ _ _ V) as (o' & Ho' & HA). assert (o' = o) by congruence. subst o'.
  unfold x_plog, pbind, get_obj, get_arr. rewrite Ho. destruct m as [d|c].
  - destruct HA as (d0 & Ha & ->). rewrite Ha. unfold set_arr, get, value. cbn [m_arrs m_objs fst snd]. rewrite Ho. pose proof (nth_lt _ _ _ Ha) as La. rewrite upd_eq by exact La.
    cbn [to_dense]. unfold new_arr, set_obj. cbn [fst snd m_arrs m_objs]. split; [reflexivity|].
    assert (VM : view_of (mo_view o) (d_map at_least1 d0) = d_map at_least1 (view_of (mo_view o) d0)).
    { apply view_map. unfold view_ok in Hv. rewrite Ha in Hv. destruct (mo_view o) as [[r c]|]; auto. }
    rewrite VM, plog_steps. pose proof (nth_lt _ _ _ Ho) as Lt. split.
    + exists o. split; [exact Ho|]. cbn [m_arrs m_objs]. split; [intros j Hj; apply upd_ne; auto|].
      split; [intros j b Hj Hb; apply nth_ext; rewrite upd_ne by auto; exact Hb|].
      split; [intros b Hb; exists (AD (d_map at_least1 d0)); split; [apply nth_ext, upd_eq, La|]; rewrite Ha in Hb; injection Hb as <-; cbn; auto|].
      eexists. split; [apply upd_eq, Lt|]. split; [|right; cbn; rewrite upd_length; lia]. apply view_none; reflexivity.
    + rewrite upd_eq by exact Lt. cbn [mo_arr mo_view]. rewrite nth_error_app2, Nat.sub_diag by lia. reflexivity.
  - rewrite HA. unfold set_arr. cbn [fst snd m_plog]. split; [reflexivity|]. apply (set_sparse_touched st i o c); assumption.
Qed.
Lemma reshape_ok r c : in_place_ok (fun i => x_reshape i r c) (fun m => m_reshape m r c).
Proof.
  intros st i m o Ho Hv V. destruct (value_obj _ _ _ V) as (o' & Ho' & HA). assert (o' = o) by congruence. subst o'.
  unfold x_reshape, pbind, get_obj, get_arr. rewrite Ho. destruct m as [d|s].
  - destruct HA as (d0 & Ha & ->). rewrite Ha. unfold get. rewrite V. cbn [m_reshape m_nr m_nc]. unfold pure. set (d := view_of (mo_view o) d0).
    destruct (Nat.eqb (d_nr d * d_nc d) (r * c)) eqn:Q; cbn [check bind]; [|reflexivity]. apply Nat.eqb_eq in Q. unfold set_obj. cbn [fst snd].
    unfold view_ok in Hv. rewrite Ha in Hv. pose proof (nth_lt _ _ _ Ho) as Lt.
    assert (S : r * c = d_nr d0 * d_nc d0). { unfold d in Q. destruct (mo_view o) as [[r0 c0]|]; cbn in Q; lia. }
    split; [reflexivity|]. split.
    + exists o. split; [exact Ho|]. cbn [m_arrs m_objs]. split; [intros j Hj; apply upd_ne; auto|]. split; [auto|].
      split; [intros b Hb; exists b; split; [exact Hb|]; rewrite Ha in Hb; injection Hb as <-; cbn; auto|].
      eexists. split; [apply upd_eq, Lt|]. cbn. split; [|left; reflexivity]. unfold view_ok. cbn. rewrite Ha. exact S.
    + unfold value. cbn [m_arrs m_objs]. rewrite upd_eq by exact Lt. cbn [mo_arr mo_view]. rewrite Ha. cbn [view_of]. do 2 f_equal. unfold d in *.
      destruct (mo_view o) as [[r0 c0]|]; cbn [view_of] in *; [|reflexivity]. symmetry. apply reshape_reshape; [exact Hv|lia].
  - rewrite HA. cbn [m_reshape]. unfold pure. destruct (s_reshape s r c) as [s'|e]; cbn [rmap bind]; [|reflexivity]. unfold new_arr, set_obj. cbn [fst snd m_arrs m_objs].
    split; [reflexivity|]. apply (rebind_touched st i o (MS s') _ Ho); [|reflexivity]. intros b l. apply (not_av st _ _ l HA). intros k; discriminate.
Qed.
End PAlias.
