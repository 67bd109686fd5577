(** PImp.v -- lemmas about the imperative matrix programs of Imp.v *)
From Verif Require Import Base PyList Dict Num Dense Sparse Matrix PMatrix Scaling Linalg Operation Similarity Space LexFun Imp.
Section PImp.
Context {N : Num} {E : Ext}.
Local Open Scope nat_scope.

(** nothing that exists in [st] is changed in [st'] *)
Definition ext (st st' : mem) : Prop := exists xs ys, m_arrs st' = m_arrs st ++ xs /\ m_objs st' = m_objs st ++ ys.
Lemma ext_refl st : ext st st.
Proof. exists [], []. rewrite !app_nil_r. auto. Qed.
Lemma ext_trans a b c : ext a b -> ext b c -> ext a c.
Proof. intros (x & y & H1 & H2) (x' & y' & H3 & H4). exists (x ++ x'), (y ++ y'). rewrite H3, H4, H1, H2, !app_assoc. auto. Qed.
Lemma nth_ext {A} (l xs : list A) i x : nth_error l i = Some x -> nth_error (l ++ xs) i = Some x.
Proof. intros H. rewrite nth_error_app1; [exact H|]. apply nth_error_Some. congruence. Qed.
Lemma value_ext st st' i m : ext st st' -> value st i = Some m -> value st' i = Some m.
Proof.
  intros (xs & ys & Ha & Ho). unfold value. destruct (nth_error (m_objs st) i) as [o|] eqn:H1; [|discriminate].
  rewrite Ho, (nth_ext _ _ _ _ H1). destruct (nth_error (m_arrs st) (mo_arr o)) as [a|] eqn:H2; [|discriminate].
  rewrite Ha, (nth_ext _ _ _ _ H2). auto.
Qed.
Lemma vector_ext st st' i l : ext st st' -> vector st i = Some l -> vector st' i = Some l.
Proof.
  intros (xs & ys & Ha & Ho). unfold vector. destruct (nth_error (m_arrs st) i) as [a|] eqn:H2; [|discriminate]. rewrite Ha, (nth_ext _ _ _ _ H2). auto.
Qed.

(** a computation started in [st] does not change what exists in [st], and ends as [r] says *)
Definition run {A B} (st : mem) (p : prog A) (r : res B) (rel : mem -> A -> B -> Prop) : Prop :=
  ext st (fst (p st)) /\ match snd (p st), r with Ok a, Ok b => rel (fst (p st)) a b | Err e, Err e' => e = e' | _, _ => False end.
Lemma run_bind {A B A' B'} st (p : prog A) (r : res B) rel (k : A -> prog A') (k' : B -> res B') rel' :
  run st p r rel -> (forall st' a b, ext st st' -> rel st' a b -> run st' (k a) (k' b) rel') -> run st (pbind p k) (bind r k') rel'.
Proof.
  intros (H1 & H2) HK. unfold run, pbind. destruct (p st) as [st' [a|e]]; cbn [fst snd] in *.
  - destruct r as [b|]; [|contradiction]. destruct (HK st' a b H1 H2) as (H3 & H4). cbn [bind]. split; [eapply ext_trans; eassumption|exact H4].
  - destruct r as [b|e']; [contradiction|]. subst. cbn. auto.
Qed.
Lemma run_bind_r {A B A'} st (p : prog A) (r : res B) rel (k : A -> prog A') (rel' : mem -> A' -> B -> Prop) :
  run st p r rel -> (forall st' a b, ext st st' -> rel st' a b -> run st' (k a) (Ok b) rel') -> run st (pbind p k) r rel'.
Proof. intros H HK. assert (EQ : r = bind r (fun b => Ok b)) by (destruct r; reflexivity). rewrite EQ. eapply run_bind; eassumption. Qed.
(** a step that has no counterpart in the value model *)
Lemma run_step {A A' B'} st (p : prog A) (rel : mem -> A -> Prop) (k : A -> prog A') (r : res B') rel' :
  run st p (Ok tt) (fun st' a _ => rel st' a) -> (forall st' a, ext st st' -> rel st' a -> run st' (k a) r rel') -> run st (pbind p k) r rel'.
Proof.
  intros H HK. change r with (bind (Ok tt) (fun _ => r)). eapply run_bind; [exact H|]. intros st' a b He Hr. apply HK; assumption.
Qed.
Lemma run_ret {A B} st (a : A) (b : B) (rel : mem -> A -> B -> Prop) : rel st a b -> run st (ret a) (Ok b) rel.
Proof. intros H. split; [apply ext_refl|exact H]. Qed.
Lemma run_raise {A B} st e (rel : mem -> A -> B -> Prop) : run st (raise e) (Err e) rel.
Proof. split; [apply ext_refl|reflexivity]. Qed.
Lemma run_pure {A} st (r : res A) : run st (pure r) r (fun st' a b => st' = st /\ a = b).
Proof. split; [apply ext_refl|]. cbn. destruct r; auto. Qed.
Lemma run_weak {A B} st (p : prog A) (r : res B) (rel rel' : mem -> A -> B -> Prop) : run st p r rel -> (forall st' a b, ext st st' -> rel st' a b -> rel' st' a b) -> run st p r rel'.
Proof. intros (H1 & H2) H. split; [exact H1|]. destruct (snd (p st)), r; auto. Qed.
Lemma run_get {B'} {A'} st i m (k : matrix -> prog A') (r : res B') rel : value st i = Some m -> run st (k m) r rel -> run st (pbind (get i) k) r rel.
Proof. intros H HK. unfold run, pbind, get in *. rewrite H. exact HK. Qed.
Lemma run_getv {B'} {A'} st i l (k : list F -> prog A') (r : res B') rel : vector st i = Some l -> run st (k l) r rel -> run st (pbind (getv i) k) r rel.
Proof. intros H HK. unfold run, pbind, getv in *. rewrite H. exact HK. Qed.
Lemma run_check {A' B'} st b e (k : unit -> prog A') (k' : unit -> res B') rel : (b = true -> run st (k tt) (k' tt) rel) ->
  run st (pbind (pure (check b e)) k) (bind (check b e) k') rel.
Proof. intros H. destruct b; cbn [check bind]; [apply H; reflexivity|]. split; [apply ext_refl|reflexivity]. Qed.

(** [o] is a new object around new memory, with value [m] *)
Definition is_new (st st' : mem) (o : nat) (m : matrix) : Prop :=
  value st' o = Some m /\ length (m_objs st) <= o /\
  exists ob, nth_error (m_objs st') o = Some ob /\ length (m_arrs st) <= mo_arr ob /\ mo_view ob = None.
Lemma is_new_value st st' o m : is_new st st' o m -> value st' o = Some m.
Proof. intros (H & _); exact H. Qed.
Lemma is_new_ext st st' st2 o m : ext st' st2 -> is_new st st' o m -> is_new st st2 o m.
Proof.
  intros X (V & L & ob & H1 & H2 & H3). split; [eapply value_ext; eassumption|]. split; [exact L|]. exists ob. split; [|auto].
  destruct X as (xs & ys & _ & ->). apply nth_ext, H1.
Qed.
Lemma ext_len st st' : ext st st' -> length (m_objs st) <= length (m_objs st') /\ length (m_arrs st) <= length (m_arrs st').
Proof. intros (xs & ys & -> & ->). rewrite !app_length. lia. Qed.
Lemma is_new_older st0 st st' o m : ext st0 st -> is_new st st' o m -> is_new st0 st' o m.
Proof. intros X (V & L & ob & H1 & H2 & H3). apply ext_len in X. split; [exact V|]. split; [lia|]. exists ob. repeat split; auto; lia. Qed.
Lemma run_fresh st m : run st (fresh m) (Ok m) (is_new st).
Proof.
  split; [exists [arr_of m], [MO (length (m_arrs st)) None]; auto|]. unfold fresh, pbind, new_arr, new_obj, is_new, value. cbn [fst snd m_arrs m_objs].
  assert (E0 : forall A (l : list A) x, nth_error (l ++ [x]) (length l) = Some x) by (intros; rewrite nth_error_app2, Nat.sub_diag; auto).
  rewrite E0. cbn [mo_arr mo_view]. rewrite ?E0. split; [destruct m; reflexivity|]. split; [lia|]. eexists. split; [reflexivity|]. split; [cbn; lia|reflexivity].
Qed.
Lemma run_fresh_u st m : run st (fresh m) (Ok tt) (fun st' j _ => is_new st st' j m).
Proof. destruct (run_fresh st m) as (X & H). split; [exact X|]. destruct (snd (fresh m st)); [exact H|contradiction]. Qed.
Lemma run_new_arr st l : run st (new_arr (AV l)) (Ok tt) (fun st' j _ => vector st' j = Some l).
Proof.
  split; [exists [AV l], []; rewrite app_nil_r; auto|]. unfold new_arr, vector. cbn. rewrite nth_error_app2, Nat.sub_diag by lia. reflexivity.
Qed.
Lemma run_fun1 st f i m : value st i = Some m -> run st (x_fun1 f i) (f m) (is_new st).
Proof.
  intros H. unfold x_fun1. eapply run_get; [exact H|]. eapply run_bind_r; [apply run_pure|]. intros st' a b X (-> & ->). apply run_fresh.
Qed.
Lemma run_fun2 st f i j a b : value st i = Some a -> value st j = Some b -> run st (x_fun2 f i j) (f a b) (is_new st).
Proof.
  intros H H'. unfold x_fun2. eapply run_get; [exact H|]. eapply run_get; [exact H'|].
  eapply run_bind_r; [apply run_pure|]. intros st' x y X (-> & ->). apply run_fresh.
Qed.
Lemma upd_app {A} (l xs : list A) i x : length l <= i -> upd (l ++ xs) i x = l ++ upd xs (i - length l) x.
Proof.
  revert i. induction l as [|a l IH]; intros i H; cbn; [rewrite Nat.sub_0_r; reflexivity|]. destruct i as [|i]; [cbn in H; lia|]. rewrite IH by (cbn in H; lia). reflexivity.
Qed.
Lemma upd_eq {A} (l : list A) i x : i < length l -> nth_error (upd l i x) i = Some x.
Proof. revert i. induction l as [|a l IH]; intros i H; cbn in *; [lia|]. destruct i; cbn; [reflexivity|]. apply IH. lia. Qed.
Lemma upd_ne {A} (l : list A) i j x : i <> j -> nth_error (upd l i x) j = nth_error l j.
Proof. revert i j. induction l as [|a l IH]; intros i j H; cbn; [reflexivity|]. destruct i, j; cbn; try reflexivity; try lia. apply IH. lia. Qed.
Lemma upd_length {A} (l : list A) i x : length (upd l i x) = length l.
Proof. revert i. induction l as [|a l IH]; intros i; cbn; [reflexivity|]. destruct i; cbn; auto. Qed.

(** the same memory with one array, or one object, made in or after [st] changed *)
Lemma ext_set_arr st st' i a : ext st st' -> length (m_arrs st) <= i -> ext st (MEM (upd (m_arrs st') i a) (m_objs st')).
Proof. intros (xs & ys & Ha & Ho) H. rewrite Ha, upd_app by exact H. exists (upd xs (i - length (m_arrs st)) a), ys. auto. Qed.
Lemma ext_set_obj st st' i o : ext st st' -> length (m_objs st) <= i -> ext st (MEM (m_arrs st') (upd (m_objs st') i o)).
Proof. intros (xs & ys & Ha & Ho) H. rewrite Ho, upd_app by exact H. exists xs, (upd ys (i - length (m_objs st)) o). auto. Qed.

Lemma run_nonzero_invert st i l : vector st i = Some l -> run st (x_nonzero_invert i) (Ok tt) (fun st' j _ => vector st' j = Some (nonzero_invert l)).
Proof.
  intros H. unfold x_nonzero_invert, run, pbind, getv, new_arr, set_arr, ret, vector in *. rewrite H. cbn [fst snd m_arrs m_objs].
  destruct (nth_error (m_arrs st) i) as [[l'| |]|] eqn:Hi; try discriminate. injection H as ->.
  rewrite nth_error_app2, Nat.sub_diag by lia. cbn [nth_error fst snd m_arrs m_objs]. split.
  - apply (ext_set_arr st (MEM (m_arrs st ++ [AV l]) (m_objs st))); [|cbn; lia]. exists [AV l], []. cbn. rewrite app_nil_r. auto.
  - cbn. rewrite upd_eq by (rewrite app_length; cbn; lia). reflexivity.
Qed.

(** ** in-place methods on new objects *)
Lemma tab_ext r c f g : (forall i j, i < r -> j < c -> f i j = g i j) -> tab r c f = tab r c g.
Proof.
  intros H. unfold tab. f_equal. apply map_ext_in. intros i Hi. apply in_seq in Hi. apply map_ext_in. intros j Hj. apply in_seq in Hj. apply H; lia.
Qed.
Lemma plog_steps d : d_map fln (d_map at_least1 d) = d_map dplog1 d.
Proof. unfold d_map at 1 3. cbn [d_nr d_nc d_map tab]. apply tab_ext. intros i j Hi Hj. unfold d_map. rewrite dent_tab by assumption. reflexivity. Qed.
Definition new_then (st st' : mem) (o : nat) (p : prog unit) (m : matrix) : Prop :=
  ext st (fst (p st')) /\ snd (p st') = Ok tt /\ is_new st (fst (p st')) o m.
Lemma value_obj st i m : value st i = Some m -> exists ob, nth_error (m_objs st) i = Some ob /\
  match m with MD d => exists d0, nth_error (m_arrs st) (mo_arr ob) = Some (AD d0) /\ d = view_of (mo_view ob) d0
             | MS c => nth_error (m_arrs st) (mo_arr ob) = Some (AS c) end.
Proof.
  unfold value. destruct (nth_error (m_objs st) i) as [ob|]; [|discriminate]. destruct (nth_error (m_arrs st) (mo_arr ob)) as [[l|d|c]|] eqn:H; try discriminate; intros Q; injection Q as <-.
  - exists ob. split; [reflexivity|]. exists d. auto.
  - exists ob. auto.
Qed.
Lemma nth_lt {A} (l : list A) i x : nth_error l i = Some x -> i < length l.
Proof. intros H. apply nth_error_Some. congruence. Qed.
(** shape of the final memory: a new array, and the object bound to it *)
Lemma rebind_new st st' o a v : ext st st' -> length (m_objs st) <= o -> o < length (m_objs st') ->
  let st2 := MEM (m_arrs st' ++ [arr_of a]) (upd (m_objs st') o (MO (length (m_arrs st')) v)) in
  v = None -> ext st st2 /\ is_new st st2 o a.
Proof.
  intros X L Lt st2 ->. split.
  - apply (ext_set_obj st (MEM (m_arrs st' ++ [arr_of a]) (m_objs st'))); [|exact L]. eapply ext_trans; [exact X|]. exists [arr_of a], []. cbn. rewrite app_nil_r. auto.
  - pose proof (ext_len _ _ X) as (_ & La). unfold is_new, value, st2. cbn [m_arrs m_objs]. rewrite upd_eq by exact Lt. cbn [mo_arr mo_view].
    rewrite nth_error_app2, Nat.sub_diag by lia. cbn [nth_error]. split; [destruct a; reflexivity|]. split; [exact L|]. eexists. split; [reflexivity|]. cbn. split; [lia|reflexivity].
Qed.
Lemma plog_new st st' o m : ext st st' -> is_new st st' o m -> new_then st st' o (x_plog o) (m_plog m).
Proof.
  intros X (V & L & ob & H1 & H2 & H3). destruct (value_obj _ _ _ V) as (ob' & Ho & HA). rewrite H1 in Ho. injection Ho as <-.
  unfold new_then, x_plog, pbind, get_obj, get_arr. rewrite H1. destruct m as [d|c].
  - destruct HA as (d0 & Ha & ->). rewrite Ha. unfold set_arr, get, value. cbn [m_arrs m_objs fst snd]. rewrite H1, upd_eq by (eapply nth_lt; exact Ha). rewrite H3.
    cbn [view_of to_dense]. unfold new_arr, set_obj. cbn [fst snd m_arrs m_objs].
    destruct (rebind_new st (MEM (upd (m_arrs st') (mo_arr ob) (AD (d_map at_least1 d0))) (m_objs st')) o (MD (d_map fln (d_map at_least1 d0))) None) as (Y1 & Y2); auto.
    { apply ext_set_arr; assumption. } { cbn. eapply nth_lt; exact H1. }
    cbn [m_arrs m_objs arr_of] in Y1, Y2. rewrite plog_steps in Y1, Y2. cbn [m_plog]. rewrite plog_steps. split; [exact Y1|]. split; [reflexivity|exact Y2].
  - rewrite HA. unfold set_arr. cbn [fst snd m_plog]. split; [apply ext_set_arr; assumption|]. split; [reflexivity|].
    unfold is_new, value. cbn [m_arrs m_objs]. rewrite H1, upd_eq by (eapply nth_lt; exact HA). split; [reflexivity|]. split; [exact L|]. exists ob. auto.
Qed.
Lemma nonneg_new st st' o m : ext st st' -> is_new st st' o m -> new_then st st' o (x_to_non_negative o) (m_to_non_negative m).
Proof.
  intros X (V & L & ob & H1 & H2 & H3). destruct (value_obj _ _ _ V) as (ob' & Ho & HA). rewrite H1 in Ho. injection Ho as <-.
  unfold new_then, x_to_non_negative, pbind, get_obj, get_arr. rewrite H1. destruct m as [d|c].
  - destruct HA as (d0 & Ha & ->). rewrite Ha. unfold get. rewrite V. cbn [to_dense m_to_non_negative]. unfold new_arr, set_obj. cbn [fst snd m_arrs m_objs].
    destruct (rebind_new st st' o (MD (d_map pos_part (view_of (mo_view ob) d0))) None) as (Y1 & Y2); auto. { eapply nth_lt; exact H1. }
  - rewrite HA. unfold set_arr. cbn [fst snd m_to_non_negative]. split; [apply ext_set_arr; assumption|]. split; [reflexivity|].
    unfold is_new, value. cbn [m_arrs m_objs]. rewrite H1, upd_eq by (eapply nth_lt; exact HA). split; [reflexivity|]. split; [exact L|]. exists ob. auto.
Qed.
Lemma ones_new st st' o m : ext st st' -> is_new st st' o m -> new_then st st' o (x_to_ones o) (m_to_ones m).
Proof.
  intros X (V & L & ob & H1 & H2 & H3). destruct (value_obj _ _ _ V) as (ob' & Ho & HA). rewrite H1 in Ho. injection Ho as <-.
  unfold new_then, x_to_ones, pbind, get_obj, get_arr. rewrite H1. destruct m as [d|c].
  - destruct HA as (d0 & Ha & ->). rewrite Ha. unfold get. rewrite V. cbn [to_dense m_to_ones]. unfold new_arr, set_obj. cbn [fst snd m_arrs m_objs].
    destruct (rebind_new st st' o (MD (d_map one_pos (view_of (mo_view ob) d0))) None) as (Y1 & Y2); auto. { eapply nth_lt; exact H1. }
  - rewrite HA. unfold set_arr. cbn [fst snd m_to_ones]. split; [apply ext_set_arr; assumption|]. split; [reflexivity|].
    unfold is_new, value. cbn [m_arrs m_objs]. rewrite H1, upd_eq by (eapply nth_lt; exact HA). split; [reflexivity|]. split; [exact L|]. exists ob. auto.
Qed.
(** a step on a new object, inside a computation that started in [st] *)
Lemma run_mut {A' B'} st (p : prog nat) (r : res matrix) (q : nat -> prog unit) (g : matrix -> matrix) (k : nat -> prog A') (k' : matrix -> res B') rel' :
  run st p r (is_new st) ->
  (forall st' o m, ext st st' -> is_new st st' o m -> new_then st st' o (q o) (g m)) ->
  (forall st' o m, ext st st' -> is_new st st' o (g m) -> run st' (k o) (k' (g m)) rel') ->
  run st (pbind p (fun o => pbind (q o) (fun _ => k o))) (bind r (fun m => k' (g m))) rel'.
Proof.
  intros (X & H) HQ HK. unfold run, pbind. destruct (p st) as [st' [o|e]]; cbn [fst snd] in *.
  - destruct r as [m|]; [|contradiction]. destruct (HQ st' o m X H) as (Y1 & Y2 & Y3). destruct (q o st') as [st2 q2]. cbn [fst snd] in *. subst q2.
    destruct (HK st2 o m Y1 Y3) as (Z1 & Z2). cbn [bind]. split; [eapply ext_trans; eassumption|exact Z2].
  - destruct r as [m|e']; [contradiction|]. cbn. auto.
Qed.
(** conversions *)
Lemma run_conv st t i m : value st i = Some m -> run st (x_conv t i) (Ok (conv t m)) (fun st' j v => value st' j = Some v /\ length (m_objs st) <= j).
Proof.
  intros H. unfold x_conv. destruct (value_obj _ _ _ H) as (ob & Ho & HA). unfold run, pbind, get_obj, get. rewrite Ho, H.
  destruct (mtype_eqb (type_of m) t) eqn:Q.
  - split; [exists [], [ob]; rewrite app_nil_r; auto|]. cbn. unfold value. cbn [m_arrs m_objs]. rewrite nth_error_app2, Nat.sub_diag by lia. cbn [nth_error].
    split; [|lia]. destruct m as [d|c], t; try discriminate; cbn [conv to_dense to_sparse].
    + destruct HA as (d0 & -> & ->). reflexivity.
    + rewrite HA. reflexivity.
  - destruct (run_fresh st (conv t m)) as (X & Y). split; [exact X|]. destruct (snd (fresh (conv t m) st)); [|contradiction]. destruct Y as (V & L & _). auto.
Qed.
(** the conversion of a new object is a new object *)
Lemma run_conv_new st0 st t i m : ext st0 st -> is_new st0 st i m -> run st (x_conv t i) (Ok (conv t m)) (is_new st0).
Proof.
  intros X0 HN. pose proof HN as (H & L & ob0 & H1 & H2 & H3). unfold x_conv. destruct (value_obj _ _ _ H) as (ob & Ho & HA).
  assert (ob0 = ob) by congruence. subst ob0. unfold run, pbind, get_obj, get. rewrite Ho, H. pose proof (ext_len _ _ X0) as (L1 & L2).
  destruct (mtype_eqb (type_of m) t) eqn:Q.
  - split; [exists [], [ob]; rewrite app_nil_r; auto|]. cbn. unfold is_new, value. cbn [m_arrs m_objs]. rewrite nth_error_app2, Nat.sub_diag by lia. cbn [nth_error].
    split; [|split; [lia|exists ob; auto]]. destruct m as [d|c], t; try discriminate; cbn [conv to_dense to_sparse].
    + destruct HA as (d0 & -> & ->). reflexivity.
    + rewrite HA. reflexivity.
  - destruct (run_fresh st (conv t m)) as (X & Y). split; [exact X|]. destruct (snd (fresh (conv t m) st)); [|contradiction]. eapply is_new_older; eassumption.
Qed.
Lemma run_get_bind {A' B'} st i m (k : matrix -> prog A') (r : res B') rel : value st i = Some m -> run st (k m) r rel -> run st (pbind (get i) k) r rel.
Proof. apply run_get. Qed.
Lemma resolve2_unfold a b t : resolve2 a b t = if type_conflict [a; b] then match t with Some t => Ok (conv t a, conv t b) | None => Err TypeError end else Ok (a, b).
Proof. unfold resolve2, resolve_type_conflict. destruct (type_conflict [a; b]); [destruct t|]; reflexivity. Qed.
Lemma run_resolve2 st i j a b t : value st i = Some a -> value st j = Some b ->
  run st (x_resolve2 i j t) (resolve2 a b t) (fun st' ij ab => value st' (fst ij) = Some (fst ab) /\ value st' (snd ij) = Some (snd ab)).
Proof.
  intros Ha Hb. rewrite resolve2_unfold. unfold x_resolve2. apply (run_get st i a); [exact Ha|]. apply (run_get st j b); [exact Hb|].
  destruct (type_conflict [a; b]); [|apply run_ret; auto]. destruct t as [t|]; [|apply run_raise].
  change (Ok (conv t a, conv t b)) with (let* x := Ok (conv t a) in let* y := Ok (conv t b) in Ok (x, y)).
  eapply run_bind; [apply run_conv; exact Ha|]. intros st1 i' x X1 (V1 & _).
  eapply run_bind; [apply run_conv; eapply value_ext; eassumption|]. intros st2 j' y X2 (V2 & _). apply run_ret. cbn. split; [eapply value_ext; eassumption|exact V2].
Qed.
Lemma run_and {A B} st (p : prog A) (r : res B) (rel rel' : mem -> A -> B -> Prop) : run st p r rel -> run st p r rel' -> run st p r (fun st' a b => rel st' a b /\ rel' st' a b).
Proof. intros (X & H) (_ & H'). split; [exact X|]. destruct (snd (p st)), r; auto. Qed.
Lemma value_lt st i m : value st i = Some m -> i < length (m_objs st).
Proof. intros H. destruct (value_obj _ _ _ H) as (ob & Ho & _). eapply nth_lt; exact Ho. Qed.
Lemma run_resolve2_new st0 st i j a b t : ext st0 st -> is_new st0 st i a -> is_new st0 st j b -> i < j ->
  run st (x_resolve2 i j t) (resolve2 a b t) (fun st' ij ab => is_new st0 st' (fst ij) (fst ab) /\ is_new st0 st' (snd ij) (snd ab) /\ fst ij < snd ij).
Proof.
  intros X0 Ha Hb Hij. rewrite resolve2_unfold. unfold x_resolve2. apply (run_get st i a); [apply (is_new_value _ _ _ _ Ha)|]. apply (run_get st j b); [apply (is_new_value _ _ _ _ Hb)|].
  destruct (type_conflict [a; b]); [|apply run_ret; auto]. destruct t as [t|]; [|apply run_raise].
  change (Ok (conv t a, conv t b)) with (let* x := Ok (conv t a) in let* y := Ok (conv t b) in Ok (x, y)).
  eapply run_bind; [apply (run_conv_new st0); eassumption|]. intros st1 i' x X1 V1.
  eapply run_bind; [apply run_and; [apply (run_conv_new st0 st1 t j b); [eapply ext_trans; eassumption|eapply is_new_ext; eassumption]|apply (run_conv st1 t j b); eapply value_ext; [exact X1|apply (is_new_value _ _ _ _ Hb)]]|].
  intros st2 j' y X2 (V2 & _ & L2). apply run_ret. cbn. split; [eapply is_new_ext; eassumption|]. split; [exact V2|]. pose proof (value_lt _ _ _ (is_new_value _ _ _ _ V1)). lia.
Qed.
(** computations that may also change what was made since [st0] *)
Definition run_from {A B} (st0 st : mem) (p : prog A) (r : res B) (rel : mem -> A -> B -> Prop) : Prop :=
  ext st0 (fst (p st)) /\ match snd (p st), r with Ok a, Ok b => rel (fst (p st)) a b | Err e, Err e' => e = e' | _, _ => False end.
Lemma run_run_from {A B} st0 st (p : prog A) (r : res B) rel : ext st0 st -> run st p r rel -> run_from st0 st p r rel.
Proof. intros X (Y & H). split; [eapply ext_trans; eassumption|exact H]. Qed.
Lemma run_from_bind {A B A' B'} st0 st (p : prog A) (r : res B) rel (k : A -> prog A') (k' : B -> res B') rel' :
  run_from st0 st p r rel -> (forall st' a b, ext st0 st' -> rel st' a b -> run_from st0 st' (k a) (k' b) rel') -> run_from st0 st (pbind p k) (bind r k') rel'.
Proof.
  intros (H1 & H2) HK. unfold run_from, pbind. destruct (p st) as [st' [a|e]]; cbn [fst snd] in *.
  - destruct r as [b|]; [|contradiction]. destruct (HK st' a b H1 H2) as (H3 & H4). cbn [bind]. split; [exact H3|exact H4].
  - destruct r as [b|e']; [contradiction|]. subst. cbn. auto.
Qed.
(** reshape touches its own object only *)
Lemma reshape_frame o r c st o' m : o' <> o -> value st o' = Some m -> value (fst (x_reshape o r c st)) o' = Some m.
Proof.
  intros Hne V. unfold x_reshape, pbind, get_obj, get_arr, get, pure, set_obj, new_arr, raise. destruct (nth_error (m_objs st) o) as [ob|]; [|exact V].
  destruct (nth_error (m_arrs st) (mo_arr ob)) as [[l|d|s]|]; cbn [fst snd]; try exact V.
  - destruct (value st o) as [mm|]; [|exact V]. destruct (Nat.eqb _ _); cbn [check fst snd]; [|exact V]. unfold value. cbn [m_arrs m_objs]. rewrite upd_ne by auto. exact V.
  - destruct (s_reshape s r c); cbn [fst snd m_arrs m_objs]; [|exact V]. unfold value in *. cbn [m_arrs m_objs]. rewrite upd_ne by auto.
    destruct (nth_error (m_objs st) o') as [ob'|]; [|discriminate]. destruct (nth_error (m_arrs st) (mo_arr ob')) as [x|] eqn:HA; [|discriminate]. rewrite (nth_ext _ _ _ _ HA). exact V.
Qed.
End PImp.
Ltac xt := solve [eassumption | apply ext_refl | eauto 9 using ext_trans].
