(** PComp.v -- lemmas about the composition model. *)
From Verif Require Import Base PyList Dict Num Dense Sparse Matrix PSparse PMatrix PMatOps Scaling Linalg Operation
  Similarity Space Peripheral SpecSpace PShape PDictList PSpace Prop_Space PVals Learner Composition SpecComp.
Section PComp.
Context {N : Num} {E : Ext}.
Local Open Scope string_scope.
Local Open Scope list_scope.
Local Open Scope nat_scope.

Lemma pos_of_some l w p : pos_of l w = Some p -> nth_error l p = Some w.
Proof.
  revert p; induction l as [|x xs IH]; cbn; intros p H; [discriminate|].
  destruct (String.eqb_spec w x) as [->|Hn]; [inversion H; reflexivity|].
  destruct (pos_of xs w) as [q|]; [|discriminate]. inversion H; subst. cbn. apply IH. reflexivity.
Qed.
Lemma pos_of_In l w : In w l -> exists p, pos_of l w = Some p.
Proof.
  induction l as [|x xs IH]; cbn; [contradiction|]. intros H. destruct (String.eqb_spec w x) as [->|Hn]; [eauto|].
  destruct IH as (p & ->); [destruct H; [congruence|assumption]|]. eauto.
Qed.
Lemma pos_of_None l w : pos_of l w = None -> ~ In w l.
Proof. intros H K. apply pos_of_In in K. destruct K as (p & K). congruence. Qed.
Lemma known_In s w : known s w = true <-> In w (s_id2row s).
Proof.
  unfold known. rewrite existsb_exists. split.
  - intros (x & H & K). apply String.eqb_eq in K. subst. exact H.
  - intros H. exists w. split; [exact H|apply String.eqb_refl].
Qed.
Lemma known_dmem s w : consistent s -> dmem (s_row2id s) w = known s w.
Proof.
  intros (_&_&_&(_&_&Hk&_)&_). destruct (known s w) eqn:Ek.
  - apply dmem_In, Hk, known_In, Ek.
  - apply dmem_false. intros H. apply Hk in H. apply known_In in H. congruence.
Qed.

Lemma get_rows_vals s ws : consistent s -> ws <> [] -> (forall w, In w ws -> known s w = true) ->
  exists r, get_rows s ws = Ok r /\
    vals r (type_of (s_mat s)) (length ws) (m_nc (s_mat s)) (fun i j => vec s (nth i ws "") j).
Proof.
  intros Hc Hne Hk. destruct (C03_get_rows s ws Hc Hne) as (r & Hr & W & T & R & C & Hv); [intros; apply known_In; auto|].
  exists r. split; [exact Hr|]. split; [split; [exact W|split; [exact T|split; [exact R|exact C]]]|].
  intros i j Hi Hj. unfold vec. assert (Hin : In (nth i ws "") ws) by (apply nth_In; assumption).
  destruct (pos_of_In (s_id2row s) (nth i ws "")) as (p & Hp); [apply known_In; auto|]. rewrite Hp.
  apply (Hv i (nth i ws "") p j); [apply nth_error_nth'; assumption|apply pos_of_some, Hp|assumption].
Qed.

Lemma get_row_vals s w : consistent s -> known s w = true ->
  exists r, get_row s w = Ok r /\ vals r (type_of (s_mat s)) 1 (m_nc (s_mat s)) (fun _ j => vec s w j).
Proof.
  intros Hc Hk. apply known_In in Hk. destruct (pos_of_In _ _ Hk) as (p & Hp).
  destruct (C03_get_row s w p Hc (pos_of_some _ _ _ Hp)) as (r & Hr & W & T & R & C & Hv).
  exists r. split; [exact Hr|]. split; [split; [exact W|split; [exact T|split; [exact R|exact C]]]|].
  intros i j Hi Hj. unfold vec. rewrite Hp. replace i with 0 by lia. apply Hv, Hj.
Qed.

(** ** validity of tuples *)
Lemma args_extract a s1 s2 : args_of a s1 s2 ->
  extract_arg_spaces a = if strings_eqb (s_id2col s1) (s_id2col s2) then Ok (s1, s2) else Err ValueError.
Proof.
  intros [(->&->)| ->]; unfold extract_arg_spaces; cbn [bind]; destruct (strings_eqb _ _); reflexivity.
Qed.
Lemma valid_eq2 s1 s2 : consistent s1 -> consistent s2 -> forall t,
  valid_tuple (Some (s_row2id s1)) (Some (s_row2id s2)) None t = usable2 s1 s2 t.
Proof.
  intros C1 C2 [[a b] p]. unfold valid_tuple, opt_in, t1, t2, usable2. cbn [fst snd]. rewrite !known_dmem by assumption.
  apply andb_true_r.
Qed.
Lemma valid_eq3 s1 s2 sp : consistent s1 -> consistent s2 -> consistent sp -> forall t,
  valid_tuple (Some (s_row2id s1)) (Some (s_row2id s2)) (Some (s_row2id sp)) t = usable3 s1 s2 sp t.
Proof.
  intros C1 C2 C3 [[a b] p]. unfold valid_tuple, opt_in, t1, t2, t3, usable3. cbn [fst snd]. rewrite !known_dmem by assumption.
  reflexivity.
Qed.
Lemma filter_idem {A} (f : A -> bool) l : filter f (filter f l) = filter f l.
Proof. induction l as [|x xs IH]; cbn; [reflexivity|]. destruct (f x) eqn:H; cbn; rewrite ?H, IH; reflexivity. Qed.

Lemma valid_data_eq data d1 d2 d3 f : (forall t, valid_tuple d1 d2 d3 t = f t) ->
  valid_data_to_lists data d1 d2 d3 =
  match data with [] => Err UnboundLocalError
  | _ => match filter f data with [] => Err ValueError
         | v => Ok (map t1 v, map t2 v, map t3 v) end end.
Proof.
  intros H. unfold valid_data_to_lists. rewrite (filter_ext _ _ H). destruct data as [|x xs]; [reflexivity|].
  destruct (filter f (x :: xs)) as [|y ys]; reflexivity.
Qed.
Lemma valid_data_kept data d1 d2 d3 f : (forall t, valid_tuple d1 d2 d3 t = f t) -> filter f data <> [] ->
  valid_data_to_lists data d1 d2 d3 = valid_data_to_lists (filter f data) d1 d2 d3.
Proof.
  intros H Hne. rewrite !(valid_data_eq _ d1 d2 d3 f H), filter_idem.
  destruct data; [cbn in Hne; congruence|]. destruct (filter f _) as [|y ys]; [congruence|reflexivity].
Qed.

Lemma valid_data_ok data d1 d2 d3 f : (forall t, valid_tuple d1 d2 d3 t = f t) -> filter f data <> [] ->
  valid_data_to_lists data d1 d2 d3 = Ok (map t1 (filter f data), map t2 (filter f data), map t3 (filter f data)).
Proof.
  intros H Hne. rewrite (valid_data_eq data d1 d2 d3 f H). destruct data; [cbn in Hne; congruence|].
  destruct (filter f _) as [|y ys]; [congruence|reflexivity].
Qed.

(** ** type resolution *)
Lemma resolve2_vals a b ta tb r1 c1 r2 c2 f g : vals a ta r1 c1 f -> vals b tb r2 c2 g ->
  exists a' b' t, resolve2 a b (Some TDense) = Ok (a', b') /\ vals a' t r1 c1 f /\ vals b' t r2 c2 g /\
    t = (if mtype_eqb ta tb then ta else TDense).
Proof.
  intros Ha Hb. destruct (mtype_eqb ta tb) eqn:Et.
  - apply mtype_eqb_eq in Et. subst tb. exists a, b, ta. rewrite resolve2_same by (rewrite (vals_type _ _ _ _ _ Ha), (vals_type _ _ _ _ _ Hb); reflexivity).
    auto.
  - exists (conv TDense a), (conv TDense b), TDense. split; [|split; [eapply vals_conv; eassumption|split; [eapply vals_conv; eassumption|reflexivity]]].
    unfold resolve2, resolve_type_conflict, type_conflict. cbn [existsb]. rewrite (vals_type _ _ _ _ _ Ha), (vals_type _ _ _ _ _ Hb).
    destruct ta, tb; cbn in Et |- *; congruence.
Qed.
Lemma resolve3_vals a b c ta tb tc r1 c1 r2 c2 r3 c3 f g h ty : vals a ta r1 c1 f -> vals b tb r2 c2 g -> vals c tc r3 c3 h ->
  exists a' b' c' t, resolve3 a b c (Some ty) = Ok (a', b', c') /\ vals a' t r1 c1 f /\ vals b' t r2 c2 g /\ vals c' t r3 c3 h /\
    t = (if mtype_eqb ta tb && mtype_eqb ta tc then ta else ty).
Proof.
  intros Ha Hb Hc. destruct (mtype_eqb ta tb && mtype_eqb ta tc) eqn:Et.
  - apply andb_true_iff in Et. destruct Et as (E1 & E2). apply mtype_eqb_eq in E1, E2. subst tb tc.
    exists a, b, c, ta. split; [|auto].
    unfold resolve3, resolve_type_conflict, type_conflict. cbn [existsb].
    rewrite (vals_type _ _ _ _ _ Ha), (vals_type _ _ _ _ _ Hb), (vals_type _ _ _ _ _ Hc). destruct ta; reflexivity.
  - exists (conv ty a), (conv ty b), (conv ty c), ty.
    split; [|split; [eapply vals_conv; eassumption|split; [eapply vals_conv; eassumption|split; [eapply vals_conv; eassumption|reflexivity]]]].
    unfold resolve3, resolve_type_conflict, type_conflict. cbn [existsb].
    rewrite (vals_type _ _ _ _ _ Ha), (vals_type _ _ _ _ _ Hb), (vals_type _ _ _ _ _ Hc).
    destruct ta, tb, tc; cbn in Et |- *; congruence.
Qed.

(** ** what each model computes on matrices *)
Definition padv (n : nat) (icpt : bool) (v : nat -> F) (k : nat) : F := if icpt && Nat.eqb k n then f1 else v k.
Definition gform (k : ckind) (n1 n2 : nat) (u v : nat -> F) (j : nat) : F :=
  match k with
  | WAdd a b => fadd (fmul (u j) a) (fmul (v j) b)
  | Mult => fmul (u j) (v j)
  | Dil l => fadd (fmul (fmul (u j) (sumn n1 (fun q => fmul (u q) (v q)))) (fsub l f1))
                  (fmul (v j) (fsq (fsqrt (sumn n1 (fun q => fmul (u q) (u q))))))
  | FAdd (Some (A, B)) i _ =>
      fadd (sumn n1 (fun q => fmul (u q) (ment A q j)))
           (sumn (if i then n2 + 1 else n2) (fun q => fmul (padv n2 i v q) (ment B q j)))
  | FAdd None _ _ => f0
  end.
Lemma nth_map_in {A B} (g : A -> B) l i d d' : i < length l -> nth i (map g l) d = g (nth i l d').
Proof. intros H. rewrite nth_indep with (d' := g d') by (rewrite map_length; assumption). apply map_nth. Qed.

Lemma m_norm1_nth a t r c f i : vals a t r c f -> i < r ->
  nth i (m_norm1 a) f0 = fsqrt (sumn c (fun q => fmul (f i q) (f i q))).
Proof.
  intros Ha Hi. destruct (vals_multiply a a t r c f f Ha Ha) as (z & Ez & Vz).
  pose proof (vals_pos _ _ _ _ _ Ha) as (Hr & Hc).
  unfold m_norm1. set (y := of_dense _ _).
  assert (Vy : vals y t r c (fun i j => fmul (f i j) (f i j))).
  { unfold y, d_map2. rewrite (vals_type _ _ _ _ _ Ha), to_dense_nr, to_dense_nc, (vals_nr _ _ _ _ _ Ha), (vals_nc _ _ _ _ _ Ha).
    eapply vals_ext; [apply vals_of_dense; assumption|]. intros. cbn beta. rewrite (vals_dent a t r c f) by assumption. reflexivity. }
  rewrite (nth_map_in fsqrt (m_sum1 y) i f0 f0).
  - f_equal. exact (vals_sum1 y t r c _ i Vy Hi).
  - unfold m_sum1, d_sum1. rewrite map_length, seq_length, to_dense_nr, (vals_nr _ _ _ _ _ Vy). exact Hi.
Qed.
Lemma m_norm1_length a : length (m_norm1 a) = m_nr a.
Proof.
  unfold m_norm1, m_sum1, d_sum1. rewrite !map_length, seq_length, to_dense_nr, of_dense_nr. cbn. apply to_dense_nr.
Qed.
Lemma m_sum1_length a : length (m_sum1 a) = m_nr a.
Proof. unfold m_sum1, d_sum1. rewrite map_length, seq_length. apply to_dense_nr. Qed.

Lemma padd1_vals a t r c f x : vals a t r c f ->
  exists z, padd_matrix a 1 x = Ok z /\ vals z t r (c + 1) (fun i j => if Nat.ltb j c then f i j else x).
Proof.
  intros Ha. pose proof (vals_pos _ _ _ _ _ Ha) as (Hr & Hc). unfold padd_matrix.
  rewrite (vals_type _ _ _ _ _ Ha), (vals_nr _ _ _ _ _ Ha).
  exact (vals_hstack a _ t r c 1 f (fun _ _ => x) Ha (vals_const t r 1 x Hr ltac:(lia))).
Qed.
Lemma padd0_vals a t r c f x : vals a t r c f ->
  exists z, padd_matrix a 0 x = Ok z /\ vals z t (r + 1) c (fun i j => if Nat.ltb i r then f i j else x).
Proof.
  intros Ha. pose proof (vals_pos _ _ _ _ _ Ha) as (Hr & Hc). unfold padd_matrix.
  rewrite (vals_type _ _ _ _ _ Ha), (vals_nc _ _ _ _ _ Ha).
  exact (vals_vstack a _ t r 1 c f (fun _ _ => x) Ha (vals_const t 1 c x ltac:(lia) Hc)).
Qed.

Lemma dil_compose_vals l u v t r n f g : vals u t r n f -> vals v t r n g ->
  exists z, dil_compose l u v = Ok z /\ vals z t r n (fun i j => gform (Dil l) n n (f i) (g i) j).
Proof.
  intros Hu Hv. unfold dil_compose. destruct (vals_multiply u v t r n f g Hu Hv) as (uv & -> & Vuv). cbn [bind].
  destruct (vals_scale_rows u t r n f (m_sum1 uv) Hu) as (us & -> & Vus).
  { rewrite m_sum1_length. exact (vals_nr _ _ _ _ _ Vuv). }
  cbn [bind]. destruct (vals_scale_rows v t r n g (map fsq (m_norm1 u)) Hv) as (vs & -> & Vvs).
  { rewrite map_length, m_norm1_length. exact (vals_nr _ _ _ _ _ Hu). }
  cbn [bind]. destruct (vals_add _ _ t r n _ _ (vals_scal (fsub l f1) us t r n _ Vus) Vvs) as (z & Ez & Vz).
  exists z. split; [exact Ez|]. eapply vals_ext; [exact Vz|]. intros i j Hi Hj. cbn beta iota delta [gform].
  rewrite (vals_sum1 uv t r n _ i Vuv Hi).
  rewrite (nth_map_in fsq (m_norm1 u) i f0 f0) by (rewrite m_norm1_length, (vals_nr _ _ _ _ _ Hu); exact Hi).
  rewrite (m_norm1_nth u t r n f i Hu Hi). reflexivity.
Qed.

Lemma fadd_compose_vals A B i L u v t r n1 n2 f g : vals u t r n1 f -> vals v t r n2 g -> fits (FAdd (Some (A, B)) i L) n1 n2 ->
  exists z, fadd_compose (Some (A, B)) i u v = Ok z /\
    vals z t r (m_nc A) (fun x j => gform (FAdd (Some (A, B)) i L) n1 n2 (f x) (g x) j).
Proof.
  intros Hu Hv (WA & WB & RA & RB & CC). unfold fadd_compose. rewrite (vals_type _ _ _ _ _ Hu).
  destruct (resolve3_vals A B u _ _ _ _ _ _ _ _ _ _ _ _ t (vals_self A WA) (vals_self B WB) Hu) as (A' & B' & u' & t' & -> & VA & VB & Vu & Et').
  assert (t' = t). { rewrite Et'. destruct (mtype_eqb (type_of A) (type_of B)); cbn [andb]; [|reflexivity]. destruct (mtype_eqb (type_of A) t) eqn:Q; [apply mtype_eqb_eq in Q; exact Q|reflexivity]. }
  clear Et'. subst t'. cbn [bind]. rewrite RA in VA. destruct (vals_mul u' A' t r n1 (m_nc A) _ _ Vu VA) as (x & -> & Vx). cbn [bind].
  assert (Hp : exists v', (if i then padd_matrix v 1 f1 else Ok v) = Ok v' /\ vals v' t r (if i then n2 + 1 else n2) (fun a q => padv n2 i (g a) q)).
  { destruct i.
    - destruct (padd1_vals v t r n2 g f1 Hv) as (v' & -> & Vv). exists v'. split; [reflexivity|]. eapply vals_ext; [exact Vv|].
      intros a b Ha Hb. unfold padv. cbn [andb]. destruct (Nat.ltb_spec b n2), (Nat.eqb_spec b n2); try lia; reflexivity.
    - exists v. split; [reflexivity|]. eapply vals_ext; [exact Hv|]. intros. reflexivity. }
  destruct Hp as (v' & -> & Vv'). cbn [bind]. rewrite RB, <- CC in VB.
  destruct (vals_mul v' B' t r _ (m_nc A) _ _ Vv' VB) as (y & -> & Vy). cbn [bind].
  destruct (vals_add x y t r (m_nc A) _ _ Vx Vy) as (z & Ez & Vz). exists z. split; [exact Ez|].
  eapply vals_ext; [exact Vz|]. intros a b Ha Hb. cbn beta iota delta [gform]. reflexivity.
Qed.

Lemma kind_compose_vals k u v t r n1 n2 f g : vals u t r n1 f -> vals v t r n2 g -> fits k n1 n2 ->
  exists z, kind_compose k u v = Ok z /\ vals z t r (width k n1) (fun i j => gform k n1 n2 (f i) (g i) j).
Proof.
  intros Hu Hv Hf. destruct k as [a b| |l|[[A B]|] i L]; cbn [fits] in Hf.
  - subst n2. cbn [kind_compose width gform]. unfold wadd_compose.
    exact (vals_add _ _ t r n1 _ _ (vals_scal a u t r n1 f Hu) (vals_scal b v t r n1 g Hv)).
  - subst n2. cbn [kind_compose width gform]. exact (vals_multiply u v t r n1 f g Hu Hv).
  - subst n2. apply dil_compose_vals; assumption.
  - cbn [kind_compose width]. apply fadd_compose_vals; assumption.
  - contradiction.
Qed.
End PComp.
