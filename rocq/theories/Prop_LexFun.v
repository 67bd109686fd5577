(** Prop_LexFun.v -- C40 (training of lexical functions), C41 (composition with lexical functions). *)
From Coq Require Import Reals Lra Psatz Permutation Sorted.
From Verif Require Import Base PyList Dict Num SpecReal Dense Sparse Matrix PSparse PMatrix PMatOps PShape PVals PReal PPos PReshape Scaling Linalg
  PLsq Learner Operation Similarity Space Peripheral SpecSpace PDictList PSpace Prop_Periph Composition SpecComp PComp Prop_Ridge Prop_Train Prop_Comp Prop_Fadd Utils Prop_Utils LexFun PLexFun.
#[local] Existing Instance RNum.
Open Scope string_scope.
Open Scope list_scope.
Open Scope R_scope.
Open Scope nat_scope.

(** row [r] of  U v,  and with an intercept of  U [v; 1]:  U has n (n + 1 with an intercept) columns *)
Definition apply_fun (n : nat) (icpt : bool) (U : nat -> nat -> R) (v : nat -> R) (r : nat) : R :=
  (rsum n (fun j => U r j * v j) + (if icpt then U r n else 0))%R.
(** the matrix stored, row after row, in the vector of function word [w]; it has [n'] columns *)
Definition fmatrix (fs : space) (w : string) (n' : nat) (r j : nat) : R := vec fs w (r * n' + j).
(** last dimension of a function's shape, for argument vectors of n coordinates *)
Definition domain (n : nat) (icpt : bool) : nat := if icpt then n + 1 else n.
(** number of elements of a shape *)
Definition size (sh : list nat) : nat := fold_right Nat.mul 1 sh.
Lemma size_prod sh : list_prod_nat sh = size sh.
Proof.
  unfold list_prod_nat. enough (H : forall a, fold_left Nat.mul sh a = a * size sh) by (rewrite H; lia).
  induction sh as [|x sh IH]; intros a; cbn; [lia|]. rewrite IH. fold (size sh). nia.
Qed.

Section WithExt.
Context {E : @Ext RNum}.

Lemma apply_pad n icpt U v r :
  rsum (domain n icpt) (fun j => U r j * (if Nat.ltb j n then v j else 1))%R = apply_fun n icpt U v r.
Proof.
  unfold apply_fun, domain. destruct icpt.
  - rewrite Nat.add_1_r. cbn [rsum]. rewrite Nat.ltb_irrefl.
    assert (EQ : rsum n (fun j => U r j * (if Nat.ltb j n then v j else 1))%R = rsum n (fun j => U r j * v j)%R).
    { apply rsum_ext. intros j Hj. destruct (Nat.ltb_spec j n); [reflexivity|lia]. }
    rewrite EQ. lra.
  - assert (EQ : rsum n (fun j => U r j * (if Nat.ltb j n then v j else 1))%R = rsum n (fun j => U r j * v j)%R).
    { apply rsum_ext. intros j Hj. destruct (Nat.ltb_spec j n); [reflexivity|lia]. }
    rewrite EQ. lra.
Qed.

Lemma lf_compose1_value icpt fs arg w1 w2 sh n' : consistent fs -> consistent arg -> known fs w1 = true -> known arg w2 = true ->
  (Z.of_nat (m_nc (s_mat fs)) < 2 ^ 63)%Z -> s_eshape fs = sh ++ [n'] ->
  let ty := common_type (type_of (s_mat fs)) (type_of (s_mat arg)) (1 * m_nc (s_mat fs)) (1 * m_nc (s_mat arg)) in
  let n := m_nc (s_mat arg) in
  (sh = [] -> ty = TSparse -> lf_compose1 icpt fs arg w1 w2 = Err ValueError) /\
  (~ (sh = [] /\ ty = TSparse) -> n' <> domain n icpt -> lf_compose1 icpt fs arg w1 w2 = Err ValueError) /\
  (~ (sh = [] /\ ty = TSparse) -> n' = domain n icpt -> exists v, lf_compose1 icpt fs arg w1 w2 = Ok v /\
     vals v ty 1 (size sh) (fun _ r => apply_fun n icpt (fmatrix fs w1 n') (vec arg w2) r)).
Proof.
  intros C1 C2 K1 K2 HZ Hsh ty n.
  destruct (get_row_vals fs w1 C1 K1) as (fv & Ef & Vf). destruct (get_row_vals arg w2 C2 K2) as (av & Ea & Va).
  destruct (resolve2_largest fv av _ _ _ _ _ _ _ _ Vf Va) as (fv' & av' & Er & Vf' & Va'). fold ty in Vf', Va'. fold n in Va'.
  unfold lf_compose1. rewrite Ef. cbn [bind]. rewrite Ea. cbn [bind]. rewrite Er. cbn [bind].
  unfold lf_apply. rewrite Hsh, removelast_last, last_last.
  assert (EL : Nat.eqb (length (sh ++ [n'])) 0 = false) by (rewrite app_length; cbn; destruct (length sh); reflexivity).
  rewrite EL. cbn [negb check bind]. rewrite (vals_type _ _ _ _ _ Vf').
  assert (HS : size sh * n' = m_nc (s_mat fs)).
  { destruct C1 as (_&_&_&_&_&_&_&Hp&_). rewrite <- Hp, Hsh, prod_snoc, size_prod. reflexivity. }
  split; [intros -> ->; reflexivity|].
  assert (HC : ~ (sh = [] /\ ty = TSparse) -> (Nat.eqb (length sh) 0 && mtype_eqb ty TSparse)%bool = false).
  { intros HN. destruct sh as [|x sh]; [|reflexivity]. cbn. destruct ty; [reflexivity|exfalso; apply HN; auto]. }
  assert (HR : exists u, m_reshape fv' (list_prod_nat sh) n' = Ok u /\ vals u ty (size sh) n' (fun r j => vec fs w1 (r * n' + j))).
  { destruct (vals_reshape fv' ty 1 _ _ (list_prod_nat sh) n' Vf') as (u & Eu & Vu); [lia|rewrite size_prod; lia|].
    exists u. split; [exact Eu|]. rewrite size_prod in Vu. eapply vals_ext; [exact Vu|]. intros r j Hr Hj. cbn beta.
    rewrite Nat.mod_small by nia. reflexivity. }
  assert (HV : exists v, (if icpt then padd_matrix (m_transpose av') 0 f1 else Ok (m_transpose av')) = Ok v /\
     vals v ty (domain n icpt) 1 (fun j _ => if Nat.ltb j n then vec arg w2 j else 1%R)).
  { pose proof (vals_transpose av' ty 1 n _ Va') as Vt. unfold domain. destruct icpt.
    - destruct (padd0_vals _ ty n 1 _ f1 Vt) as (v & Ev & Vv). exists v. split; [exact Ev|exact Vv].
    - exists (m_transpose av'). split; [reflexivity|]. eapply vals_ext; [exact Vt|]. intros i j Hi Hj. cbn beta.
      destruct (Nat.ltb_spec i n); [reflexivity|lia]. }
  destruct HR as (u & Eu & Vu). destruct HV as (v & Ev & Vv).
  split.
  - intros HN Hd. rewrite (HC HN). cbn [negb check bind]. rewrite Eu. cbn [bind]. rewrite Ev. cbn [bind].
    unfold m_mul. rewrite same_type_same by (rewrite (vals_type _ _ _ _ _ Vu), (vals_type _ _ _ _ _ Vv); reflexivity).
    assert (EN : Nat.eqb (m_nc u) (m_nr v) = false) by (rewrite (vals_nc _ _ _ _ _ Vu), (vals_nr _ _ _ _ _ Vv); apply Nat.eqb_neq, Hd).
    rewrite EN. reflexivity.
  - intros HN Hd. rewrite (HC HN). cbn [negb check bind]. rewrite Eu. cbn [bind]. rewrite Ev. cbn [bind].
    rewrite Hd in Vu. destruct (vals_mul u v ty _ _ _ _ _ Vu Vv) as (c & Ec & Vc). rewrite Ec. cbn [bind].
    eexists. split; [reflexivity|]. eapply vals_ext; [exact (vals_transpose c ty _ _ _ Vc)|]. intros i r Hi Hr. cbn beta.
    rewrite sumn_rsum, <- apply_pad. unfold fmatrix. rewrite Hd. reflexivity.
Qed.

Lemma shape_last (fs : space) : s_eshape fs = [] \/ exists sh n', s_eshape fs = sh ++ [n'].
Proof. destruct (s_eshape fs) as [|x l] using rev_ind; [left; reflexivity|right; eauto]. Qed.

Definition in_range (s : space) : Prop := (Z.of_nat (m_nc (s_mat s)) < 2 ^ 63)%Z.

Lemma compose_vs icpt fs arg w vs : consistent fs -> consistent arg -> in_range fs -> w <> [] -> (forall t, In t w -> usable2 fs arg t = true) ->
  mapM (fun p => lf_compose1 icpt fs arg (fst p) (snd p)) (combine (map t1 w) (map t2 w)) = Ok vs ->
  let ty := common_type (type_of (s_mat fs)) (type_of (s_mat arg)) (1 * m_nc (s_mat fs)) (1 * m_nc (s_mat arg)) in
  let n := m_nc (s_mat arg) in let n' := domain n icpt in
  exists sh, s_eshape fs = sh ++ [n'] /\ ~ (sh = [] /\ ty = TSparse) /\ length vs = length w /\
    forall i v, nth_error vs i = Some v ->
      vals v ty 1 (size sh) (fun _ r => apply_fun n icpt (fmatrix fs (t1 (nth i w ("", "", ""))) n') (vec arg (t2 (nth i w ("", "", "")))) r).
Proof.
  intros C1 C2 HZ Hw HU H ty n n'.
  set (ps := combine (map t1 w) (map t2 w)) in *.
  assert (Lp : length ps = length w) by (unfold ps; rewrite combine_length, !map_length; lia).
  pose proof (mapM_ok_length _ _ _ H) as Lv. rewrite Lp in Lv.
  assert (Hp : forall i, i < length w -> nth i ps ("", "") = (t1 (nth i w ("", "", "")), t2 (nth i w ("", "", "")))).
  { intros i Hi. unfold ps. rewrite combine_nth by (rewrite !map_length; reflexivity).
    rewrite !(nth_map_in _ w i "" ("", "", "")) by assumption. reflexivity. }
  assert (H1 : forall i, i < length w -> lf_compose1 icpt fs arg (t1 (nth i w ("", "", ""))) (t2 (nth i w ("", "", ""))) = Ok (nth i vs (nth 0 vs (m_identity TDense 1)))).
  { intros i Hi. pose proof (mapM_ok_nth _ _ _ ("", "") (nth 0 vs (m_identity TDense 1)) H i ltac:(lia)) as K. rewrite (Hp i Hi) in K. exact K. }
  assert (HK : forall i, i < length w -> known fs (t1 (nth i w ("", "", ""))) = true /\ known arg (t2 (nth i w ("", "", ""))) = true).
  { intros i Hi. pose proof (HU _ (nth_In w ("", "", "") Hi)) as K. destruct (nth i w ("", "", "")) as [[a b] c]. unfold usable2 in K. cbn. apply andb_true_iff, K. }
  assert (L0 : 0 < length w) by (destruct w; [congruence|cbn; lia]).
  destruct (shape_last fs) as [Hs|(sh & q & Hs)].
  { exfalso. pose proof (H1 0 L0) as K. unfold lf_compose1 in K. rewrite Hs in K.
    apply bind_ok in K. destruct K as (y1 & _ & K). apply bind_ok in K. destruct K as (y2 & _ & K). apply bind_ok in K. destruct K as ([y3 y4] & _ & K).
    unfold lf_apply in K. cbn in K. discriminate. }
  destruct (HK 0 L0) as (KA & KB). destruct (lf_compose1_value icpt fs arg _ _ sh q C1 C2 KA KB HZ Hs) as (T1 & T2 & T3). fold ty n in T1, T2, T3.
  pose proof (H1 0 L0) as E0. rewrite E0 in T1, T2, T3.
  assert (HN : ~ (sh = [] /\ ty = TSparse)) by (intros [? ?]; specialize (T1 H0 H2); discriminate).
  assert (Hq : q = n') by (destruct (Nat.eq_dec q n') as [|Hq]; [assumption|specialize (T2 HN Hq); discriminate]).
  rewrite Hq in *. exists sh. split; [exact Hs|]. split; [exact HN|]. split; [exact Lv|].
  intros i v Hv. assert (Li : i < length w) by (rewrite <- Lv; apply nth_error_Some; congruence).
  destruct (HK i Li) as (KA' & KB'). destruct (lf_compose1_value icpt fs arg _ _ sh n' C1 C2 KA' KB' HZ Hs) as (_ & _ & T3'). fold ty n in T3'.
  destruct (T3' HN eq_refl) as (v' & Ev & Vv). rewrite (H1 i Li) in Ev.
  assert (EV : v' = v) by (injection Ev as <-; apply (nth_error_nth _ _ _ Hv)). rewrite <- EV. exact Vv.
Qed.

(** C41: what compose returns.  The phrases are those of the usable tuples, in order; the shape of the functions is that of
    the result followed by the dimension of the arguments; vector i is U v (or U [v; 1]) where U is the matrix stored for the
    function word of tuple i and v the vector of its argument. *)
Theorem C41_compose : forall m fs data arg s, consistent fs -> consistent arg -> in_range fs -> lf_fs m = Some fs ->
  lf_compose m data arg = Ok s ->
  let n := m_nc (s_mat arg) in let n' := domain n (lf_icpt m) in
  consistent s /\ s_eshape fs = s_eshape s ++ [n'] /\ m_nc (s_mat s) = size (s_eshape s) /\
  s_id2row s = map t3 (filter (usable2 fs arg) data) /\ s_id2col s = lf_cols m /\
  forall i w1 w2 ph r, nth_error (filter (usable2 fs arg) data) i = Some (w1, w2, ph) -> r < size (s_eshape s) ->
    ment (s_mat s) i r = apply_fun n (lf_icpt m) (fmatrix fs w1 n') (vec arg w2) r.
Proof.
  intros m fs data arg s C1 C2 HZ Hfs H n n'. unfold lf_compose in H. rewrite Hfs in H.
  apply bind_ok in H. destruct H as ([[l1 l2] l3] & Hl & H).
  rewrite (valid_data_eq data _ _ _ _ (valid_eq2 fs arg C1 C2)) in Hl.
  destruct data as [|d0 data]; [discriminate|]. set (dat := d0 :: data) in *.
  assert (HU : forall t, In t (filter (usable2 fs arg) dat) -> usable2 fs arg t = true) by (intros t Ht; apply filter_In in Ht; tauto).
  set (w := filter (usable2 fs arg) dat) in *. clearbody w.
  assert (Hw : w <> []) by (intros ->; discriminate). assert (El : (l1, l2, l3) = (map t1 w, map t2 w, map t3 w)) by (destruct w; [congruence|]; injection Hl as <- <- <-; reflexivity).
  injection El as -> -> ->. clear Hl.
  apply bind_ok in H. destruct H as (vs & Hvs & H). apply bind_ok in H. destruct H as (mat & Hmat & H).
  destruct (compose_vs (lf_icpt m) fs arg w vs C1 C2 HZ Hw HU Hvs) as (sh & Hsh & HN & HLv & Hnth).
  set (ty := common_type _ _ _ _) in *. fold n n' in Hsh, Hnth.
  destruct (nary_vals ty (size sh) vs (fun i r => apply_fun n (lf_icpt m) (fmatrix fs (t1 (nth i w ("", "", ""))) n') (vec arg (t2 (nth i w ("", "", "")))) r)) as (z & Ez & Vz).
  { intros ->. destruct w; [congruence|discriminate]. }
  { exact Hnth. }
  assert (ET : last (map type_of vs) TDense = ty).
  { destruct vs as [|v vs] using rev_ind; [destruct w; [congruence|discriminate]|]. rewrite map_app. cbn [map]. rewrite last_last.
    apply (vals_type v ty 1 (size sh) _ (Hnth (length vs) v ltac:(rewrite nth_error_app2 by lia; rewrite Nat.sub_diag; reflexivity))). }
  rewrite ET, Ez in Hmat. injection Hmat as ->.
  pose proof (mk_space_consistent _ _ _ None None _ _ _ (vals_wf _ _ _ _ _ Vz) (Forall_nil _) I I H) as Cs.
  destruct (mk_space_ok _ _ _ None None _ _ _ I I H) as (dr & dc & e & -> & _ & _ & Lr & Lc & He & Ee).
  rewrite Hsh, removelast_last in Ee. subst e. cbn [s_eshape s_mat s_id2row s_id2col] in *.
  split; [exact Cs|]. split; [exact Hsh|]. split; [rewrite <- He; apply size_prod|]. split; [reflexivity|]. split; [reflexivity|].
  intros i w1 w2 ph r Hi Hr. assert (Li : i < length w) by (apply nth_error_Some; congruence).
  rewrite (vals_ent _ _ _ _ _ i r Vz ltac:(rewrite HLv; exact Li) Hr). 
  assert (EN : nth i w ("", "", "") = (w1, w2, ph)) by (apply nth_error_nth, Hi). rewrite EN. reflexivity.
Qed.

Lemma mapM_all_fail {A B} (f : A -> res B) e x l : (forall y, In y (x :: l) -> f y = Err e) -> mapM f (x :: l) = Err e.
Proof. intros H. cbn. rewrite (H x (or_introl eq_refl)). reflexivity. Qed.

(** compose succeeds when the shapes fit and the phrases of the usable tuples are distinct; a one-dimensional function
    shape is only supported on dense functions and arguments *)
Theorem C41_total : forall m fs data arg sh, consistent fs -> consistent arg -> in_range fs -> lf_fs m = Some fs ->
  s_eshape fs = sh ++ [domain (m_nc (s_mat arg)) (lf_icpt m)] ->
  sh <> [] \/ (type_of (s_mat fs) = TDense /\ type_of (s_mat arg) = TDense) ->
  filter (usable2 fs arg) data <> [] -> NoDup (map t3 (filter (usable2 fs arg) data)) ->
  NoDup (lf_cols m) -> lf_cols m = [] \/ length (lf_cols m) = size sh ->
  exists s, lf_compose m data arg = Ok s.
Proof.
  intros m fs data arg sh C1 C2 HZ Hfs Hsh Hd Hne Hnd Hcn Hcl. unfold lf_compose. rewrite Hfs.
  rewrite (valid_data_ok data _ _ _ _ (valid_eq2 fs arg C1 C2) Hne). cbn [bind].
  assert (HU : forall t, In t (filter (usable2 fs arg) data) -> usable2 fs arg t = true) by (intros t Ht; apply filter_In in Ht; tauto).
  set (w := filter (usable2 fs arg) data) in *. clearbody w.
  set (ps := combine (map t1 w) (map t2 w)).
  assert (HN : ~ (sh = [] /\ common_type (type_of (s_mat fs)) (type_of (s_mat arg)) (1 * m_nc (s_mat fs)) (1 * m_nc (s_mat arg)) = TSparse)).
  { intros [K1 K2]. destruct Hd as [Hd|[D1 D2]]; [congruence|]. rewrite D1, D2 in K2. discriminate. }
  assert (HM : exists vs, mapM (fun p => lf_compose1 (lf_icpt m) fs arg (fst p) (snd p)) ps = Ok vs).
  { destruct (mapM (fun p => lf_compose1 (lf_icpt m) fs arg (fst p) (snd p)) ps) as [vs|e] eqn:Em; [eauto|exfalso].
    apply mapM_err in Em. destruct Em as ([a b] & Hin & He). cbn [fst snd] in He.
    assert (Hab : exists t, In t w /\ t1 t = a /\ t2 t = b).
    { unfold ps in Hin. clear - Hin. induction w as [|t w IH]; [destruct Hin|]. destruct Hin as [K|K]; [injection K as <- <-; exists t; cbn; auto|].
      destruct (IH K) as (t' & ? & ? & ?). exists t'. cbn. auto. }
    destruct Hab as (t & Ht & <- & <-). specialize (HU t Ht). destruct t as [[a b] c]. unfold usable2 in HU. apply andb_true_iff in HU. cbn in He.
    destruct (lf_compose1_value (lf_icpt m) fs arg a b sh _ C1 C2 (proj1 HU) (proj2 HU) HZ Hsh) as (_ & _ & T3).
    destruct (T3 HN eq_refl) as (v & Ev & _). rewrite Ev in He. discriminate. }
  destruct HM as (vs & Evs). rewrite Evs. cbn [bind].
  destruct (compose_vs (lf_icpt m) fs arg w vs C1 C2 HZ Hne HU Evs) as (sh' & Hsh' & _ & HLv & Hnth).
  rewrite Hsh in Hsh'. apply app_inj_tail in Hsh'. destruct Hsh' as [<- _].
  set (fn := fun i r => apply_fun (m_nc (s_mat arg)) (lf_icpt m) (fmatrix fs (t1 (nth i w ("", "", ""))) (domain (m_nc (s_mat arg)) (lf_icpt m))) (vec arg (t2 (nth i w ("", "", "")))) r).
  assert (Hv0 : vs <> []) by (intros ->; destruct w; [congruence|discriminate]).
  destruct (nary_vals (common_type (type_of (s_mat fs)) (type_of (s_mat arg)) (1 * m_nc (s_mat fs)) (1 * m_nc (s_mat arg))) (size sh) vs fn Hv0 Hnth) as (z & Ez & Vz).
  assert (ET : last (map type_of vs) TDense = common_type (type_of (s_mat fs)) (type_of (s_mat arg)) (1 * m_nc (s_mat fs)) (1 * m_nc (s_mat arg))).
  { destruct vs as [|v vs _] using rev_ind; [destruct w; [congruence|discriminate]|]. rewrite map_app. cbn [map]. rewrite last_last.
    apply (vals_type v _ 1 (size sh) _ (Hnth (length vs) v ltac:(rewrite nth_error_app2 by lia; rewrite Nat.sub_diag; reflexivity))). }
  rewrite ET, Ez. cbn [bind]. rewrite Hsh, removelast_last.
  apply mk_space_total; [exact Hnd|exact Hcn| | |exact I|exact I|].
  - rewrite map_length, (vals_nr _ _ _ _ _ Vz). symmetry. exact HLv.
  - rewrite (vals_nc _ _ _ _ _ Vz). exact Hcl.
  - cbn beta iota. rewrite (vals_nc _ _ _ _ _ Vz). apply size_prod.
Qed.

(** and when the functions are for arguments of another dimension, it raises *)
Theorem C41_dimension_mismatch : forall m fs data arg sh q, consistent fs -> consistent arg -> in_range fs -> lf_fs m = Some fs ->
  s_eshape fs = sh ++ [q] -> q <> domain (m_nc (s_mat arg)) (lf_icpt m) -> data <> [] -> lf_compose m data arg = Err ValueError.
Proof.
  intros m fs data arg sh q C1 C2 HZ Hfs Hsh Hq Hne. unfold lf_compose. rewrite Hfs.
  rewrite (valid_data_eq data _ _ _ _ (valid_eq2 fs arg C1 C2)). destruct data as [|d0 data]; [congruence|].
  assert (HU : forall t, In t (filter (usable2 fs arg) (d0 :: data)) -> usable2 fs arg t = true) by (intros t Ht; apply filter_In in Ht; tauto).
  destruct (filter (usable2 fs arg) (d0 :: data)) as [|x w]; [reflexivity|]. cbn [bind map combine].
  rewrite (mapM_all_fail _ ValueError); [reflexivity|]. intros [a b] Hin.
  assert (Hab : exists t, In t (x :: w) /\ t1 t = a /\ t2 t = b).
  { change ((t1 x, t2 x) :: combine (map t1 w) (map t2 w)) with (combine (map t1 (x :: w)) (map t2 (x :: w))) in Hin. revert Hin. generalize (x :: w). clear.
    induction l as [|t l IH]; intros Hin; [destruct Hin|]. destruct Hin as [K|K]; [injection K as <- <-; exists t; cbn; auto|].
    destruct (IH K) as (t' & ? & ? & ?). exists t'. cbn. auto. }
  destruct Hab as (t & Ht & <- & <-). specialize (HU t Ht). destruct t as [[a b] c]. unfold usable2 in HU. apply andb_true_iff in HU. cbn [fst snd].
  destruct (lf_compose1_value (lf_icpt m) fs arg a b sh q C1 C2 (proj1 HU) (proj2 HU) HZ Hsh) as (T1 & T2 & _). cbn [t1 t2 fst snd].
  match goal with T1 : sh = [] -> ?ty = TSparse -> _ |- _ => destruct (list_eq_dec Nat.eq_dec sh []) as [K1|K1]; [destruct ty eqn:K2|] end.
  - apply T2; [intros [_ K]; congruence|exact Hq].
  - apply T1; [exact K1|reflexivity].
  - apply T2; [tauto|exact Hq].
Qed.

(** ** training *)
(** the usable training tuples of function word [f], in their order *)
Definition samples (arg phr : space) (data : list tuple3) (f : string) : list tuple3 :=
  filter (fun t : tuple3 => let '(w, a, p) := t in String.eqb f w && known arg a && known phr p) data.

Lemma valid_eq23 s2 s3 : consistent s2 -> consistent s3 -> forall t,
  valid_tuple None (Some (s_row2id s2)) (Some (s_row2id s3)) t = known s2 (t2 t) && known s3 (t3 t).
Proof. intros C2 C3 t. unfold valid_tuple, opt_in. rewrite !known_dmem by assumption. reflexivity. Qed.

Lemma lf_learn_value L arg phr sz (w : list tuple3) r ty : consistent arg -> consistent phr -> w <> [] ->
  (forall t, In t w -> known arg (t2 t) = true /\ known phr (t3 t) = true) ->
  let n := m_nc (s_mat arg) in let p := m_nc (s_mat phr) in let n' := domain n (has_intercept L) in
  let T := common_type (type_of (s_mat arg)) (type_of (s_mat phr)) n p in
  (Z.of_nat p * Z.of_nat n' < 2 ^ 63)%Z -> sz = p * n' ->
  lf_learn L arg phr sz (map t2 w) (map t3 w) = Ok (r, ty) ->
  ty = T /\ exists A B X, learner_train L A B = Ok X /\
    vals A T (length w) n (fun i j => vec arg (t2 (nth i w ("", "", ""))) j) /\ vals B T (length w) p (fun i j => vec phr (t3 (nth i w ("", "", ""))) j) /\
    vals r T 1 (p * n') (fun _ q => ment X (q mod n') (q / n')).
Proof.
  intros C1 C2 Hw HK n p n' T HZ Hsz H. unfold lf_learn in H.
  destruct (get_rows_vals arg (map t2 w) C1) as (A0 & EA & VA); [destruct w; [congruence|discriminate]|intros x Hx; apply in_map_iff in Hx; destruct Hx as (t & <- & Ht); apply (HK t Ht)|].
  destruct (get_rows_vals phr (map t3 w) C2) as (B0 & EB & VB); [destruct w; [congruence|discriminate]|intros x Hx; apply in_map_iff in Hx; destruct Hx as (t & <- & Ht); apply (HK t Ht)|].
  rewrite EA in H. cbn [bind] in H. rewrite EB in H. cbn [bind] in H.
  destruct (resolve2_largest A0 B0 _ _ _ _ _ _ _ _ VA VB) as (A & B & ER & VA' & VB'). rewrite !map_length in VA', VB'.
  rewrite common_scale in VA', VB' by (destruct w; [congruence|cbn; lia]). fold n p T in VA', VB'.
  rewrite ER in H. cbn [bind] in H. apply bind_ok in H. destruct H as (X & EX & H).
  pose proof (learner_shape L A B T _ _ _ _ _ X VA' VB' EX) as HX. change (xdim n (has_intercept L)) with n' in HX.
  pose proof (vals_transpose X T n' p _ (vals_of _ _ _ _ HX)) as VT.
  destruct (vals_reshape _ T p n' _ 1 sz VT HZ ltac:(lia)) as (z & Ez & Vz). rewrite Ez in H. cbn [bind] in H. injection H as <- <-.
  split; [apply (vals_type _ _ _ _ _ VA')|]. exists A, B, X. split; [exact EX|]. split.
  { eapply vals_ext; [exact VA'|]. intros i j Hi Hj. cbn beta. rewrite (nth_map_in t2 w i "" ("", "", "")) by assumption. reflexivity. }
  split.
  { eapply vals_ext; [exact VB'|]. intros i j Hi Hj. cbn beta. rewrite (nth_map_in t3 w i "" ("", "", "")) by assumption. reflexivity. }
  rewrite Hsz in Vz. eapply vals_ext; [exact Vz|]. intros i j Hi Hj. cbn beta. replace (i * (p * n') + j) with j by lia. reflexivity.
Qed.

(** sorting, dropping unusable tuples, and partitioning: one range per function word, holding its samples in order *)
Lemma train_groups arg phr data k l1 l2 l3 keys ranges : consistent arg -> consistent phr ->
  valid_data_to_lists (stable_sort (fun x y => String.ltb (t1 x) (t1 y)) data) None (Some (s_row2id arg)) (Some (s_row2id phr)) = Ok (l1, l2, l3) ->
  get_partitions String.eqb l1 k = Ok (keys, ranges) ->
  NoDup keys /\ length keys = length ranges /\
  (forall f, In f keys <-> 1 <= length (samples arg phr data f) /\ (k <= Z.of_nat (length (samples arg phr data f)))%Z) /\
  forall i f a b, nth_error keys i = Some f -> nth_error ranges i = Some (a, b) ->
    slice a b l2 = map t2 (samples arg phr data f) /\ slice a b l3 = map t3 (samples arg phr data f).
Proof.
  intros C1 C2 H HP. set (sd := stable_sort _ data) in *.
  rewrite (valid_data_eq sd _ _ _ _ (valid_eq23 arg phr C1 C2)) in H.
  set (w := filter (fun t => known arg (t2 t) && known phr (t3 t)) sd) in *.
  assert (Hw : w <> [] /\ (l1, l2, l3) = (map t1 w, map t2 w, map t3 w)).
  { destruct sd; [discriminate|]. destruct w; [discriminate|]. injection H as <- <- <-. split; [discriminate|reflexivity]. }
  clear H. destruct Hw as (Hw & El). injection El as -> -> ->.
  assert (HS : StronglySorted sle (map t1 w)).
  { apply sorted_map, sorted_filter. exact (stable_sort_sorted _ (sltb_swo t1) data). }
  assert (HF : forall f, filter (fun t => String.eqb f (t1 t)) w = samples arg phr data f).
  { intros f. unfold w. rewrite filter_filter. unfold sd, samples. rewrite stable_sort_filter; [|apply sltb_swo|].
    - apply filter_ext. intros [[x a] p]. cbn. destruct (String.eqb f x), (known arg a), (known phr p); reflexivity.
    - intros y z Hy Hz. apply andb_true_iff in Hy, Hz. destruct Hy as [_ Hy], Hz as [_ Hz]. apply String.eqb_eq in Hy, Hz. rewrite <- Hy, <- Hz.
      exact (sle_refl f). }
  assert (HC : forall f, length (filter (String.eqb f) (map t1 w)) = length (samples arg phr data f)).
  { intros f. rewrite <- HF. clear. induction w as [|t w IH]; cbn; [reflexivity|]. destruct (String.eqb f (t1 t)); cbn; rewrite IH; reflexivity. }
  assert (Hk : exists k', (1 <= k')%Z /\ get_partitions String.eqb (map t1 w) k' = Ok (keys, ranges) /\ forall x : nat, (k' <= Z.of_nat x)%Z <-> 1 <= x /\ (k <= Z.of_nat x)%Z).
  { destruct (Z.le_gt_cases k 1) as [K|K].
    - exists 1%Z. split; [lia|]. split; [|lia]. rewrite get_partitions_low in HP; [exact HP| |exact K]. destruct w; [congruence|discriminate].
    - exists k. split; [lia|]. split; [exact HP|lia]. }
  destruct Hk as (k' & Hk & HP' & Hkk).
  destruct (C50_sorted String.eqb String.eqb_eq sle (map t1 w) k' keys ranges sle_refl sle_antisym HS Hk HP') as (G1 & G2 & G3 & G4).
  destruct (C50_runs String.eqb String.eqb_eq (map t1 w) k' Hk) as (keys' & ranges' & E' & R1 & _). rewrite HP' in E'. injection E' as <- <-.
  split; [exact G1|]. split; [exact G2|]. split; [intros f; rewrite G4, HC; apply Hkk|].
  intros i f a b Hf Hab. destruct (proj1 (R1 a b) (nth_error_In _ _ Hab)) as ((U1 & U2 & _) & _). rewrite map_length in U2.
  assert (ES : slice a b w = samples arg phr data f).
  { rewrite <- HF. apply slice_filter; [lia|exact U2|]. intros j t Ht. rewrite <- (G3 i f a b Hf Hab j), (map_nth_error t1 j w Ht), String.eqb_eq. split; [intros ->; reflexivity|congruence]. }
  rewrite !slice_map', ES. split; reflexivity.
Qed.

Lemma shape_one s : consistent s -> length (s_eshape s) = 1 -> nth 0 (s_eshape s) 0 = m_nc (s_mat s).
Proof.
  intros (_&_&_&_&_&_&_&Hp&_) Hl. destruct (s_eshape s) as [|x [|y l]]; try discriminate. rewrite <- Hp. unfold list_prod_nat. cbn. lia.
Qed.

(** C40: training learns a function for exactly the words with enough usable tuples, each by running the learner on the
    matrices whose rows are the vectors of the arguments, and of the phrases, of that word's usable tuples in their order *)
Theorem C40_train : forall m data arg phr m', consistent arg -> consistent phr ->
  let L := lf_learner m in let n := m_nc (s_mat arg) in let p := m_nc (s_mat phr) in let n' := domain n (has_intercept L) in
  (Z.of_nat p * Z.of_nat n' < 2 ^ 63)%Z ->
  lf_train m data arg phr = (m', Ok tt) ->
  exists fs, m' = LF (Some fs) (has_intercept L) L (s_id2col phr) (lf_min m) /\ consistent fs /\
    s_eshape fs = s_eshape phr ++ [n'] /\ NoDup (s_id2row fs) /\
    (forall f, In f (s_id2row fs) <-> 1 <= length (samples arg phr data f) /\ (lf_min m <= Z.of_nat (length (samples arg phr data f)))%Z) /\
    forall f, In f (s_id2row fs) -> let ss := samples arg phr data f in
      exists A B X t, learner_train L A B = Ok X /\
        vals A t (length ss) n (fun i j => vec arg (t2 (nth i ss ("", "", ""))) j) /\
        vals B t (length ss) p (fun i j => vec phr (t3 (nth i ss ("", "", ""))) j) /\
        forall r j, r < p -> j < n' -> fmatrix fs f n' r j = ment X j r.
Proof.
  intros m data arg phr m' C1 C2 L n p n' HZ H. unfold lf_train in H. fold L in H.
  destruct (lf_train_space L (lf_min m) data arg phr) as [fs|e] eqn:HT; [|discriminate]. injection H as <-.
  exists fs. split; [reflexivity|]. unfold lf_train_space in HT.
  apply bind_ok in HT. destruct HT as ([[l1 l2] l3] & Hl & HT). apply bind_ok in HT. destruct HT as ([keys ranges] & Hk & HT).
  destruct (train_groups arg phr data _ l1 l2 l3 keys ranges C1 C2 Hl Hk) as (G1 & G2 & G3 & G4). clear Hl Hk.
  destruct (Nat.eqb (length keys) 0) eqn:EK; [discriminate|]. apply Nat.eqb_neq in EK. cbn [negb check bind] in HT.
  destruct (Nat.eqb (length (s_eshape arg)) 1) eqn:EA; [|discriminate]. apply Nat.eqb_eq in EA. cbn [check bind] in HT.
  rewrite (shape_one arg C1 EA) in HT. fold n in HT. change (if has_intercept L then n + 1 else n) with n' in HT.
  assert (Hsz : list_prod_nat (s_eshape phr ++ [n']) = p * n').
  { rewrite prod_snoc. destruct C2 as (_&_&_&_&_&_&_&Hp&_). rewrite Hp. reflexivity. }
  rewrite Hsz in HT. apply bind_ok in HT. destruct HT as (rs & Hrs & HT). apply bind_ok in HT. destruct HT as (mat & Hmat & HT).
  set (T := common_type (type_of (s_mat arg)) (type_of (s_mat phr)) n p).
  pose proof (mapM_ok_length _ _ _ Hrs) as Lrs.
  assert (HN : forall i f, nth_error keys i = Some f -> exists r ty, nth_error rs i = Some (r, ty) /\ ty = T /\
    exists A B X, learner_train L A B = Ok X /\
      vals A T (length (samples arg phr data f)) n (fun i j => vec arg (t2 (nth i (samples arg phr data f) ("", "", ""))) j) /\
      vals B T (length (samples arg phr data f)) p (fun i j => vec phr (t3 (nth i (samples arg phr data f) ("", "", ""))) j) /\
      vals r T 1 (p * n') (fun _ q => ment X (q mod n') (q / n'))).
  { intros i f Hf. assert (Hi : i < length ranges) by (rewrite <- G2; apply nth_error_Some; congruence).
    destruct (nth_error ranges i) as [[a b]|] eqn:Hab; [|apply nth_error_None in Hab; lia].
    destruct (nth_error rs i) as [[r ty]|] eqn:Hr; [|apply nth_error_None in Hr; lia].
    exists r, ty. split; [reflexivity|].
    pose proof (mapM_ok_nth _ _ _ (a, b) (r, ty) Hrs i Hi) as K. cbn beta in K.
    rewrite (nth_error_nth _ _ (a, b) Hab) in K. rewrite (nth_error_nth _ _ (r, ty) Hr) in K. cbn [fst snd] in K.
    destruct (G4 i f a b Hf Hab) as (S2 & S3). rewrite S2, S3 in K.
    destruct (lf_learn_value L arg phr (p * n') (samples arg phr data f) r ty C1 C2) with (3 := HZ) (4 := eq_refl (p * n')) (5 := K) as (ET & HR).
    - destruct (proj1 (G3 f) (nth_error_In _ _ Hf)) as (Q & _). intros K0. rewrite K0 in Q. cbn in Q. lia.
    - intros t Ht. unfold samples in Ht. apply filter_In in Ht. destruct Ht as (_ & Ht). destruct t as [[x y] z]. rewrite !andb_true_iff in Ht. cbn. tauto.
    - split; [exact ET|exact HR]. }
  assert (HX : exists XX : string -> matrix, forall i f, nth_error keys i = Some f -> exists r, nth_error rs i = Some (r, T) /\
      exists A B, learner_train L A B = Ok (XX f) /\
      vals A T (length (samples arg phr data f)) n (fun i j => vec arg (t2 (nth i (samples arg phr data f) ("", "", ""))) j) /\
      vals B T (length (samples arg phr data f)) p (fun i j => vec phr (t3 (nth i (samples arg phr data f) ("", "", ""))) j) /\
      vals r T 1 (p * n') (fun _ q => ment (XX f) (q mod n') (q / n'))).
  { clear - HN G1. revert rs HN. induction keys as [|f keys IH]; intros rs HN.
    - exists (fun _ => m_identity TDense 1). intros [|i] f; discriminate.
    - inversion G1 as [|? ? N1 N2]; subst. destruct (HN 0 f eq_refl) as (r & ty & Hr & -> & A & B & X & HR).
      destruct rs as [|r0 rs]; [discriminate|]. destruct (IH N2 rs) as (XX & HXX); [intros i g Hg; exact (HN (S i) g Hg)|].
      exists (fun g => if String.eqb g f then X else XX g). intros [|i] g Hg.
      + injection Hg as <-. exists r. split; [exact Hr|]. exists A, B. rewrite String.eqb_refl. exact HR.
      + cbn in Hg. destruct (String.eqb g f) eqn:Eg; [apply String.eqb_eq in Eg; subst g; exfalso; apply N1; eapply nth_error_In; eassumption|].
        exact (HXX i g Hg). }
  destruct HX as (XX & HX).
  destruct (nary_vals T (p * n') (map fst rs) (fun i q => ment (XX (nth i keys "")) (q mod n') (q / n'))) as (z & Ez & Vz).
  { intros K. apply (f_equal (@length _)) in K. rewrite map_length in K. cbn in K. lia. }
  { intros i v Hv. assert (Hi : i < length keys). { assert (K : nth_error (map fst rs) i <> None) by congruence. apply nth_error_Some in K. rewrite map_length in K. lia. }
    destruct (HX i (nth i keys "") (nth_error_nth' keys "" Hi)) as (r & Hr & A & B & _ & _ & _ & Vr).
    rewrite (map_nth_error fst i rs Hr) in Hv. injection Hv as <-. exact Vr. }
  assert (ET : last (map snd rs) TDense = T).
  { destruct rs as [|x rs0 _] eqn:Ers using rev_ind; [cbn in Lrs; lia|]. rewrite map_app. cbn [map]. rewrite last_last.
    assert (Hi : length rs0 < length keys) by (rewrite app_length in Lrs; cbn in Lrs; lia).
    destruct (HX (length rs0) (nth (length rs0) keys "") (nth_error_nth' keys "" Hi)) as (r & Hr & _).
    rewrite nth_error_app2, Nat.sub_diag in Hr by lia. injection Hr as ->. reflexivity. }
  rewrite ET, Ez in Hmat. injection Hmat as <-. rewrite map_length in Vz.
  pose proof (mk_space_consistent _ _ _ None None _ _ _ (vals_wf _ _ _ _ _ Vz) (Forall_nil _) I I HT) as Cs.
  destruct (mk_space_ok _ _ _ None None _ _ _ I I HT) as (dr & dc & e & -> & _ & _ & Lr & Lc & He & ->). cbn [s_eshape s_mat s_id2row s_id2col] in *.
  split; [exact Cs|]. split; [reflexivity|]. split; [exact G1|]. split; [exact G3|].
  intros f Hf. destruct (pos_of_In keys f Hf) as (i & Hi). pose proof (pos_of_some _ _ _ Hi) as Hi'.
  assert (Hil : i < length keys) by (apply nth_error_Some; congruence).
  destruct (HX i f Hi') as (r0 & Hr0 & A & B & EX & VA & VB & Vr). exists A, B, (XX f), T. split; [exact EX|]. split; [exact VA|]. split; [exact VB|].
  intros r j Hr Hj. unfold fmatrix, vec. cbn [s_id2row s_mat]. rewrite Hi.
  rewrite (vals_ent _ _ _ _ _ i (r * n' + j) Vz) by nia. rewrite (nth_error_nth _ _ "" Hi').
  replace ((r * n' + j) mod n') with j; [replace ((r * n' + j) / n') with r; [reflexivity|]|].
  - apply (Nat.div_unique _ n' r j Hj). lia.
  - apply (Nat.mod_unique _ n' r j Hj). lia.
Qed.

(** ** what the learnt function minimises *)
(** squared error of matrix U on the samples, plus lambda times the squares of its entries (the intercept column excepted) *)
Definition lf_cost (arg phr : space) (ss : list tuple3) (lambda : R) (icpt : bool) (U : nat -> nat -> R) : R :=
  let n := m_nc (s_mat arg) in let p := m_nc (s_mat phr) in
  (lsum (fun t => rsum p (fun r => (apply_fun n icpt U (vec arg (t2 t)) r - vec phr (t3 t) r) * (apply_fun n icpt U (vec arg (t2 t)) r - vec phr (t3 t) r))) ss
   + lambda * rsum n (fun j => rsum p (fun r => U r j * U r j)))%R.

Lemma lf_cost_ridge arg phr ss lambda icpt U :
  lf_cost arg phr ss lambda icpt U =
  ridge_cost (length ss) (m_nc (s_mat arg)) (m_nc (s_mat phr)) lambda icpt (fun i j => vec arg (t2 (nth i ss ("", "", ""))) j)
    (fun i j => vec phr (t3 (nth i ss ("", "", ""))) j) (fun k c => U c k).
Proof.
  unfold lf_cost, ridge_cost. cbv zeta. f_equal. rewrite (lsum_rsum _ ss ("", "", "")). apply rsum_ext. intros i Hi. apply rsum_ext. intros r Hr.
  assert (EP : apply_fun (m_nc (s_mat arg)) icpt U (vec arg (t2 (nth i ss ("", "", "")))) r =
     predict (m_nc (s_mat arg)) icpt (fun i j => vec arg (t2 (nth i ss ("", "", ""))) j) (fun k c => U c k) i r).
  { unfold apply_fun, predict. f_equal. apply rsum_ext. intros j Hj. lra. }
  rewrite EP. reflexivity.
Qed.

(** each learnt function is optimal on its samples, among all matrices *)
Theorem C40_optimal : forall m data arg phr m' fs, pinv_correct -> pinv_converges -> lstsq_correct -> nonneg_params (lf_learner m) ->
  consistent arg -> consistent phr ->
  let L := lf_learner m in let n := m_nc (s_mat arg) in let n' := domain n (has_intercept L) in
  (Z.of_nat (m_nc (s_mat phr)) * Z.of_nat n' < 2 ^ 63)%Z ->
  lf_train m data arg phr = (m', Ok tt) -> lf_fs m' = Some fs ->
  forall f, In f (s_id2row fs) -> exists lambda, uses_lambda L lambda /\
    forall U, (lf_cost arg phr (samples arg phr data f) lambda (has_intercept L) (fmatrix fs f n')
               <= lf_cost arg phr (samples arg phr data f) lambda (has_intercept L) U)%R.
Proof.
  intros m data arg phr m' fs HP HC HL Hnn C1 C2 L n n' HZ H Hfs f Hf.
  destruct (C40_train m data arg phr m' C1 C2 HZ H) as (fs' & -> & _ & _ & _ & _ & Hall). cbn in Hfs. injection Hfs as ->.
  destruct (Hall f Hf) as (A & B & X & t & EX & VA & VB & He). fold L in EX. fold n in VA. fold L n n' in He.
  destruct (learner_opt L A B t _ _ _ _ _ X HP HC HL Hnn VA VB EX) as (lambda & Hla & _ & Hopt).
  exists lambda. split; [exact Hla|]. intros U. rewrite !lf_cost_ridge.
  eapply Rle_trans; [|apply Hopt]. apply Req_le. unfold ridge_cost, predict. f_equal.
  - apply rsum_ext. intros i Hi. apply rsum_ext. intros r Hr.
    assert (ER : (rsum n (fun k => vec arg (t2 (nth i (samples arg phr data f) ("", "", ""))) k * fmatrix fs f n' r k) + (if has_intercept L then fmatrix fs f n' r n else 0) =
       rsum n (fun k => vec arg (t2 (nth i (samples arg phr data f) ("", "", ""))) k * ment X k r) + (if has_intercept L then ment X n r else 0))%R).
    { f_equal; [apply rsum_ext; intros k Hk; rewrite He; [reflexivity|exact Hr|unfold n', domain; destruct (has_intercept L); lia]|].
      assert (HD : has_intercept L = true -> n < n') by (unfold n', domain; intros ->; lia).
      destruct (has_intercept L); [|reflexivity]. apply He; [exact Hr|apply HD; reflexivity]. }
    unfold n in ER. rewrite ER. reflexivity.
  - f_equal. apply rsum_ext. intros k Hk. apply rsum_ext. intros r Hr. rewrite He; [reflexivity|exact Hr|]. unfold n', domain. fold n in Hk. destruct (has_intercept L); lia.
Qed.

(** when no word has enough usable tuples, training raises and keeps the functions it had *)
Theorem C40_too_few : forall m data arg phr, consistent arg -> consistent phr -> data <> [] ->
  (forall f, samples arg phr data f = [] \/ (Z.of_nat (length (samples arg phr data f)) < lf_min m)%Z) ->
  exists m', lf_train m data arg phr = (m', Err ValueError) /\ lf_fs m' = lf_fs m.
Proof.
  intros m data arg phr C1 C2 Hne Hf. unfold lf_train.
  enough (HT : lf_train_space (lf_learner m) (lf_min m) data arg phr = Err ValueError) by (rewrite HT; eexists; split; [reflexivity|reflexivity]).
  unfold lf_train_space. cbv zeta. set (sd := stable_sort _ data).
  assert (Hsd : sd <> []). { intros K. apply Hne. apply (f_equal (@length _)) in K. unfold sd in K. rewrite stable_sort_length in K. destruct data; [reflexivity|discriminate]. }
  destruct (valid_data_to_lists sd None (Some (s_row2id arg)) (Some (s_row2id phr))) as [[[l1 l2] l3]|e] eqn:Hl.
  2:{ rewrite (valid_data_eq sd _ _ _ _ (valid_eq23 arg phr C1 C2)) in Hl. destruct sd; [congruence|]. destruct (filter _ _); [|discriminate]. injection Hl as <-. reflexivity. }
  cbn [bind]. pose proof Hl as Hl'. rewrite (valid_data_eq sd _ _ _ _ (valid_eq23 arg phr C1 C2)) in Hl'.
  assert (N1 : 0 < length l1). { destruct sd; [congruence|]. destruct (filter _ _); [discriminate|]. injection Hl' as <- _ _. cbn. lia. }
  destruct (get_partitions_nonempty String.eqb String.eqb_eq l1 (lf_min m) N1) as (keys & ranges & Hk & _). rewrite Hk. cbn [bind].
  destruct (train_groups arg phr data _ l1 l2 l3 keys ranges C1 C2 Hl Hk) as (_ & _ & G3 & _).
  destruct keys as [|f keys]; [reflexivity|]. destruct (proj1 (G3 f) (or_introl eq_refl)) as (K1 & K2).
  destruct (Hf f) as [K|K]; [rewrite K in K1; cbn in K1; lia|lia].
Qed.

(** training succeeds when one word has enough usable tuples and the numpy routines return *)
Theorem C40_total : forall m data arg phr f, consistent arg -> consistent phr ->
  let L := lf_learner m in let n := m_nc (s_mat arg) in let n' := domain n (has_intercept L) in
  (Z.of_nat (m_nc (s_mat phr)) * Z.of_nat n' < 2 ^ 63)%Z -> pinv_returns n' -> learner_usable n' L ->
  s_eshape arg = [n] -> samples arg phr data f <> [] -> (lf_min m <= Z.of_nat (length (samples arg phr data f)))%Z ->
  exists m', lf_train m data arg phr = (m', Ok tt).
Proof.
  intros m data arg phr f C1 C2 L n n' HZ HPI HLS Hsh Hss Hmin. unfold lf_train.
  enough (HT : exists fs, lf_train_space (lf_learner m) (lf_min m) data arg phr = Ok fs) by (destruct HT as (fs & ->); eauto).
  fold L. unfold lf_train_space. cbv zeta. set (sd := stable_sort _ data).
  assert (HW : filter (fun t => known arg (t2 t) && known phr (t3 t)) sd <> []).
  { destruct (samples arg phr data f) as [|t ts] eqn:Q; [congruence|]. assert (Ht : In t (samples arg phr data f)) by (rewrite Q; left; reflexivity).
    unfold samples in Ht. apply filter_In in Ht. destruct Ht as (Ht & Hu). destruct t as [[x a] b]. intros K.
    assert (Hin : In (x, a, b) (filter (fun t => known arg (t2 t) && known phr (t3 t)) sd)).
    { apply filter_In. split; [apply (Permutation_in _ (stable_sort_perm _ data)), Ht|]. cbn. rewrite !andb_true_iff in Hu. rewrite andb_true_iff. tauto. }
    rewrite K in Hin. destruct Hin. }
  destruct (valid_data_to_lists sd None (Some (s_row2id arg)) (Some (s_row2id phr))) as [[[l1 l2] l3]|e] eqn:Hl.
  2:{ rewrite (valid_data_ok sd _ _ _ _ (valid_eq23 arg phr C1 C2) HW) in Hl. discriminate. }
  cbn [bind]. pose proof Hl as Hl'. rewrite (valid_data_ok sd _ _ _ _ (valid_eq23 arg phr C1 C2) HW) in Hl'. injection Hl' as Hl1 _ _.
  assert (N1 : 0 < length l1). { rewrite <- Hl1, map_length. destruct (filter _ sd); [congruence|cbn; lia]. }
  destruct (get_partitions_nonempty String.eqb String.eqb_eq l1 (lf_min m) N1) as (keys & ranges & Hk & _). rewrite Hk. cbn [bind].
  destruct (train_groups arg phr data _ l1 l2 l3 keys ranges C1 C2 Hl Hk) as (G1 & G2 & G3 & G4).
  assert (HK : In f keys). { apply G3. split; [destruct (samples arg phr data f); [congruence|cbn; lia]|exact Hmin]. }
  destruct (Nat.eqb (length keys) 0) eqn:EK; [apply Nat.eqb_eq in EK; destruct keys; [destruct HK|discriminate]|]. cbn [negb check bind].
  rewrite Hsh. cbn [length Nat.eqb check bind nth]. change (if has_intercept L then n + 1 else n) with n'.
  set (p := m_nc (s_mat phr)) in *.
  assert (Hsz : list_prod_nat (s_eshape phr ++ [n']) = p * n').
  { rewrite prod_snoc. destruct C2 as (_&_&_&_&_&_&_&Hp&_). rewrite Hp. reflexivity. }
  rewrite Hsz. set (T := common_type (type_of (s_mat arg)) (type_of (s_mat phr)) n p).
  assert (HG : forall ab, In ab ranges -> exists r, lf_learn L arg phr (p * n') (slice (fst ab) (snd ab) l2) (slice (fst ab) (snd ab) l3) = Ok (r, T) /\
     exists h, vals r T 1 (p * n') h).
  { intros [a b] Hab. apply In_nth_error in Hab. destruct Hab as (i & Hi). cbn [fst snd].
    assert (Li : i < length keys) by (rewrite G2; apply nth_error_Some; congruence).
    set (g := nth i keys ""). assert (Hg : nth_error keys i = Some g) by (apply nth_error_nth', Li).
    destruct (G4 i g a b Hg Hi) as (S2 & S3). rewrite S2, S3. set (w := samples arg phr data g) in *.
    assert (Hw : w <> []). { destruct (proj1 (G3 g) (nth_error_In _ _ Hg)) as (Q & _). fold w in Q. intros K0. rewrite K0 in Q. cbn in Q. lia. }
    assert (HKn : forall t, In t w -> known arg (t2 t) = true /\ known phr (t3 t) = true).
    { intros t Ht. unfold w, samples in Ht. apply filter_In in Ht. destruct Ht as (_ & Ht). destruct t as [[x y] z]. rewrite !andb_true_iff in Ht. cbn. tauto. }
    assert (HO : exists r ty, lf_learn L arg phr (p * n') (map t2 w) (map t3 w) = Ok (r, ty)).
    { unfold lf_learn.
      destruct (get_rows_vals arg (map t2 w) C1) as (A0 & EA & VA); [destruct w; [congruence|discriminate]|intros x Hx; apply in_map_iff in Hx; destruct Hx as (t & <- & Ht); apply (HKn t Ht)|].
      destruct (get_rows_vals phr (map t3 w) C2) as (B0 & EB & VB); [destruct w; [congruence|discriminate]|intros x Hx; apply in_map_iff in Hx; destruct Hx as (t & <- & Ht); apply (HKn t Ht)|].
      rewrite EA. cbn [bind]. rewrite EB. cbn [bind].
      destruct (resolve2_largest A0 B0 _ _ _ _ _ _ _ _ VA VB) as (A & B & ER & VA' & VB'). rewrite !map_length in VA', VB'.
      rewrite ER. cbn [bind]. destruct (learner_total L A B _ _ _ _ _ _ HPI HLS VA' VB') as (X & EX). rewrite EX. cbn [bind].
      pose proof (learner_shape L A B _ _ _ _ _ _ X VA' VB' EX) as HX.
      pose proof (vals_transpose X _ _ _ _ (vals_of _ _ _ _ HX)) as VT.
      destruct (vals_reshape _ _ _ _ _ 1 (p * n') VT HZ ltac:(change (xdim (m_nc (s_mat arg)) (has_intercept L)) with n'; fold p; lia)) as (z & Ez & Vz).
      rewrite Ez. cbn [bind]. eauto. }
    destruct HO as (r & ty & Er). destruct (lf_learn_value L arg phr (p * n') w r ty C1 C2 Hw HKn HZ eq_refl Er) as (ET & A & B & X & _ & _ & _ & Vr).
    exists r. rewrite Er. rewrite ET. split; [reflexivity|]. eexists. exact Vr. }
  destruct (mapM (fun ab : nat * nat => lf_learn L arg phr (p * n') (slice (fst ab) (snd ab) l2) (slice (fst ab) (snd ab) l3)) ranges) as [rs|e] eqn:Hrs.
  2:{ apply mapM_err in Hrs. destruct Hrs as (ab & Hab & He). destruct (HG ab Hab) as (r & Er & _). rewrite Er in He. discriminate. }
  cbn [bind]. pose proof (mapM_ok_length _ _ _ Hrs) as Lrs.
  assert (HR : forall i x, nth_error rs i = Some x -> snd x = T /\ exists h, vals (fst x) T 1 (p * n') h).
  { intros i x Hx. assert (Li : i < length ranges) by (rewrite <- Lrs; apply nth_error_Some; congruence).
    destruct (HG (nth i ranges (0, 0)) (nth_In _ _ Li)) as (r & Er & h & Vr).
    pose proof (mapM_ok_nth _ _ _ (0, 0) x Hrs i Li) as K. cbn beta in K. rewrite Er in K. rewrite (nth_error_nth _ _ x Hx) in K. injection K as <-. cbn. eauto. }
  assert (LK : 0 < length rs) by (rewrite Lrs, <- G2; destruct keys; [destruct HK|cbn; lia]).
  destruct (nary_vals T (p * n') (map fst rs) (fun i q => ment (nth i (map fst rs) (m_identity TDense 1)) 0 q)) as (z & Ez & Vz).
  { intros K. apply (f_equal (@length _)) in K. rewrite map_length in K. cbn in K. lia. }
  { intros i v Hv. rewrite (nth_error_nth _ _ (m_identity TDense 1) Hv).
    rewrite nth_error_map in Hv. destruct (nth_error rs i) as [x|] eqn:Hx; [|discriminate]. injection Hv as <-. destruct (HR i x Hx) as (_ & h & Vh).
    eapply vals_ext; [exact Vh|]. intros i0 j Hi0 Hj. replace i0 with 0 by lia. symmetry. apply (vals_ent _ _ _ _ _ 0 j Vh); [lia|exact Hj]. }
  assert (ET : last (map snd rs) TDense = T).
  { destruct rs as [|x rs0 _] eqn:Ers using rev_ind; [cbn in LK; lia|]. rewrite map_app. cbn [map]. rewrite last_last.
    apply (HR (length rs0) x). rewrite nth_error_app2, Nat.sub_diag by lia. reflexivity. }
  rewrite ET, Ez. cbn [bind]. rewrite map_length in Vz.
  apply mk_space_total; [exact G1|constructor| |left; reflexivity|exact I|exact I|].
  - rewrite (vals_nr _ _ _ _ _ Vz). lia.
  - cbn beta iota. rewrite (vals_nc _ _ _ _ _ Vz). exact Hsz.
Qed.
End WithExt.

(** ** examples *)
Definition ex_lf : lexfun := LF None false (LRidge true false [] (Some 1%R)) [] 2.
Definition ex_lf_data : list tuple3 := [("old", "b", "ba"); ("red", "a", "ab"); ("old", "zz", "ab"); ("old", "a", "ab")].
(** "old" has two usable tuples and is learnt, with an intercept; "red" has one and is not *)
Example C40_example : exists m' fs, @lf_train RNum Epi ex_lf ex_lf_data ex_arg1 ex_phr1 = (m', Ok tt) /\ lf_fs m' = Some fs /\
  samples ex_arg1 ex_phr1 ex_lf_data "old" = [("old", "b", "ba"); ("old", "a", "ab")] /\
  s_id2row fs = ["old"] /\ s_eshape fs = [2; 2] /\
  consistent ex_arg1 /\ consistent ex_phr1 /\ @pinv_correct Epi /\ @pinv_converges Epi /\ @lstsq_correct Epi /\ nonneg_params (lf_learner ex_lf).
Proof.
  assert (HZ : (Z.of_nat (m_nc (s_mat ex_phr1)) * Z.of_nat (domain (m_nc (s_mat ex_arg1)) (has_intercept (lf_learner ex_lf))) < 2 ^ 63)%Z) by (cbn; lia).
  destruct (@C40_total Epi ex_lf ex_lf_data ex_arg1 ex_phr1 "old" ex_arg1_consistent ex_phr1_consistent HZ) as (m' & Hm).
  - intros d _ Hr Hc. cbn in Hr, Hc. cbn [e_pinv Epi]. unfold pinv_small. rewrite Hr, Hc. cbn. eauto.
  - exact I.
  - reflexivity.
  - discriminate.
  - cbn. lia.
  - destruct (@C40_train Epi ex_lf ex_lf_data ex_arg1 ex_phr1 m' ex_arg1_consistent ex_phr1_consistent HZ Hm) as (fs & Hf & _ & Hs & Hnd & Hin & _).
    exists m', fs. split; [exact Hm|]. split; [rewrite Hf; reflexivity|]. split; [reflexivity|].
    split; [|split; [exact Hs|split; [exact ex_arg1_consistent|split; [exact ex_phr1_consistent|]]]].
    + assert (Hold : In "old" (s_id2row fs)) by (apply Hin; cbn; lia).
      assert (Hother : forall f, In f (s_id2row fs) -> f = "old").
      { intros f Hf'. apply Hin in Hf'. destruct Hf' as (_ & K). destruct (String.eqb f "old") eqn:Q; [apply String.eqb_eq, Q|exfalso].
        revert K. unfold samples, ex_lf_data. cbn [filter]. rewrite Q. cbn [andb].
        destruct (String.eqb f "red" && known ex_arg1 "a" && known ex_phr1 "ab")%bool; cbn; lia. }
      destruct (s_id2row fs) as [|x [|y l]]; [destruct Hold|rewrite (Hother x (or_introl eq_refl)); reflexivity|exfalso].
      pose proof (Hother x (or_introl eq_refl)) as X1. pose proof (Hother y (or_intror (or_introl eq_refl))) as X2. subst x y.
      inversion Hnd as [|? ? N1 _]. apply N1. left. reflexivity.
    + split; [exact Epi_correct|]. split; [exact Epi_converges|]. split; [intros a b X _ _ _ K; discriminate K|]. cbn. lra.
Qed.

(** a given function space of 2 x 2 matrices *)
Definition ex_fs : space := SP (MD (DM 1 4 [[1; 2; 3; 4]%R])) ["f"] [] (numbered ["f"]) [] [] [2; 2].
Lemma ex_fs_consistent : consistent ex_fs.
Proof.
  apply (mk_space_consistent (MD (DM 1 4 [[1; 2; 3; 4]%R])) ["f"] [] None None [] (Some [2; 2])); [repeat constructor|constructor|exact I|exact I|reflexivity].
Qed.
Example C41_example : exists s, @lf_compose RNum (LF (Some ex_fs) false (mk_lstsq None) [] 1) [("f", "b", "f b"); ("f", "zz", "p"); ("f", "a", "f a")] ex_arg = Ok s /\
  s_id2row s = ["f b"; "f a"] /\ s_eshape s = [2] /\ ment (s_mat s) 0 1 = 4%R /\ ment (s_mat s) 1 0 = 1%R.
Proof.
  set (m := LF (Some ex_fs) false (mk_lstsq None) [] 1). set (d := [("f", "b", "f b"); ("f", "zz", "p"); ("f", "a", "f a")]).
  assert (HZ : in_range ex_fs) by (unfold in_range; cbn; lia).
  destruct (C41_total m ex_fs d ex_arg [2] ex_fs_consistent ex_arg_consistent HZ eq_refl eq_refl) as (s & Hs).
  - left. discriminate.
  - discriminate.
  - cbn. nodup.
  - constructor.
  - left. reflexivity.
  - exists s. split; [exact Hs|].
    destruct (C41_compose m ex_fs d ex_arg s ex_fs_consistent ex_arg_consistent HZ eq_refl Hs) as (_ & Hsh & _ & Hr & _ & He).
    assert (E2 : s_eshape s = [2]).
    { change (s_eshape ex_fs) with ([2] ++ [2]) in Hsh. apply app_inj_tail in Hsh. destruct Hsh as [<- _]. reflexivity. }
    split; [rewrite Hr; reflexivity|]. split; [exact E2|]. rewrite E2 in He. split.
    + rewrite (He 0 "f" "b" "f b" 1 eq_refl ltac:(cbn; lia)). unfold apply_fun, fmatrix, vec. cbn. lra.
    + rewrite (He 1 "f" "a" "f a" 0 eq_refl ltac:(cbn; lia)). unfold apply_fun, fmatrix, vec. cbn. lra.
Qed.
