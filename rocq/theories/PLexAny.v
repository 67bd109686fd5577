(** PLexAny.v -- what LexicalFunction.compose computes on dense matrices, over any arithmetic (C41 is about exact numbers; this is
    used for rounded ones). *)
From Verif Require Import Base PyList Dict Num Dense Sparse Matrix PSparse PMatrix PMatOps PShape PVals Scaling Linalg Operation Similarity Space SpecSpace PDictList PSpace Prop_Space
  Learner Composition SpecComp PComp Utils LexFun.
Section Any.
Context {N : Num}.
Local Open Scope string_scope.
Local Open Scope list_scope.
Local Open Scope nat_scope.

Lemma reshape_dense a r c f r' c' : vals a TDense r c f -> r * c = r' * c' ->
  exists z, m_reshape a r' c' = Ok z /\ vals z TDense r' c' (fun i j => f ((i * c' + j) / c) ((i * c' + j) mod c)).
Proof.
  intros Va He. pose proof (vals_pos _ _ _ _ _ Va) as (Hr & Hc). assert (0 < r' /\ 0 < c') as [Hr' Hc'] by nia.
  pose proof (vals_nr _ _ _ _ _ Va) as Nr. pose proof (vals_nc _ _ _ _ _ Va) as Nc. pose proof (vals_type _ _ _ _ _ Va) as Ty.
  assert (HB : forall i j, i < r' -> j < c' -> (i * c' + j) / c < r /\ (i * c' + j) mod c < c).
  { intros i j Hi Hj. split; [apply Nat.div_lt_upper_bound; nia|apply Nat.mod_upper_bound; lia]. }
  destruct a as [d|s]; cbn [m_reshape m_nr m_nc type_of] in *; [|discriminate].
  rewrite Nr, Nc, He, Nat.eqb_refl. cbn [check bind]. eexists. split; [reflexivity|]. unfold d_reshape. cbv zeta.
  eapply vals_ext; [exact (vals_of_dense TDense r' c' _ Hr' Hc')|]. intros i j Hi Hj. cbn beta.
  rewrite Nc. destruct (HB i j Hi Hj) as [B1 B2]. exact (vals_ent _ _ _ _ _ _ _ Va B1 B2).
Qed.
Lemma nary_any t c (vs : list matrix) : forall f : nat -> nat -> F, vs <> [] ->
  (forall i v, nth_error vs i = Some v -> vals v t 1 c (fun _ j => f i j)) ->
  exists z, nary_vstack t vs = Ok z /\ vals z t (length vs) c f.
Proof.
  induction vs as [|v vs IH]; intros f Hne H; [congruence|].
  pose proof (H 0 v eq_refl) as H0. cbn beta in H0.
  destruct vs as [|v' vs].
  - cbn [nary_vstack]. eexists. split; [reflexivity|]. cbn [length].
    eapply vals_ext; [eapply vals_conv; exact H0|]. intros i j Hi Hj. replace i with 0 by lia. reflexivity.
  - destruct (IH (fun i j => f (S i) j)) as (r & Er & Vr); [discriminate|intros i w Hw; exact (H (S i) w Hw)|].
    change (nary_vstack t (v :: v' :: vs)) with (let* r := nary_vstack t (v' :: vs) in m_vstack (conv t v) r).
    rewrite Er. cbn [bind]. destruct (vals_vstack (conv t v) r t 1 _ c _ _ (vals_conv t v _ _ _ _ H0) Vr) as (z & Ez & Vz).
    exists z. split; [exact Ez|]. cbn [length]. change (S (S (length vs))) with (1 + S (length vs)).
    eapply vals_ext; [exact Vz|]. intros i j Hi Hj. cbn beta. destruct i; [reflexivity|]. cbn [Nat.ltb Nat.leb]. 
    replace (S i - 1) with i by lia. destruct (Nat.leb_spec (S (S i)) 1); [lia|reflexivity].
Qed.

(** coordinate [r] of the composed vector, as it is computed: the last dimension of the functions is [n'] *)
Definition lform (fs arg : space) (w1 w2 : string) (n' r : nat) : F :=
  sumn n' (fun j => fmul (vec fs w1 (r * n' + j)) (if Nat.ltb j (m_nc (s_mat arg)) then vec arg w2 j else f1)).

Lemma lf_compose1_dense (icpt : bool) (fs arg : space) (w1 w2 : string) sh n' : consistent fs -> consistent arg -> known fs w1 = true -> known arg w2 = true ->
  type_of (s_mat fs) = TDense -> type_of (s_mat arg) = TDense -> s_eshape fs = sh ++ [n'] ->
  let n := m_nc (s_mat arg) in n' = (if icpt then n + 1 else n) ->
  exists v : matrix, lf_compose1 icpt fs arg w1 w2 = Ok v /\ vals v TDense 1 (list_prod_nat sh) (fun _ r => lform fs arg w1 w2 n' r).
Proof.
  intros C1 C2 K1 K2 T1 T2 Hsh n Hn.
  destruct (get_row_vals fs w1 C1 K1) as (fv & Ef & Vf). destruct (get_row_vals arg w2 C2 K2) as (av & Ea & Va). rewrite T1 in Vf. rewrite T2 in Va.
  unfold lf_compose1. rewrite Ef. cbn [bind]. rewrite Ea. cbn [bind].
  rewrite resolve2_same by (rewrite (vals_type _ _ _ _ _ Vf), (vals_type _ _ _ _ _ Va); reflexivity). cbn [bind].
  unfold lf_apply. rewrite Hsh, removelast_last, last_last.
  assert (EL : Nat.eqb (length (sh ++ [n'])) 0 = false) by (rewrite app_length; cbn; destruct (length sh); reflexivity).
  rewrite EL. cbn [negb check bind]. rewrite (vals_type _ _ _ _ _ Vf), andb_false_r. cbn [negb check bind].
  assert (HS : list_prod_nat sh * n' = m_nc (s_mat fs)).
  { destruct C1 as (_&_&_&_&_&_&_&Hp&_). rewrite <- Hp, Hsh. unfold list_prod_nat. rewrite fold_left_app. reflexivity. }
  destruct (reshape_dense fv 1 _ _ (list_prod_nat sh) n' Vf) as (u & Eu & Vu); [lia|]. rewrite Eu. cbn [bind].
  assert (HV : exists v, (if icpt then padd_matrix (m_transpose av) 0 f1 else Ok (m_transpose av)) = Ok v /\
     vals v TDense n' 1 (fun j _ => if Nat.ltb j n then vec arg w2 j else f1)).
  { pose proof (vals_transpose av TDense 1 n _ Va) as Vt. rewrite Hn. destruct icpt.
    - destruct (padd0_vals _ TDense n 1 _ f1 Vt) as (v & Ev & Vv). exists v. split; [exact Ev|exact Vv].
    - exists (m_transpose av). split; [reflexivity|]. eapply vals_ext; [exact Vt|]. intros i j Hi Hj. cbn beta.
      destruct (Nat.ltb_spec i n); [reflexivity|lia]. }
  destruct HV as (v & Ev & Vv). rewrite Ev. cbn [bind].
  destruct (vals_mul u v TDense _ _ _ _ _ Vu Vv) as (c & Ec & Vc). rewrite Ec. cbn [bind].
  eexists. split; [reflexivity|]. eapply vals_ext; [exact (vals_transpose c TDense _ _ _ Vc)|]. intros i r Hi Hr. cbn beta.
  unfold lform. apply sumn_ext. intros j Hj. fold n. rewrite Nat.mod_small by nia. reflexivity.
Qed.

Theorem lf_compose_dense : forall m fs data arg s, consistent fs -> consistent arg -> type_of (s_mat fs) = TDense -> type_of (s_mat arg) = TDense -> lf_fs m = Some fs ->
  lf_compose m data arg = Ok s -> let n := m_nc (s_mat arg) in let n' := if lf_icpt m then n + 1 else n in
  forall sh, s_eshape fs = sh ++ [n'] -> m_nc (s_mat s) = list_prod_nat sh /\
  forall i w1 w2 ph r, nth_error (filter (usable2 fs arg) data) i = Some (w1, w2, ph) -> r < m_nc (s_mat s) -> ment (s_mat s) i r = lform fs arg w1 w2 n' r.
Proof.
  intros m fs data arg s C1 C2 T1 T2 Hfs H n n' sh Hsh. unfold lf_compose in H. rewrite Hfs in H.
  apply bind_ok in H. destruct H as ([[l1 l2] l3] & Hl & H).
  rewrite (valid_data_eq data _ _ _ _ (valid_eq2 fs arg C1 C2)) in Hl.
  destruct data as [|d0 data]; [discriminate|]. set (dat := d0 :: data) in *.
  assert (HU : forall t, In t (filter (usable2 fs arg) dat) -> usable2 fs arg t = true) by (intros t Ht; apply filter_In in Ht; tauto).
  set (w := filter (usable2 fs arg) dat) in *. clearbody w.
  assert (Hw : w <> []) by (intros ->; discriminate). assert (El : (l1, l2, l3) = (map t1 w, map t2 w, map t3 w)) by (destruct w; [congruence|]; injection Hl as <- <- <-; reflexivity).
  injection El as -> -> ->. clear Hl.
  apply bind_ok in H. destruct H as (vs & Hvs & H). apply bind_ok in H. destruct H as (mat & Hmat & H).
  set (ps := combine (map t1 w) (map t2 w)) in *.
  assert (Lp : length ps = length w) by (unfold ps; rewrite combine_length, !map_length; lia).
  pose proof (mapM_ok_length _ _ _ Hvs) as Lv. rewrite Lp in Lv.
  assert (Hp : forall i, i < length w -> nth i ps ("", "") = (t1 (nth i w ("", "", "")), t2 (nth i w ("", "", "")))).
  { intros i Hi. unfold ps. rewrite combine_nth by (rewrite !map_length; reflexivity).
    rewrite !(nth_map_in _ w i "" ("", "", "")) by assumption. reflexivity. }
  assert (Hnth : forall i v, nth_error vs i = Some v -> vals v TDense 1 (list_prod_nat sh) (fun _ r => lform fs arg (t1 (nth i w ("", "", ""))) (t2 (nth i w ("", "", ""))) n' r)).
  { intros i v Hv. assert (Li : i < length w) by (rewrite <- Lv; apply nth_error_Some; congruence).
    pose proof (mapM_ok_nth _ _ _ ("", "") v Hvs i ltac:(lia)) as K. cbn beta in K. rewrite (Hp i Li), (nth_error_nth _ _ v Hv) in K. cbn [fst snd] in K.
    pose proof (HU _ (nth_In w ("", "", "") Li)) as U. destruct (nth i w ("", "", "")) as [[x y] z]. unfold usable2 in U. apply andb_true_iff in U. cbn [t1 t2 fst snd] in K |- *.
    destruct (lf_compose1_dense (lf_icpt m) fs arg x y sh n' C1 C2 (proj1 U) (proj2 U) T1 T2 Hsh eq_refl) as (v' & Ev & Vv). assert (EV : v' = v) by congruence. rewrite <- EV. exact Vv. }
  destruct (nary_any TDense (list_prod_nat sh) vs (fun i r => lform fs arg (t1 (nth i w ("", "", ""))) (t2 (nth i w ("", "", ""))) n' r)) as (z & Ez & Vz).
  { intros ->. destruct w; [congruence|discriminate]. }
  { exact Hnth. }
  assert (ET : last (map type_of vs) TDense = TDense).
  { destruct vs as [|v vs _] using rev_ind; [reflexivity|]. rewrite map_app. cbn [map]. rewrite last_last.
    apply (vals_type v _ 1 (list_prod_nat sh) _ (Hnth (length vs) v ltac:(rewrite nth_error_app2 by lia; rewrite Nat.sub_diag; reflexivity))). }
  rewrite ET, Ez in Hmat. assert (EM : mat = z) by congruence. subst mat.
  destruct (mk_space_ok _ _ _ None None _ _ _ I I H) as (dr & dc & e & -> & _ & _ & Lr & Lc & He & Ee). cbn [s_mat] in *.
  split; [exact (vals_nc _ _ _ _ _ Vz)|]. intros i w1 w2 ph r Hi Hr. assert (Li : i < length w) by (apply nth_error_Some; congruence).
  rewrite (vals_nc _ _ _ _ _ Vz) in Hr. rewrite (vals_ent _ _ _ _ _ i r Vz ltac:(rewrite Lv; exact Li) Hr).
  assert (EN : nth i w ("", "", "") = (w1, w2, ph)) by (apply nth_error_nth, Hi). rewrite EN. reflexivity.
Qed.
End Any.
