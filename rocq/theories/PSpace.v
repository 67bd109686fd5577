(** PSpace.v -- consistency of spaces. *)
From Verif Require Import Base PyList Dict Num Dense Sparse Matrix PSparse PMatrix PMatOps Scaling Linalg Operation
  Similarity Space Peripheral SpecSpace PShape PDictList.
Section PSpace.
Context {N : Num} {E : Ext}.
Local Open Scope nat_scope.

Lemma list2dict_inverse l d : list2dict l = Ok d -> mutually_inverse l d /\ dwf d /\ positional l d.
Proof.
  intros H. apply list2dict_ok in H. destruct H as (Hn & Hp & Hk & Hl).
  split; [apply positional_inverse; auto|]. split; [unfold dwf; rewrite Hk; exact Hn|exact Hp].
Qed.

Lemma mutually_inverse_nil : mutually_inverse [] [] /\ dwf ([] : dict Z).
Proof.
  split; [|constructor]. split; [constructor|]. split; [reflexivity|]. split; [reflexivity|].
  intros w k H. discriminate.
Qed.

(** what an accepted pair (list, optional dictionary) is *)
Definition acc (l : list string) (given : option (dict Z)) (d : dict Z) : Prop :=
  mutually_inverse l d /\ dwf d /\ match given with None => positional l d | Some d0 => d = d0 end.

Lemma acc_ok l given d : opt_dict given ->
  match given with None => list2dict l | Some d0 => let* _ := assert_dict_match_list d0 l in Ok d0 end = Ok d ->
  acc l given d.
Proof.
  intros Hw H. destruct given as [d0|].
  - inv_ok. apply assert_match_ok in Hm; [|exact Hw]. split; [exact Hm|]. split; [exact Hw|reflexivity].
  - apply list2dict_inverse in H. destruct H as (H1&H2&H3). split; auto.
Qed.

Lemma shape_consistent_ok nr nc a b c d u : assert_shape_consistent nr nc a b c d = Ok u ->
  nr = a /\ nr = c /\ ((b = 0 /\ d = 0) \/ (nc = b /\ nc = d)).
Proof.
  unfold assert_shape_consistent. intros H. inv_ok. apply andb_true_iff in Hm. destruct Hm as (H1 & H2).
  apply Nat.eqb_eq in H1, H2. split; [assumption|]. split; [assumption|].
  apply negb_true_iff in H. apply andb_false_iff in H. destruct H as [H|H].
  - apply orb_false_iff in H. destruct H as (H3 & H4). apply negb_false_iff, Nat.eqb_eq in H3, H4. auto.
  - apply negb_false_iff, andb_true_iff in H. destruct H as (H3 & H4). apply Nat.eqb_eq in H3, H4. auto.
Qed.
Lemma shape_consistent_total nr nc a b c d :
  nr = a -> nr = c -> ((b = 0 /\ d = 0) \/ (nc = b /\ nc = d)) -> assert_shape_consistent nr nc a b c d = Ok tt.
Proof.
  intros <- <- H. unfold assert_shape_consistent. rewrite Nat.eqb_refl. cbn [andb check bind].
  destruct H as [(-> & ->)|(<- & <-)]; [reflexivity|]. rewrite Nat.eqb_refl. cbn [andb negb]. rewrite andb_false_r. reflexivity.
Qed.

(** ** the constructor *)
Lemma mk_space_ok m r c r2i c2i ops es s : opt_dict r2i -> opt_dict c2i ->
  mk_space m r c r2i c2i ops es = Ok s ->
  exists dr dc e, s = SP m r c dr dc ops e /\ acc r r2i dr /\ acc c c2i dc /\
    length r = m_nr m /\ (c = [] \/ length c = m_nc m) /\ list_prod_nat e = m_nc m /\
    match es with None => e = [m_nc m] | Some e' => e = e' end.
Proof.
  intros Hr Hc H. unfold mk_space in H. apply bind_ok in H. destruct H as (dr & H1 & H).
  apply bind_ok in H. destruct H as (dc & H2 & H). apply bind_ok in H. destruct H as (u & H3 & H).
  apply bind_ok in H. destruct H as (e & H4 & H). inv_ok.
  apply acc_ok in H1; [|assumption]. apply acc_ok in H2; [|assumption].
  apply shape_consistent_ok in H3. destruct H3 as (L1 & L2 & L3).
  exists dr, dc, e. split; [reflexivity|]. split; [exact H1|]. split; [exact H2|]. split; [auto|]. split.
  - destruct L3 as [(L3 & _)|(L3 & _)]; [left; destruct c; [reflexivity|discriminate]|auto].
  - destruct es as [e'|]; inv_ok; [|cbn; rewrite Nat.add_0_r; auto]. apply Nat.eqb_eq in Hm. auto.
Qed.

Lemma mk_space_total m r c r2i c2i ops es :
  NoDup r -> NoDup c -> length r = m_nr m -> (c = [] \/ length c = m_nc m) ->
  match r2i with None => True | Some d => dwf d /\ mutually_inverse r d end ->
  match c2i with None => True | Some d => dwf d /\ mutually_inverse c d end ->
  match es with None => True | Some e => list_prod_nat e = m_nc m end ->
  exists s, mk_space m r c r2i c2i ops es = Ok s.
Proof.
  intros Hr Hc Lr Lc Dr Dc He. unfold mk_space.
  assert (R1 : exists dr, match r2i with None => list2dict r | Some d => let* _ := assert_dict_match_list d r in Ok d end = Ok dr /\ length dr = length r).
  { destruct r2i as [d|].
    - exists d. rewrite assert_match_total by tauto. split; [reflexivity|]. apply Dr.
    - destruct (list2dict_total r Hr) as (d & Hd). exists d. split; [exact Hd|]. apply list2dict_ok in Hd. tauto. }
  assert (R2 : exists dr, match c2i with None => list2dict c | Some d => let* _ := assert_dict_match_list d c in Ok d end = Ok dr /\ length dr = length c).
  { destruct c2i as [d|].
    - exists d. rewrite assert_match_total by tauto. split; [reflexivity|]. apply Dc.
    - destruct (list2dict_total c Hc) as (d & Hd). exists d. split; [exact Hd|]. apply list2dict_ok in Hd. tauto. }
  destruct R1 as (dr & -> & L1). destruct R2 as (dc & -> & L2). cbn [bind].
  rewrite shape_consistent_total; try congruence.
  2:{ destruct Lc as [->|Lc]; [left; auto|right; split; congruence]. }
  cbn [bind]. destruct es as [e|]; cbn [bind]; [|eauto]. rewrite He, Nat.eqb_refl. cbn. eauto.
Qed.

Lemma acc_inverse l g d : acc l g d -> mutually_inverse l d /\ dwf d.
Proof. intros (H&H'&_); auto. Qed.

Lemma mk_space_consistent m r c r2i c2i ops es s : mwf m -> Forall op_wf ops -> opt_dict r2i -> opt_dict c2i ->
  mk_space m r c r2i c2i ops es = Ok s -> consistent s.
Proof.
  intros Hm Ho Hr Hc H. destruct (mk_space_ok _ _ _ _ _ _ _ _ Hr Hc H) as (dr&dc&e&->&Ar&Ac&Lr&Lc&He&_).
  apply acc_inverse in Ar, Ac. unfold consistent. cbn. tauto.
Qed.

Lemma mutually_inverse_length l d : mutually_inverse l d -> length d = length l.
Proof. intros (_&H&_); exact H. Qed.

(** ** apply *)
Lemma space_apply_ok s t s' : consistent s -> tr_ok t -> space_apply s t = Ok s' ->
  exists m o o0 id2col col2id,
    op_apply (create_operation t) (s_mat s) = Ok (m, o0) /\
    s' = SP m (s_id2row s) id2col (s_row2id s) col2id (s_ops s ++ [o]) [m_nc m] /\
    o = match t with TFS _ _ => op_set_original o0 (s_id2col s) | _ => o0 end /\
    match t with
    | TScale _ => id2col = s_id2col s /\ col2id = s_col2id s
    | TDim _ _ => id2col = [] /\ col2id = [] /\ length (s_eshape s) <= 1
    | TFS _ _ => length (s_eshape s) <= 1 /\
        ((s_id2col s = [] /\ id2col = [] /\ col2id = []) \/
         (s_id2col s <> [] /\ exists sel, (exists c k, o0 = OpFS c k (Some sel) None) /\
            select_labels (s_id2col s) sel = Ok id2col /\ list2dict id2col = Ok col2id))
    end /\ mwf m /\ op_wf o /\ consistent s'.
Proof.
  intros (Cm&Cr&Cc&Ci&Cd&Cj&Ce&Cp&Co) Ht H. unfold space_apply in H.
  apply bind_ok in H. destruct H as ([m o0] & H1 & H).
  apply bind_ok in H. destruct H as ([[o id2col] col2id] & H2 & H).
  pose proof (op_apply_create _ _ _ _ Cm Ht H1) as (Hw & Hr & Hcase).
  assert (Hfs : assert_1dim_element s = Ok tt -> length (s_eshape s) <= 1).
  { unfold assert_1dim_element. destruct (Nat.ltb_spec 1 (length (s_eshape s))); [discriminate|auto]. }
  assert (Hcols : (o = match t with TFS _ _ => op_set_original o0 (s_id2col s) | _ => o0 end /\
    match t with
    | TScale _ => id2col = s_id2col s /\ col2id = s_col2id s
    | TDim _ _ => id2col = [] /\ col2id = [] /\ length (s_eshape s) <= 1
    | TFS _ _ => length (s_eshape s) <= 1 /\
        ((s_id2col s = [] /\ id2col = [] /\ col2id = []) \/
         (s_id2col s <> [] /\ exists sel, (exists c k, o0 = OpFS c k (Some sel) None) /\
            select_labels (s_id2col s) sel = Ok id2col /\ list2dict id2col = Ok col2id))
    end) /\ op_wf o /\ dwf col2id).
  { destruct t as [sc|d k|c k], o0 as [sc' st|d' k' [tm|]|c' k' [sel|] [orig|]]; try contradiction.
    - inv_ok. auto.
    - apply bind_ok in H2. destruct H2 as ([] & H2 & H2'). inversion H2'; subst.
      destruct Hcase as (_&_&r0&_&_&Hh). cbn. repeat split; auto; [apply Hh|apply mutually_inverse_nil].
    - apply bind_ok in H2. destruct H2 as ([] & H2 & H2'). destruct (s_id2col s) as [|c0 cs] eqn:Ec.
      + inversion H2'; subst. cbn. repeat split; auto. apply mutually_inverse_nil.
      + apply bind_ok in H2'. destruct H2' as (l & H3 & H4). apply bind_ok in H4. destruct H4 as (d & H4 & H5).
        inversion H5; subst. rewrite <- Ec in *. repeat split; auto.
        * right. split; [rewrite Ec; discriminate|]. exists sel. eauto 6.
        * apply list2dict_inverse in H4. tauto. }
  destruct Hcols as ((Ho & Hcols) & How & Hdw).
  assert (Hcons : consistent s').
  { eapply mk_space_consistent; [exact Hw| | | |exact H]; [|exact Cd|exact Hdw].
    apply Forall_app. split; [exact Co|]. constructor; [exact How|constructor]. }
  apply mk_space_ok in H; [|exact Cd|exact Hdw].
  destruct H as (dr & dc & e & -> & (_&_&->) & (_&_&->) & _ & _ & _ & ->).
  exists m, o, o0, id2col, col2id. auto 8.
Qed.

(** ** vstack *)
Lemma strings_eqb_eq a b : strings_eqb a b = true <-> a = b.
Proof.
  revert b; induction a as [|x xs IH]; intros [|y ys]; cbn; split; try congruence; intros H.
  - apply andb_true_iff in H. destruct H as (H1 & H2). apply String.eqb_eq in H1. apply IH in H2. congruence.
  - inversion H; subst. rewrite String.eqb_refl. cbn. apply IH. reflexivity.
Qed.

Lemma add_items_dwf d l d' u : dwf d -> add_items_to_dict d l = (d', Ok u) -> dwf d'.
Proof.
  intros Hw H. unfold add_items_to_dict in H. revert H. generalize (Z.of_nat (length d)) 0%Z. revert d Hw.
  induction l as [|w ws IH]; cbn; intros d Hw n idx H; [inversion H; subst; exact Hw|].
  destruct (dmem d w); [discriminate|]. eapply IH; [|eassumption]. apply dwf_dset, Hw.
Qed.

Lemma get_type_of_largest_some a b : mwf a -> exists t, get_type_of_largest [a; b] = Some t.
Proof.
  intros H. pose proof (mwf_pos a H) as (H1 & H2). unfold get_type_of_largest. cbn [largest_aux].
  destruct (Nat.ltb_spec 0 (m_nr a * m_nc a)); [|nia]. destruct (_ <? _); eauto.
Qed.

Lemma space_vstack_ok s1 s2 s' : consistent s1 -> consistent s2 -> space_vstack s1 s2 = Ok s' ->
  exists m d, s' = SP m (s_id2row s1 ++ s_id2row s2) (s_id2col s1) d (s_col2id s1) [] [m_nc m] /\
    add_items_to_dict (s_row2id s1) (s_id2row s2) = (d, Ok tt) /\
    s_id2col s1 = s_id2col s2 /\ m_nc (s_mat s1) = m_nc (s_mat s2) /\
    mwf m /\ to_dense m = d_vstack (to_dense (s_mat s1)) (to_dense (s_mat s2)) /\ consistent s'.
Proof.
  intros C1 C2 H. pose proof C1 as (Cm&Cr&Cc&Ci&Cd&Cj&Ce&Cp&Co). pose proof C2 as (Cm2&_).
  unfold space_vstack in H. apply bind_ok in H. destruct H as (u1 & H1 & H). apply bind_ok in H. destruct H as (u2 & H2 & H).
  inv_ok. apply Nat.eqb_eq in H1. apply strings_eqb_eq in H2.
  destruct (add_items_to_dict (s_row2id s1) (s_id2row s2)) as [d [[]|e]] eqn:Ea; [|discriminate].
  cbn [bind] in H. apply bind_ok in H. destruct H as ([m1 m2] & H3 & H). apply bind_ok in H. destruct H as (m & H4 & H).
  destruct (resolve2_ok _ _ _ _ _ Cm Cm2 H3) as (W1&W2&_&E1&E2).
  apply m_vstack_ok in H4; [|assumption|assumption]. destruct H4 as (_&_&(Wm&_&Em)). rewrite E1, E2 in Em.
  pose proof (add_items_dwf _ _ _ _ Cd Ea) as Hd.
  assert (Hcons : consistent s') by (eapply mk_space_consistent; [exact Wm| | | |exact H]; [constructor|exact Hd|exact Ce]).
  apply mk_space_ok in H; [|exact Hd|exact Ce].
  destruct H as (dr & dc & e & -> & (_&_&->) & (_&_&->) & _ & _ & _ & ->).
  exists m, d. auto 10.
Qed.

(** ** conversions, set_cooccurrence_matrix *)
Lemma to_type_consistent t s : consistent s ->
  consistent (SP (conv t (s_mat s)) (s_id2row s) (s_id2col s) (s_row2id s) (s_col2id s) (s_ops s) (s_eshape s)).
Proof.
  intros (Cm&Cr&Cc&Ci&Cd&Cj&Ce&Cp&Co). unfold consistent. cbn [s_mat s_id2row s_id2col s_row2id s_col2id s_ops s_eshape].
  rewrite conv_nr, conv_nc. split; [apply conv_wf, Cm|tauto].
Qed.

Lemma set_cooccurrence_ok s m s' : consistent s -> mwf m -> set_cooccurrence_matrix s m = Ok s' ->
  consistent s' /\ m_nr m = m_nr (s_mat s) /\ m_nc m = m_nc (s_mat s) /\ m_nr m = m_nc m.
Proof.
  intros (Cm&Cr&Cc&Ci&Cd&Cj&Ce&Cp&Co) Hm H. unfold set_cooccurrence_matrix in H. inv_ok.
  apply shape_consistent_ok in Hm0. destruct Hm0 as (L1 & L2 & L3).
  pose proof (mutually_inverse_length _ _ Ci). pose proof (mutually_inverse_length _ _ Cj).
  pose proof (mwf_pos _ Cm). pose proof (mwf_pos _ Hm).
  assert (Hc : length (s_id2col s) = m_nc (s_mat s)) by (destruct Cc as [Cc|Cc]; [rewrite Cc in *; cbn in *; lia|exact Cc]).
  assert (HH : m_nr m = m_nr (s_mat s) /\ m_nc m = m_nc (s_mat s) /\ m_nr m = m_nc m) by lia.
  split; [|exact HH]. destruct HH as (H3 & H4 & H5). unfold consistent.
  cbn [s_mat s_id2row s_id2col s_row2id s_col2id s_ops s_eshape]. rewrite H3, H4. tauto.
Qed.

(** ** projection *)
Definition col_ok (c : colst) : Prop := mutually_inverse (c_id2col c) (c_col2id c) /\ dwf (c_col2id c).

Lemma op_columns_ok o c c' u : col_ok c -> op_columns o c = (c', Ok u) -> col_ok c'.
Proof.
  intros Hc H. destruct o as [s st|d k tm|cr k sel orig]; cbn [op_columns] in H.
  - inversion H; subst; assumption.
  - inversion H; subst. apply mutually_inverse_nil.
  - destruct orig as [[|c0 cs]|]; try (inversion H; subst; apply mutually_inverse_nil).
    destruct (select_labels _ _) as [l|]; [|discriminate]. destruct (list2dict l) as [d|] eqn:El; [|discriminate].
    inversion H; subst. apply list2dict_inverse in El. unfold col_ok; cbn. tauto.
Qed.

Lemma project_ops_ok ops : forall c m c' pm, Forall op_wf ops -> col_ok c -> mwf m ->
  project_ops ops c m = (c', Ok pm) -> col_ok c' /\ mwf pm /\ m_nr pm = m_nr m.
Proof.
  induction ops as [|o ops IH]; intros c m c' pm Ho Hc Hm H; cbn [project_ops] in H.
  - inversion H; subst. auto.
  - inversion Ho as [|? ? Ho1 Ho2]; subst.
    destruct (op_columns o c) as [c1 [u|e]] eqn:Ec; [|discriminate].
    destruct (op_project o m) as [m1|e] eqn:Ep; [|discriminate].
    apply op_columns_ok in Ec; [|assumption].
    destruct (op_project_wf o m m1 Hm) as (Hw & Hr); [destruct o as [| ? ? [|]|]; exact Ho1 || exact I|exact Ep|].
    destruct (IH _ _ _ _ Ho2 Ec Hw H) as (? & ? & ?). split; [assumption|]. split; [assumption|congruence].
Qed.

Lemma mk_peripheral_ok core m r r2i s : consistent core -> mwf m -> opt_dict r2i ->
  mk_peripheral core m r r2i = Ok s ->
  exists c pm d, project_ops (s_ops core) (CS (s_id2col core) (s_col2id core)) m = (c, Ok pm) /\
    s = SP pm r (c_id2col c) d (c_col2id c) (s_ops core) [m_nc pm] /\ acc r r2i d /\
    mwf pm /\ m_nr pm = m_nr m /\ consistent s.
Proof.
  intros (Cm&Cr&Cc&Ci&Cd&Cj&Ce&Cp&Co) Hm Hr H. unfold mk_peripheral in H.
  apply bind_ok in H. destruct H as (d & H1 & H). apply acc_ok in H1; [|assumption].
  destruct (project_ops (s_ops core) _ m) as [c rm] eqn:Epj.
  apply bind_ok in H. destruct H as (pm & -> & H). apply bind_ok in H. destruct H as (u & H2 & H).
  apply shape_consistent_ok in H2. destruct H2 as (L1 & L2 & L3).
  destruct (project_ops_ok _ (CS (s_id2col core) (s_col2id core)) _ _ _ Co (conj Cj Ce) Hm Epj) as ((Hi & Hdw) & Hw & Hnr).
  assert (Es : s = SP pm r (c_id2col c) d (c_col2id c) (s_ops core) [m_nc pm]) by congruence. subst s. clear H.
  exists c, pm, d. split; [reflexivity|]. split; [reflexivity|]. split; [exact H1|]. split; [exact Hw|]. split; [exact Hnr|].
  apply acc_inverse in H1. unfold consistent. cbn.
  split; [exact Hw|]. split; [auto|]. split.
  - destruct L3 as [(L3&_)|(L3&_)]; [left; destruct (c_id2col c); [reflexivity|discriminate]|right; auto].
  - rewrite Nat.add_0_r. tauto.
Qed.

(** successful add_rows, on a space whose ids are list positions *)
Lemma add_rows_ok s m r s' : consistent s -> mwf m -> add_rows s m r = (s', Ok tt) ->
  exists d c pm vm, add_items_to_dict (s_row2id s) r = (d, Ok tt) /\ m_nr m = length r /\
    project_ops (s_ops s) (CS (s_id2col s) (s_col2id s)) m = (c, Ok pm) /\ m_vstack (s_mat s) pm = Ok vm /\
    mwf pm /\ mwf vm /\ to_dense vm = d_vstack (to_dense (s_mat s)) (to_dense pm) /\ type_of vm = type_of (s_mat s) /\
    m_nr pm = m_nr m /\ m_nc pm = m_nc (s_mat s) /\
    (c_id2col c = [] \/ length (c_id2col c) = m_nc vm) /\ col_ok c /\
    s' = SP vm (s_id2row s ++ r) (c_id2col c) d (c_col2id c) (s_ops s) (s_eshape s) /\
    m_nr vm = length (s_id2row s ++ r) /\ m_nr vm = length d.
Proof.
  intros (Cm&Cr&Cc&Ci&Cd&Cj&Ce&Cp&Co) Hm H. unfold add_rows, set_row2id, set_id2row, set_cols, set_mat in H.
  destruct (add_items_to_dict (s_row2id s) r) as [d [u|e]] eqn:Ea; [|inversion H].
  destruct (Nat.eqb_spec (m_nr m) (length r)) as [Hl|Hl]; cbn [negb] in H; [|inversion H].
  cbn [set_row2id set_id2row s_mat s_id2row s_id2col s_row2id s_col2id s_ops s_eshape] in H.
  destruct (project_ops (s_ops s) (CS (s_id2col s) (s_col2id s)) m) as [c [pm|e]] eqn:Ep; [|inversion H].
  cbn [set_cols s_mat s_id2row s_id2col s_row2id s_col2id s_ops s_eshape] in H.
  destruct (m_vstack (s_mat s) pm) as [vm|e] eqn:Ev; [|inversion H].
  cbn [set_mat s_mat s_id2row s_id2col s_row2id s_col2id s_ops s_eshape] in H.
  assert (Hs := f_equal fst H). assert (Hsh := f_equal snd H). cbn [fst snd] in Hs, Hsh. clear H. apply shape_consistent_ok in Hsh. destruct Hsh as (L1 & L2 & L3).
  destruct (project_ops_ok _ (CS (s_id2col s) (s_col2id s)) _ _ _ Co (conj Cj Ce) Hm Ep) as (Hcol & Hw & Hnr).
  pose proof Ev as Ev'. apply m_vstack_ok in Ev'; [|assumption|assumption]. destruct Ev' as (Ht & Hnc & (Wv & Tv & Dv)).
  destruct u. exists d, c, pm, vm. repeat (split; [solve [auto]|]).
  split; [destruct L3 as [(L3&_)|(L3&_)]; [left; destruct (c_id2col c); [reflexivity|discriminate]|right; auto]|].
  auto.
Qed.

Definition good (s : space) : Prop := consistent s /\ positional_rows s.

Lemma add_rows_good s m r s' : good s -> mwf m -> add_rows s m r = (s', Ok tt) -> good s'.
Proof.
  intros (Hc & Hp) Hm H. pose proof Hc as (Cm&Cr&Cc&Ci&Cd&Cj&Ce&Cp&Co).
  destruct (add_rows_ok _ _ _ _ Hc Hm H) as (d&c&pm&vm&Ea&Hl&Ep&Ev&Wp&Wv&Dv&Tv&Rp&Np&Lc&(Hci&Hcd)&->&L1&L2).
  pose proof (mutually_inverse_length _ _ Ci) as Li.
  destruct (add_items_positional _ _ _ _ _ Cd Hp Li Ea) as (P1&P2&P3&P4&P5).
  split; [|exact P1]. unfold consistent. cbn [s_mat s_id2row s_id2col s_row2id s_col2id s_ops s_eshape].
  split; [exact Wv|]. split; [symmetry; exact L1|]. split; [exact Lc|].
  split; [apply positional_inverse; auto; eapply positional_NoDup; exact P1|].
  split; [exact P2|]. split; [exact Hci|]. split; [exact Hcd|]. split; [|exact Co].
  rewrite Cp. rewrite <- (to_dense_nc vm), Dv. cbn [d_vstack tab d_nc]. symmetry; apply to_dense_nc.
Qed.

Lemma reachable_good s : reachable nonneg_ids s -> good s.
Proof.
  induction 1 as [m r c r2i c2i ops es s Hm Ho Hr Hc Hid H
                 |s t s' _ IH Ht H|s1 s2 s' _ IH1 _ IH2 H|s _ IH|s _ IH|s m s' _ IH Hm H
                 |core m r r2i s _ IH Hm Hr Hid H|s m r s' _ IH Hm H].
  - split; [exact (mk_space_consistent _ _ _ _ _ _ _ _ Hm Ho Hr Hc H)|].
    destruct (mk_space_ok _ _ _ _ _ _ _ _ Hr Hc H) as (dr&dc&e&->&Ar&_). unfold positional_rows. cbn.
    destruct Ar as (A1 & A2 & A3). destruct r2i as [d|]; [|exact A3]. subst d.
    apply inverse_nonneg_positional; assumption.
  - destruct IH as (IH & IP). destruct (space_apply_ok _ _ _ IH Ht H) as (m&o&o0&ic&ci&_&E'&_&_&_&_&Hc).
    split; [exact Hc|]. subst s'. exact IP.
  - destruct IH1 as (I1 & P1), IH2 as (I2 & P2).
    destruct (space_vstack_ok _ _ _ I1 I2 H) as (m&d&->&Ea&_&_&_&_&Hc). split; [exact Hc|].
    pose proof I1 as (Cm&Cr&Cc&Ci&Cd&_). unfold positional_rows; cbn.
    destruct (add_items_positional _ _ _ _ _ Cd P1 (mutually_inverse_length _ _ Ci) Ea) as (Q&_). exact Q.
  - destruct IH as (I & P). split; [apply (to_type_consistent TDense), I|exact P].
  - destruct IH as (I & P). split; [apply (to_type_consistent TSparse), I|exact P].
  - destruct IH as (I & P). split; [eapply set_cooccurrence_ok; eassumption|].
    unfold set_cooccurrence_matrix in H. inv_ok. exact P.
  - destruct IH as (I & P). destruct (mk_peripheral_ok _ _ _ _ _ I Hm Hr H) as (c&pm&d&_&->&A&_&_&Hc).
    split; [exact Hc|]. unfold positional_rows; cbn.
    destruct A as (A1 & A2 & A3). destruct r2i as [d0|]; [|exact A3]. subst d.
    apply inverse_nonneg_positional; assumption.
  - eapply add_rows_good; eassumption.
Qed.
End PSpace.
