(** PVals.v -- matrices described by class, shape and entries. *)
From Verif Require Import Base PyList Dict Num Dense Sparse Matrix PSparse PMatrix PMatOps Scaling Linalg Operation PShape.
Section PVals.
Context {N : Num}.
Local Open Scope nat_scope.

Lemma py_index_nat n k : k < n -> py_index n (Z.of_nat k) = Some k.
Proof.
  intros H. unfold py_index. destruct (Z.ltb_spec (Z.of_nat k) 0); [lia|]. cbn zeta.
  destruct (Z.ltb_spec (Z.of_nat k) 0); [lia|]. destruct (Z.leb_spec (Z.of_nat n) (Z.of_nat k)); [lia|]. cbn [orb].
  rewrite Nat2Z.id. reflexivity.
Qed.

(** [m] is well-formed, of class [t], of shape r x c, with entries [f] *)
Definition vals (m : matrix) (t : mtype) (r c : nat) (f : nat -> nat -> F) : Prop :=
  has m t r c /\ forall i j, i < r -> j < c -> ment m i j = f i j.

Lemma vals_has m t r c f : vals m t r c f -> has m t r c.  Proof. intros (H&_); exact H. Qed.
Lemma vals_wf m t r c f : vals m t r c f -> mwf m.  Proof. intros ((H&_)&_); exact H. Qed.
Lemma vals_ent m t r c f i j : vals m t r c f -> i < r -> j < c -> ment m i j = f i j.
Proof. intros (_&H). apply H. Qed.
Lemma vals_type m t r c f : vals m t r c f -> type_of m = t.  Proof. intros ((_&H&_)&_); exact H. Qed.
Lemma vals_nr m t r c f : vals m t r c f -> m_nr m = r.  Proof. intros ((_&_&H&_)&_); exact H. Qed.
Lemma vals_nc m t r c f : vals m t r c f -> m_nc m = c.  Proof. intros ((_&_&_&H)&_); exact H. Qed.
Lemma vals_self m : mwf m -> vals m (type_of m) (m_nr m) (m_nc m) (ment m).
Proof. intros H. split; [apply has_self, H|reflexivity]. Qed.
Lemma vals_of m t r c : has m t r c -> vals m t r c (ment m).
Proof. intros H. split; [exact H|reflexivity]. Qed.
Lemma vals_ext m t r c f g : vals m t r c f -> (forall i j, i < r -> j < c -> f i j = g i j) -> vals m t r c g.
Proof. intros (H&E) K. split; [exact H|]. intros. rewrite E, K by assumption. reflexivity. Qed.
Lemma vals_dent m t r c f i j : vals m t r c f -> i < r -> j < c -> dent (to_dense m) i j = f i j.
Proof.
  intros H Hi Hj. rewrite dent_to_dense; [exact (vals_ent _ _ _ _ _ i j H Hi Hj)| |]; [rewrite (vals_nr _ _ _ _ _ H)|rewrite (vals_nc _ _ _ _ _ H)]; assumption.
Qed.
Lemma vals_from z t r c d f : has z t r c -> to_dense z = d -> (forall i j, i < r -> j < c -> dent d i j = f i j) -> vals z t r c f.
Proof.
  intros H <- K. split; [exact H|]. intros i j Hi Hj. destruct H as (_&_&R&C). rewrite <- K by assumption. symmetry. apply dent_to_dense; lia.
Qed.
Lemma is_mat_vals m t d : is_mat m t d -> vals m t (d_nr d) (d_nc d) (dent d).
Proof. intros H. eapply vals_from; [apply is_mat_has, H|apply H|reflexivity]. Qed.
Lemma is_mat_vals' m t d r c : is_mat m t d -> d_nr d = r -> d_nc d = c -> vals m t r c (dent d).
Proof. intros H <- <-. apply is_mat_vals, H. Qed.
Lemma vals_of_dense t r c f : 0 < r -> 0 < c -> vals (of_dense t (tab r c f)) t r c f.
Proof.
  intros Hr Hc. pose proof (of_dense_is t (tab r c f) (tab_wf r c f Hr Hc)) as H. apply (fun K1 K2 K => is_mat_vals' _ _ _ r c K K1 K2) in H; [|exact eq_refl|exact eq_refl].
  eapply vals_ext; [exact H|]. intros. apply dent_tab; assumption.
Qed.
Lemma vals_pos m t r c f : vals m t r c f -> 0 < r /\ 0 < c.
Proof. intros (H&_). exact (has_pos _ _ _ _ H). Qed.
Lemma vals_conv t' m t r c f : vals m t r c f -> vals (conv t' m) t' r c f.
Proof.
  intros ((W&T&R&C)&E). split; [split; [apply conv_wf, W|split; [apply conv_type|split; [rewrite conv_nr; exact R|rewrite conv_nc; exact C]]]|].
  intros i j Hi Hj. rewrite ment_conv by (assumption || lia). apply E; assumption.
Qed.
(** same shape and entries: same dense content *)
Lemma vals_dense_eq a b t t' r c f : vals a t r c f -> vals b t' r c f -> to_dense a = to_dense b.
Proof.
  intros ((Wa&_&Ra&Ca)&Ea) ((Wb&_&Rb&Cb)&Eb). apply dense_eq_ment; try assumption; try congruence.
  intros i j Hi Hj. rewrite Ea, Eb by lia. reflexivity.
Qed.

Ltac vtac H := unfold d_scal, d_map2, d_map, d_mul, d_vstack, d_hstack, d_scale_rows, d_scale_cols, d_rows, d_cols, d_transpose;
  rewrite dent_tab by (rewrite ?to_dense_nr, ?to_dense_nc, ?(vals_nr _ _ _ _ _ H), ?(vals_nc _ _ _ _ _ H); assumption || lia).

Lemma vals_zip op a b t r c f g : vals a t r c f -> vals b t r c g ->
  exists z, m_zip op a b = Ok z /\ vals z t r c (fun i j => op (f i j) (g i j)).
Proof.
  intros Ha Hb. pose proof (vals_has _ _ _ _ _ Ha) as (Wa&Ta&Ra&Ca). pose proof (vals_has _ _ _ _ _ Hb) as (Wb&Tb&Rb&Cb).
  destruct (m_zip_same op a b) as (z & E & Hz); try congruence. exists z. split; [exact E|].
  pose proof (is_mat_has _ _ _ Hz) as H. rewrite Ta in H. cbn [d_map2 tab d_nr d_nc] in H. rewrite to_dense_nr, to_dense_nc, Ra, Ca in H.
  eapply vals_from; [exact H|apply Hz|]. intros i j Hi Hj. vtac Ha. rewrite (vals_dent a t r c f), (vals_dent b t r c g) by assumption. reflexivity.
Qed.
Lemma vals_add a b t r c f g : vals a t r c f -> vals b t r c g ->
  exists z, m_add a b = Ok z /\ vals z t r c (fun i j => fadd (f i j) (g i j)).
Proof. apply vals_zip. Qed.
Lemma vals_sub a b t r c f g : vals a t r c f -> vals b t r c g ->
  exists z, m_sub a b = Ok z /\ vals z t r c (fun i j => fsub (f i j) (g i j)).
Proof. apply vals_zip. Qed.
Lemma vals_multiply a b t r c f g : vals a t r c f -> vals b t r c g ->
  exists z, m_multiply a b = Ok z /\ vals z t r c (fun i j => fmul (f i j) (g i j)).
Proof.
  intros Ha Hb. destruct (has_multiply a b t r c (vals_has _ _ _ _ _ Ha) (vals_has _ _ _ _ _ Hb)) as (z & E & H & D).
  exists z. split; [exact E|]. eapply vals_from; [exact H|exact D|]. intros i j Hi Hj.
  vtac Ha. rewrite (vals_dent a t r c f), (vals_dent b t r c g) by assumption. reflexivity.
Qed.
Lemma vals_mul a b t r k c f g : vals a t r k f -> vals b t k c g ->
  exists z, m_mul a b = Ok z /\ vals z t r c (fun i j => sumn k (fun l => fmul (f i l) (g l j))).
Proof.
  intros Ha Hb. destruct (has_mul a b t r k c (vals_has _ _ _ _ _ Ha) (vals_has _ _ _ _ _ Hb)) as (z & E & H & D).
  exists z. split; [exact E|]. eapply vals_from; [exact H|exact D|]. intros i j Hi Hj.
  unfold d_mul. rewrite dent_tab by (rewrite ?to_dense_nr, ?to_dense_nc, ?(vals_nr _ _ _ _ _ Ha), ?(vals_nc _ _ _ _ _ Hb); assumption).
  rewrite to_dense_nc, (vals_nc _ _ _ _ _ Ha). apply sumn_ext. intros l Hl.
  rewrite (vals_dent a t r k f), (vals_dent b t k c g) by assumption. reflexivity.
Qed.
Lemma vals_vstack a b t r1 r2 c f g : vals a t r1 c f -> vals b t r2 c g ->
  exists z, m_vstack a b = Ok z /\ vals z t (r1 + r2) c (fun i j => if Nat.ltb i r1 then f i j else g (i - r1) j).
Proof.
  intros Ha Hb. destruct (has_vstack a b t r1 r2 c (vals_has _ _ _ _ _ Ha) (vals_has _ _ _ _ _ Hb)) as (z & E & H & D).
  exists z. split; [exact E|]. eapply vals_from; [exact H|exact D|]. intros i j Hi Hj.
  unfold d_vstack. rewrite dent_tab by (rewrite ?to_dense_nr, ?to_dense_nc, ?(vals_nr _ _ _ _ _ Ha), ?(vals_nc _ _ _ _ _ Ha), ?(vals_nr _ _ _ _ _ Hb); assumption).
  rewrite to_dense_nr, (vals_nr _ _ _ _ _ Ha). destruct (Nat.ltb_spec i r1).
  - apply (vals_dent a t r1 c f); assumption.
  - apply (vals_dent b t r2 c g); [assumption|lia|assumption].
Qed.
Lemma vals_hstack a b t r c1 c2 f g : vals a t r c1 f -> vals b t r c2 g ->
  exists z, m_hstack a b = Ok z /\ vals z t r (c1 + c2) (fun i j => if Nat.ltb j c1 then f i j else g i (j - c1)).
Proof.
  intros Ha Hb. destruct (has_hstack a b t r c1 c2 (vals_has _ _ _ _ _ Ha) (vals_has _ _ _ _ _ Hb)) as (z & E & H & D).
  exists z. split; [exact E|]. eapply vals_from; [exact H|exact D|]. intros i j Hi Hj.
  unfold d_hstack. rewrite dent_tab by (rewrite ?to_dense_nr, ?to_dense_nc, ?(vals_nr _ _ _ _ _ Ha), ?(vals_nc _ _ _ _ _ Ha), ?(vals_nc _ _ _ _ _ Hb); assumption).
  rewrite to_dense_nc, (vals_nc _ _ _ _ _ Ha). destruct (Nat.ltb_spec j c1).
  - apply (vals_dent a t r c1 f); assumption.
  - apply (vals_dent b t r c2 g); [assumption|assumption|lia].
Qed.
Lemma vals_is z a t t' r c f d op : vals a t r c f -> is_mat z t' d -> d_nr d = r -> d_nc d = c ->
  (forall i j, i < r -> j < c -> dent d i j = op i j (dent (to_dense a) i j)) -> vals z t' r c (fun i j => op i j (f i j)).
Proof.
  intros Ha Hz Hr Hc K. apply is_mat_vals in Hz. rewrite Hr, Hc in Hz. eapply vals_ext; [exact Hz|]. intros i j Hi Hj. cbn beta.
  rewrite K by assumption. rewrite (vals_dent a t r c f) by assumption. reflexivity.
Qed.
Lemma vals_scal x a t r c f : vals a t r c f -> vals (m_scal x a) t r c (fun i j => fmul (f i j) x).
Proof.
  intros Ha. pose proof (vals_has _ _ _ _ _ Ha) as (W&T&R&C). pose proof (m_scal_is x a W) as Hz. rewrite T in Hz.
  eapply (vals_is _ a t t r c f _ (fun _ _ y => fmul y x)); [exact Ha|exact Hz|cbn [d_scal d_map tab d_nr d_nc]; rewrite ?to_dense_nr, ?to_dense_nc; auto|cbn [d_scal d_map tab d_nr d_nc]; rewrite ?to_dense_nr, ?to_dense_nc; auto|].
  intros. vtac Ha. reflexivity.
Qed.
Lemma vals_neg a t r c f : vals a t r c f -> vals (m_neg a) t r c (fun i j => fopp (f i j)).
Proof.
  intros Ha. pose proof (vals_has _ _ _ _ _ Ha) as (W&T&R&C). pose proof (m_neg_is a W) as Hz. rewrite T in Hz.
  eapply (vals_is _ a t t r c f _ (fun _ _ y => fopp y)); [exact Ha|exact Hz|cbn [d_map tab d_nr d_nc]; rewrite ?to_dense_nr, ?to_dense_nc; auto|cbn [d_map tab d_nr d_nc]; rewrite ?to_dense_nr, ?to_dense_nc; auto|].
  intros. vtac Ha. reflexivity.
Qed.
Lemma vals_get_non_negative a t r c f : vals a t r c f -> vals (m_get_non_negative a) t r c (fun i j => pos_part (f i j)).
Proof.
  intros Ha. pose proof (vals_has _ _ _ _ _ Ha) as (W&T&R&C). pose proof (m_get_non_negative_is a W) as Hz. rewrite T in Hz.
  eapply (vals_is _ a t t r c f _ (fun _ _ y => pos_part y)); [exact Ha|exact Hz|cbn [d_map tab d_nr d_nc]; rewrite ?to_dense_nr, ?to_dense_nc; auto|cbn [d_map tab d_nr d_nc]; rewrite ?to_dense_nr, ?to_dense_nc; auto|].
  intros. vtac Ha. reflexivity.
Qed.
Lemma vals_transpose a t r c f : vals a t r c f -> vals (m_transpose a) t c r (fun i j => f j i).
Proof.
  intros Ha. pose proof (vals_has _ _ _ _ _ Ha) as (W&T&R&C). 
  pose proof (is_mat_vals' _ _ _ c r (m_transpose_is a W) (eq_trans (to_dense_nc a) C) (eq_trans (to_dense_nr a) R)) as Hz. rewrite T in Hz.
  eapply vals_ext; [exact Hz|]. intros i j Hi Hj. cbn beta. unfold d_transpose.
  rewrite dent_tab by (rewrite ?to_dense_nr, ?to_dense_nc; lia). exact (vals_dent a t r c f j i Ha Hj Hi).
Qed.
Lemma vals_scale_rows a t r c f v : vals a t r c f -> length v = r ->
  exists z, m_scale_rows a v = Ok z /\ vals z t r c (fun i j => fmul (f i j) (nth i v f0)).
Proof.
  intros Ha Hl. pose proof (vals_has _ _ _ _ _ Ha) as (W&T&R&C). destruct (m_scale_rows_total a v) as (z & E); [congruence|]. exists z. split; [exact E|].
  apply m_scale_rows_ok in E; [|exact W]. destruct E as (_&Hz). rewrite T in Hz.
  eapply (vals_is _ a t t r c f _ (fun i _ y => fmul y (nth i v f0))); [exact Ha|exact Hz|cbn [d_scale_rows tab d_nr d_nc]; rewrite ?to_dense_nr, ?to_dense_nc; auto|cbn [d_scale_rows tab d_nr d_nc]; rewrite ?to_dense_nr, ?to_dense_nc; auto|].
  intros. vtac Ha. reflexivity.
Qed.
Lemma vals_scale_cols a t r c f v : vals a t r c f -> length v = c ->
  exists z, m_scale_cols a v = Ok z /\ vals z t r c (fun i j => fmul (f i j) (nth j v f0)).
Proof.
  intros Ha Hl. pose proof (vals_has _ _ _ _ _ Ha) as (W&T&R&C). destruct (m_scale_cols_total a v) as (z & E); [congruence|]. exists z. split; [exact E|].
  apply m_scale_cols_ok in E; [|exact W]. destruct E as (_&Hz). rewrite T in Hz.
  eapply (vals_is _ a t t r c f _ (fun _ j y => fmul y (nth j v f0))); [exact Ha|exact Hz|cbn [d_scale_cols tab d_nr d_nc]; rewrite ?to_dense_nr, ?to_dense_nc; auto|cbn [d_scale_cols tab d_nr d_nc]; rewrite ?to_dense_nr, ?to_dense_nc; auto|].
  intros. vtac Ha. reflexivity.
Qed.
Lemma vals_get_cols a t r c f ids : vals a t r c f -> Forall (fun j => j < c) ids -> 0 < length ids ->
  exists z, m_get_cols a ids = Ok z /\ vals z t r (length ids) (fun i j => f i (nth j ids 0)).
Proof.
  intros Ha Hf Hl. pose proof (vals_has _ _ _ _ _ Ha) as (W&T&R&C).
  destruct (m_get_cols_total a ids) as (z & E); [rewrite C; exact Hf|exact Hl|]. exists z. split; [exact E|].
  apply m_get_cols_ok in E; [|exact W]. destruct E as (_&_&Hz). rewrite T in Hz.
  apply (fun K1 K2 K => is_mat_vals' _ _ _ r (length ids) K K1 K2) in Hz; [|exact (eq_trans (to_dense_nr a) R)|exact eq_refl]. eapply vals_ext; [exact Hz|]. intros i j Hi Hj. cbn beta. unfold d_cols.
  rewrite dent_tab by (rewrite ?to_dense_nr; lia). apply (vals_dent a t r c f); [exact Ha|exact Hi|]. rewrite Forall_forall in Hf. apply Hf, nth_In, Hj.
Qed.
Lemma vals_get_row a t r c f i : vals a t r c f -> i < r ->
  exists z, m_get_row a (Z.of_nat i) = Ok z /\ vals z t 1 c (fun _ j => f i j).
Proof.
  intros Ha Hi. pose proof (vals_has _ _ _ _ _ Ha) as (W&T&R&C). destruct (m_get_row_is a i W) as (z & E & Hz); [lia|].
  exists z. split; [exact E|]. rewrite T in Hz. apply (fun K1 K2 K => is_mat_vals' _ _ _ 1 c K K1 K2) in Hz; [|exact eq_refl|exact (eq_trans (to_dense_nc a) C)].
  eapply vals_ext; [exact Hz|]. intros i' j Hi' Hj. cbn beta. unfold d_rows. rewrite dent_tab by (cbn [length]; rewrite ?to_dense_nc; lia).
  replace i' with O by lia. cbn [nth]. apply (vals_dent a t r c f); assumption.
Qed.
Lemma vals_get_rows a t r c f ks : vals a t r c f -> Forall (fun i => i < r) ks -> 0 < length ks ->
  exists z, m_get_rows a (map Z.of_nat ks) = Ok z /\ vals z t (length ks) c (fun i j => f (nth i ks 0) j).
Proof.
  intros Ha Hf Hl. pose proof (vals_has _ _ _ _ _ Ha) as (W&T&R&C). unfold m_get_rows.
  assert (E : py_indices (m_nr a) (map Z.of_nat ks) = Ok ks).
  { clear Hl. unfold py_indices. rewrite R. induction ks as [|k ks IH]; [reflexivity|]. inversion Hf; subst. cbn [map mapM].
    rewrite py_index_nat by assumption. cbn [bind]. rewrite IH by assumption. reflexivity. }
  rewrite E. cbn [bind]. destruct (Nat.eqb_spec (length ks) 0); [lia|]. cbn [negb check bind]. eexists. split; [reflexivity|].
  rewrite T. pose proof (of_dense_is t (d_rows (to_dense a) ks)) as Hz. specialize (Hz (wf_d_rows _ _ (to_dense_wf _ W) Hl)).
  apply (fun K1 K2 K => is_mat_vals' _ _ _ (length ks) c K K1 K2) in Hz; [|exact eq_refl|exact (eq_trans (to_dense_nc a) C)]. eapply vals_ext; [exact Hz|].
  intros i j Hi Hj. cbn beta. unfold d_rows. rewrite dent_tab by (rewrite ?to_dense_nc; lia). apply (vals_dent a t r c f); [exact Ha| |exact Hj].
  rewrite Forall_forall in Hf. apply Hf, nth_In, Hi.
Qed.
Lemma vals_identity t n : 0 < n -> vals (m_identity t n) t n n (fun i j => if Nat.eqb i j then f1 else f0).
Proof. intros H. apply vals_of_dense; assumption. Qed.
Lemma vals_const t r c x : 0 < r -> 0 < c -> vals (of_dense t (d_const r c x)) t r c (fun _ _ => x).
Proof. intros. apply vals_of_dense; assumption. Qed.
(** row / column sums and total as sums of entries *)
Lemma vals_sum1 a t r c f i : vals a t r c f -> i < r -> nth i (m_sum1 a) f0 = sumn c (f i).
Proof.
  intros Ha Hi. unfold m_sum1, d_sum1. rewrite to_dense_nr, (vals_nr _ _ _ _ _ Ha), nth_map_seq by assumption. rewrite to_dense_nc, (vals_nc _ _ _ _ _ Ha).
  apply sumn_ext. intros. apply (vals_dent a t r c f); assumption.
Qed.
Lemma vals_sum0 a t r c f j : vals a t r c f -> j < c -> nth j (m_sum0 a) f0 = sumn r (fun i => f i j).
Proof.
  intros Ha Hi. unfold m_sum0, d_sum0. rewrite to_dense_nc, (vals_nc _ _ _ _ _ Ha), nth_map_seq by assumption. rewrite to_dense_nr, (vals_nr _ _ _ _ _ Ha).
  apply sumn_ext. intros. apply (vals_dent a t r c f); assumption.
Qed.
Lemma vals_sum a t r c f : vals a t r c f -> m_sum a = sumn r (fun i => sumn c (f i)).
Proof.
  intros Ha. unfold m_sum, d_total. rewrite to_dense_nr, to_dense_nc, (vals_nr _ _ _ _ _ Ha), (vals_nc _ _ _ _ _ Ha).
  apply sumn_ext. intros. apply sumn_ext. intros. apply (vals_dent a t r c f); assumption.
Qed.
End PVals.
