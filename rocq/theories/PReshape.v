(** PReshape.v -- raw coordinate arithmetic of SparseMatrix.reshape. *)
From Coq Require Import Reals Lra Permutation.
From Verif Require Import Base PyList Num SpecReal Dense Sparse Matrix PSparse PMatrix PMatOps PShape PVals PReal PPos.
#[local] Existing Instance RNum.

Lemma wrap_id bits x : (0 < bits)%Z -> (- 2 ^ (bits - 1) <= x < 2 ^ (bits - 1))%Z -> wrap bits x = x.
Proof.
  intros Hb H. unfold wrap. replace (2 ^ bits)%Z with (2 * 2 ^ (bits - 1))%Z.
  - rewrite Z.mod_small by lia. lia.
  - rewrite <- Z.pow_succ_r by lia. f_equal. lia.
Qed.
Lemma reshape_pos_exact nr nc nc' i j : (i < nr)%nat -> (j < nc)%nat -> (0 < nc')%nat -> (Z.of_nat nr * Z.of_nat nc < 2 ^ 63)%Z ->
  reshape_pos (Z.of_nat nr) (Z.of_nat nc) (Z.of_nat nc') (Z.of_nat i) (Z.of_nat j) =
  (Z.of_nat ((i * nc + j) / nc'), Z.of_nat ((i * nc + j) mod nc')).
Proof.
  intros Hi Hj Hc Hs. unfold reshape_pos.
  assert (L : (i * nc + j < nr * nc)%nat) by nia.
  assert (LZ : (Z.of_nat i * Z.of_nat nc + Z.of_nat j < Z.of_nat nr * Z.of_nat nc)%Z) by lia.
  assert (W : forall w, w = (if (2 ^ 31 - 1 <=? Z.of_nat nr * Z.of_nat nc)%Z then wrap 64 else wrap 32) ->
              forall x, (0 <= x < Z.of_nat nr * Z.of_nat nc)%Z -> w x = x).
  { intros w -> x Hx. destruct (Z.leb_spec (2 ^ 31 - 1) (Z.of_nat nr * Z.of_nat nc)); apply wrap_id; lia. }
  specialize (W _ eq_refl). set (w := if (_ <=? _)%Z then wrap 64 else wrap 32) in *.
  rewrite (W (Z.of_nat i * Z.of_nat nc)%Z) by lia. rewrite (W (Z.of_nat i * Z.of_nat nc + Z.of_nat j)%Z) by lia.
  replace (Z.of_nat i * Z.of_nat nc + Z.of_nat j)%Z with (Z.of_nat (i * nc + j)) by lia.
  rewrite <- Nat2Z.inj_div. set (p := (i * nc + j)%nat) in *.
  pose proof (Nat.div_mod p nc' ltac:(lia)) as D.
  rewrite (W (Z.of_nat (p / nc') * Z.of_nat nc')%Z) by nia.
  f_equal. replace (Z.of_nat p - Z.of_nat (p / nc') * Z.of_nat nc')%Z with (Z.of_nat (p mod nc')) by nia.
  apply W. nia.
Qed.

(** the raw coordinates are summed per cell *)
Lemma coo_val_map es (g : nat * nat -> nat * nat) i j i0 j0 :
  (forall e, In e es -> (g (fst e) = (i, j) <-> fst e = (i0, j0))) ->
  coo_val (map (fun e => (g (fst e), snd e)) es) i j = coo_val es i0 j0.
Proof.
  intros H. unfold coo_val. f_equal. induction es as [|[[a b] v] es IH]; [reflexivity|]. cbn [map filter].
  assert (IH' := IH ltac:(intros e He; apply H; right; exact He)). clear IH. specialize (H _ (or_introl eq_refl)). cbn [fst snd] in *.
  assert (E : (fst (g (a, b)) =? i)%nat && (snd (g (a, b)) =? j)%nat = ((a =? i0)%nat && (b =? j0)%nat)).
  { apply eq_true_iff_eq. rewrite !andb_true_iff, !Nat.eqb_eq. destruct (g (a, b)) as [x y]; cbn [fst snd]. destruct H as [H1 H2]. split.
    - intros (-> & ->). specialize (H1 eq_refl). injection H1; auto.
    - intros (-> & ->). specialize (H2 eq_refl). injection H2; auto. }
  rewrite E. clear E. destruct ((a =? i0)%nat && (b =? j0)%nat); cbn [map]; [f_equal|]; exact IH'.
Qed.
Lemma coo_val_entries (c : csr) i j : swf c -> (i < s_nr c)%nat -> coo_val (coo_of_csr c) i j = sent c i j.
Proof.
  intros Hc Hi. unfold coo_val, coo_of_csr. rewrite suml_fold_right.
  assert (K : forall n, fold_right Rplus 0%R (map snd (filter (fun e => (fst (fst e) =? i)%nat && (snd (fst e) =? j)%nat)
      (concat (map (fun i => map (fun p : nat * R => (i, fst p, snd p)) (srow c i)) (seq 0 n))))) = if (i <? n)%nat then fold_right Rplus 0%R (map snd (filter (fun p : nat * R => (fst p =? j)%nat) (srow c i))) else 0%R).
  { induction n as [|n IHn]; [reflexivity|]. rewrite seq_S, map_app, concat_app, filter_app, map_app, fold_right_app_plus, IHn. cbn [map concat plus]. rewrite app_nil_r.
    assert (E : fold_right Rplus 0%R (map snd (filter (fun e => (fst (fst e) =? i)%nat && (snd (fst e) =? j)%nat) (map (fun p : nat * R => (n, fst p, snd p)) (srow c n)))) =
               if (n =? i)%nat then fold_right Rplus 0%R (map snd (filter (fun p : nat * R => (fst p =? j)%nat) (srow c n))) else 0%R).
    { clear. induction (srow c n) as [|[k v] t IH]; cbn [map filter]; [destruct (n =? i)%nat; reflexivity|]. cbn [fst snd].
      destruct (n =? i)%nat; cbn [andb]; [|exact IH]. destruct (k =? j)%nat; cbn [map fold_right snd]; [f_equal|]; exact IH. }
    rewrite E. destruct (Nat.ltb_spec i n), (Nat.ltb_spec i (S n)), (Nat.eqb_spec n i); try lia; subst; try lra. }
  etransitivity; [apply K|]. destruct (Nat.ltb_spec i (s_nr c)); [|lia].
  assert (Hn : NoDup (map fst (srow c i))) by (apply Hc; assumption). unfold sent, rval. revert Hn. generalize (srow c i). clear.
  induction l as [|[k v] t IH]; cbn; intros Hn; [reflexivity|]. inversion Hn as [|? ? Hni Hn']; subst. rewrite Nat.eqb_sym. destruct (Nat.eqb_spec j k) as [->|Hne].
  - cbn. replace (filter (fun p : nat * R => (fst p =? k)%nat) t) with (@nil (nat * R)); [cbn; lra|]. symmetry.
    clear -Hni. induction t as [|[a b] t IH]; [reflexivity|]. cbn in *. destruct (Nat.eqb_spec a k); [subst; exfalso; apply Hni; auto|]. apply IH. intros K; apply Hni; auto.
  - apply IH, Hn'.
Qed.

(** reshape of a sparse matrix *)
Lemma s_reshape_value (c : csr) r' c' : swf c -> (Z.of_nat (s_nr c) * Z.of_nat (s_nc c) < 2 ^ 63)%Z -> (s_nr c * s_nc c = r' * c')%nat ->
  exists z, s_reshape c r' c' = Ok z /\ swf z /\ s_nr z = r' /\ s_nc z = c' /\
    forall i j, (i < r')%nat -> (j < c')%nat -> sent z i j = sent c ((i * c' + j) / s_nc c) ((i * c' + j) mod s_nc c).
Proof.
  intros Hc Hs He. pose proof Hc as (Hr0&Hc0&_). assert (Hr' : (0 < r')%nat) by nia. assert (Hc' : (0 < c')%nat) by nia.
  set (g := fun ij : nat * nat => ((fst ij * s_nc c + snd ij) / c', (fst ij * s_nc c + snd ij) mod c')%nat).
  assert (Hin : forall e, In e (coo_of_csr c) -> (fst (fst e) < s_nr c)%nat /\ (snd (fst e) < s_nc c)%nat).
  { intros [[i j] v] K. apply In_coo_of_csr in K; [|exact Hc]. destruct K as (K1 & K2). split; [exact K1|].
    pose proof (srow_cols c i Hc K1) as Hf. rewrite Forall_forall in Hf. exact (Hf _ K2). }
  unfold s_reshape. rewrite (proj2 (Z.eqb_eq _ _)) by lia. cbn [check bind].
  rewrite map_ext_in with (g := fun e => ((Z.of_nat (fst (g (fst e))), Z.of_nat (snd (g (fst e)))), snd e)).
  2:{ intros e K. destruct (Hin e K). rewrite reshape_pos_exact by assumption. reflexivity. }
  rewrite (proj2 (forallb_forall _ _)).
  2:{ intros x K. apply in_map_iff in K. destruct K as (e & <- & K). destruct (Hin e K) as (H1 & H2). cbn [fst snd].
      assert (L : (fst (fst e) * s_nc c + snd (fst e) < r' * c')%nat) by nia.
      unfold g. cbn [fst snd].
      assert ((fst (fst e) * s_nc c + snd (fst e)) / c' < r')%nat by (apply Nat.div_lt_upper_bound; nia).
      assert ((fst (fst e) * s_nc c + snd (fst e)) mod c' < c')%nat by (apply Nat.mod_upper_bound; lia).
      rewrite !andb_true_iff, !Z.leb_le, !Z.ltb_lt. lia. }
  cbn [check bind]. eexists. split; [reflexivity|]. rewrite map_map. split; [apply csr_of_coo_wf; assumption|]. split; [apply csr_of_coo_nr|]. split; [reflexivity|].
  intros i j Hi Hj. rewrite sent_csr_of_coo by assumption.
  rewrite map_ext with (g := fun e => (g (fst e), snd e)).
  2:{ intros e. cbn [fst snd]. rewrite !Nat2Z.id. destruct (g (fst e)); reflexivity. }
  set (p := (i * c' + j)%nat). assert (Hp : (p < s_nr c * s_nc c)%nat) by (unfold p; nia).
  assert (Hpn : (p / s_nc c < s_nr c)%nat) by (apply Nat.div_lt_upper_bound; lia).
  rewrite (coo_val_map _ g i j (p / s_nc c) (p mod s_nc c)).
  - apply coo_val_entries; assumption.
  - intros e K. destruct (Hin e K) as (H1 & H2). destruct e as [[a b] v]. cbn [fst snd] in *. unfold g. cbn [fst snd]. set (q := (a * s_nc c + b)%nat).
    assert (Q : (q / s_nc c = a /\ q mod s_nc c = b)%nat).
    { unfold q. split; [rewrite Nat.div_add_l by lia; rewrite Nat.div_small by lia; lia|]. rewrite Nat.add_comm, Nat.mod_add by lia. apply Nat.mod_small; lia. }
    assert (P : (p / c' = i /\ p mod c' = j)%nat).
    { unfold p. split; [rewrite Nat.div_add_l by lia; rewrite Nat.div_small by lia; lia|]. rewrite Nat.add_comm, Nat.mod_add by lia. apply Nat.mod_small; lia. }
    pose proof (Nat.div_mod p (s_nc c) ltac:(lia)) as D1. pose proof (Nat.div_mod q c' ltac:(lia)) as D2.
    split; intros E; injection E as E1 E2.
    + assert (EQ : q = p). { rewrite E1, E2 in D2. unfold p. nia. } rewrite <- EQ. destruct Q as (-> & ->). reflexivity.
    + assert (EQ : q = p). { unfold q. rewrite E1, E2. lia. } rewrite EQ. destruct P as (-> & ->). reflexivity.
Qed.
Lemma s_reshape_reject (c : csr) r' c' : (s_nr c * s_nc c <> r' * c')%nat -> s_reshape c r' c' = Err ValueError.
Proof. intros H. unfold s_reshape. rewrite (proj2 (Z.eqb_neq _ _)) by lia. reflexivity. Qed.
