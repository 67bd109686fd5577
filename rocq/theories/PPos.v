(** PPos.v -- entries vs raw data arrays: positivity test, plog, thresholding over the reals. *)
From Coq Require Import Reals Lra.
From Verif Require Import Base PyList Num SpecReal Dense Sparse Matrix PSparse PMatrix PMatOps PShape PVals PReal.
#[local] Existing Instance RNum.
Open Scope R_scope.

Section Gen.
Context {N : Num}.
Lemma In_data c x : swf c -> (In x (s_data c) <-> exists i j, (i < s_nr c)%nat /\ In (j, x) (srow c i)).
Proof.
  intros H. rewrite data_concat by assumption. rewrite in_concat. split.
  - intros (l & Hl & Hx). unfold srows in Hl. rewrite map_map in Hl. apply in_map_iff in Hl. destruct Hl as (i & <- & Hi). apply in_seq in Hi.
    apply in_map_iff in Hx. destruct Hx as ([j y] & <- & Hp). exists i, j. split; [lia|exact Hp].
  - intros (i & j & Hi & Hp). exists (map snd (srow c i)). split.
    + unfold srows. rewrite map_map. apply in_map_iff. exists i. split; [reflexivity|apply in_seq; lia].
    + apply in_map_iff. exists (j, x). auto.
Qed.
(** a property true of 0 holds of all stored values iff it holds of all entries *)
Lemma data_forall_ent (P : F -> Prop) c : swf c -> P f0 ->
  ((forall x, In x (s_data c) -> P x) <-> forall i j, (i < s_nr c)%nat -> (j < s_nc c)%nat -> P (sent c i j)).
Proof.
  intros H H0. split.
  - intros K i j Hi Hj. unfold sent, rval. destruct (rlookup (srow c i) j) as [x|] eqn:E; [|exact H0].
    apply K. apply In_data; [exact H|]. exists i, j. split; [exact Hi|]. apply rlookup_In in E; [exact E|apply H; exact Hi].
  - intros K x Hx. apply In_data in Hx; [|exact H]. destruct Hx as (i & j & Hi & Hp).
    assert (Hj : (j < s_nc c)%nat). { pose proof (srow_cols c i H Hi) as Hf. rewrite Forall_forall in Hf. exact (Hf _ Hp). }
    specialize (K i j Hi Hj). unfold sent, rval in K. apply rlookup_In in Hp; [|apply H; exact Hi]. rewrite Hp in K. exact K.
Qed.
Lemma In_d_list d x : dwfm d -> (In x (d_list d) <-> exists i j, (i < d_nr d)%nat /\ (j < d_nc d)%nat /\ x = dent d i j).
Proof.
  intros (_&_&Hl&Hf). unfold d_list. rewrite in_concat. rewrite Forall_forall in Hf. split.
  - intros (l & Hin & Hx). pose proof (Hf l Hin) as Hlen. apply (In_nth _ _ []) in Hin. destruct Hin as (i & Hi & <-).
    apply (In_nth _ _ f0) in Hx. destruct Hx as (j & Hj & <-). exists i, j. unfold dent. repeat split; try lia.
  - intros (i & j & Hi & Hj & ->). exists (nth i (d_dat d) []). split; [apply nth_In; lia|]. unfold dent. apply nth_In.
    rewrite Hf by (apply nth_In; lia). exact Hj.
Qed.
End Gen.

Lemma assert_positive_iff m : mwf m ->
  (m_assert_positive m = Ok tt <-> forall i j, (i < m_nr m)%nat -> (j < m_nc m)%nat -> 0 <= ment m i j) /\
  (m_assert_positive m = Ok tt \/ m_assert_positive m = Err ValueError).
Proof.
  intros H. split.
  - destruct m as [d|c]; cbn [m_assert_positive m_nr m_nc ment].
    + split.
      * intros K. apply check_ok in K. rewrite forallb_forall in K. intros i j Hi Hj. apply fleb_R. apply K.
        apply In_d_list; [exact H|]. exists i, j. auto.
      * intros K. rewrite (proj2 (forallb_forall _ _)); [reflexivity|]. intros x Hx. apply In_d_list in Hx; [|exact H].
        destruct Hx as (i & j & Hi & Hj & ->). apply fleb_R. apply K; assumption.
    + pose proof (data_forall_ent (fun x => 0 <= x) c H (Rle_refl 0)) as K. split.
      * intros E. apply check_ok in E. rewrite forallb_forall in E. apply K. intros x Hx. apply fleb_R. apply E, Hx.
      * intros E. rewrite (proj2 (forallb_forall _ _)); [reflexivity|]. intros x Hx. apply fleb_R. revert x Hx. apply K, E.
  - destruct m as [d|c]; cbn [m_assert_positive]; destruct (forallb _ _); auto.
Qed.

(** [np.log] on max(x,1) *)
Definition plogf (x : R) : R := if Rlt_dec x 1 then 0 else ln x.
Lemma plogf_max x : plogf x = Rmax 0 (if Rlt_dec 0 x then ln x else 0).
Proof.
  unfold plogf. destruct (Rlt_dec x 1) as [H|H].
  - destruct (Rlt_dec 0 x) as [H0|H0]; [|rewrite Rmax_left; lra]. assert (ln x < 0) by (rewrite <- ln_1; apply ln_increasing; lra).
    rewrite Rmax_left; lra.
  - destruct (Rlt_dec 0 x) as [H0|H0]; [|lra]. rewrite Rmax_right; [reflexivity|]. destruct (Req_dec x 1) as [->|]; [rewrite ln_1; lra|].
    rewrite <- ln_1. apply Rlt_le, ln_increasing; lra.
Qed.
Lemma plogf_nonneg x : 0 <= plogf x.
Proof. rewrite plogf_max. apply Rmax_l. Qed.
Lemma dplog1_R x : @dplog1 RNum x = plogf x.
Proof.
  unfold dplog1, plogf. cbn [fltb f1 fln RNum]. unfold Rltb. destruct (Rlt_dec x 1); [apply ln_1|reflexivity].
Qed.
Lemma splog1_R x : @splog1 RNum x = plogf x.
Proof.
  unfold splog1, plogf, fleb. cbn [fltb f1 fln RNum]. unfold Rltb. destruct (Rlt_dec 1 x); cbn [negb].
  - destruct (Rlt_dec x 1); [lra|reflexivity].
  - rewrite ln_1. destruct (Rlt_dec x 1); [reflexivity|]. replace x with 1 by lra. rewrite ln_1. reflexivity.
Qed.

Lemma vals_map_raw (g gs : R -> R) m t r c f : vals m t r c f -> gs 0 = 0 -> (forall x, gs x = g x) ->
  vals (match m with MD d => MD (d_map g d) | MS s => MS (s_elim (s_mapdata gs s)) end) t r c (fun i j => g (f i j)).
Proof.
  intros Hm H0 Hg. pose proof (vals_has _ _ _ _ _ Hm) as (W&T&R1&C1). destruct m as [d|s]; cbn in T, R1, C1; subst t r c.
  - eapply (vals_is _ _ _ _ _ _ f (d_map g d) (fun _ _ x => g x)); [exact Hm| |reflexivity|reflexivity|].
    + repeat split; apply wf_d_map, W.
    + intros. unfold d_map. rewrite dent_tab by assumption. reflexivity.
  - eapply vals_ext; [eapply (vals_is _ _ _ _ _ _ f (d_map gs (dense_of s)) (fun _ _ x => gs x)); [exact Hm|apply smap_is; [exact W|exact H0]|reflexivity|reflexivity|]|].
    + intros. unfold d_map. rewrite dent_tab by assumption. reflexivity.
    + intros. cbn beta. apply Hg.
Qed.
Lemma vals_plog m t r c f : vals m t r c f -> vals (m_plog m) t r c (fun i j => plogf (f i j)).
Proof.
  intros Hm. unfold m_plog. eapply vals_ext; [apply (vals_map_raw dplog1 splog1); [exact Hm| |]|].
  - rewrite splog1_R. unfold plogf. destruct (Rlt_dec 0 1); [reflexivity|lra].
  - intros. rewrite dplog1_R. apply splog1_R.
  - intros. cbn beta. apply dplog1_R.
Qed.
