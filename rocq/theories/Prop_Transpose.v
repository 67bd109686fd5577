(** Prop_Transpose.v -- C96: the weightings treat words and contexts alike: weighting the transposed matrix gives the transposed weighted matrix. *)
From Coq Require Import Reals Lra.
From Verif Require Import Base PyList Dict Num SpecReal Dense Sparse Matrix PSparse PMatrix PMatOps PShape PVals PReal PPos Scaling Prop_Scaling.
#[local] Existing Instance RNum.
Open Scope R_scope.
Open Scope nat_scope.

(** ** specification *)
(** z' is z with rows and columns exchanged, in the same kind of storage *)
Record flipped (z z' : matrix) : Prop := {
  fl_type : type_of z' = type_of z;
  fl_rows : m_nr z' = m_nc z;
  fl_cols : m_nc z' = m_nr z;
  fl_ent : forall i j, i < m_nr z -> j < m_nc z -> ment z' j i = ment z i j }.
(** the weightings that do not single out the rows *)
Definition even_handed (s : scaling) : Prop := match s with RowNorm _ => False | _ => True end.

(** ** proof *)
Lemma flip_self m : mwf m -> mwf (m_transpose m) /\ flipped m (m_transpose m).
Proof.
  intros W. pose proof (vals_transpose _ _ _ _ _ (vals_self m W)) as V. split; [exact (vals_wf _ _ _ _ _ V)|].
  constructor; [exact (vals_type _ _ _ _ _ V)|exact (vals_nr _ _ _ _ _ V)|exact (vals_nc _ _ _ _ _ V)|].
  intros i j Hi Hj. exact (vals_ent _ _ _ _ _ j i V Hj Hi).
Qed.
Section Flip.
Context (m m' : matrix) (FL : flipped m m').
Lemma flip_row_sum j : j < m_nc m -> row_sum m' j = col_sum m j.
Proof. intros Hj. unfold row_sum, col_sum. rewrite (fl_cols _ _ FL). apply rsum_ext. intros i Hi. apply (fl_ent _ _ FL); assumption. Qed.
Lemma flip_col_sum i : i < m_nr m -> col_sum m' i = row_sum m i.
Proof. intros Hi. unfold row_sum, col_sum. rewrite (fl_rows _ _ FL). apply rsum_ext. intros j Hj. apply (fl_ent _ _ FL); assumption. Qed.
Lemma flip_total : total m' = total m.
Proof.
  unfold total. rewrite (fl_rows _ _ FL), (fl_cols _ _ FL), (rsum_swap (m_nr m) (m_nc m)). apply rsum_ext. intros j Hj. apply rsum_ext. intros i Hi. apply (fl_ent _ _ FL); assumption.
Qed.
Lemma flip_frobenius : frobenius m' = frobenius m.
Proof.
  unfold frobenius. f_equal. rewrite (fl_rows _ _ FL), (fl_cols _ _ FL), (rsum_swap (m_nr m) (m_nc m)). apply rsum_ext. intros j Hj. apply rsum_ext. intros i Hi.
  rewrite (fl_ent _ _ FL) by assumption. reflexivity.
Qed.
Lemma flip_size c : size c m' = size c m.
Proof. destruct c; [apply flip_total|apply flip_frobenius]. Qed.
Lemma flip_non_negative : non_negative m <-> non_negative m'.
Proof.
  split; intros H i j Hi Hj.
  - rewrite (fl_rows _ _ FL) in Hi. rewrite (fl_cols _ _ FL) in Hj. rewrite (fl_ent _ _ FL) by assumption. apply H; assumption.
  - rewrite <- (fl_ent _ _ FL) by assumption. apply H; [rewrite (fl_rows _ _ FL)|rewrite (fl_cols _ _ FL)]; assumption.
Qed.
Lemma flip_epmi i j : i < m_nr m -> j < m_nc m -> epmi_entry m' j i = epmi_entry m i j.
Proof.
  intros Hi Hj. unfold epmi_entry. rewrite flip_row_sum, flip_col_sum, flip_total, (fl_ent _ _ FL) by assumption.
  destruct (Req_EM_T (row_sum m i) 0), (Req_EM_T (col_sum m j) 0); try reflexivity. f_equal. apply Rmult_comm.
Qed.
Lemma flip_result z z' f f' : result_of m z f -> result_of m' z' f' -> (forall i j, i < m_nr m -> j < m_nc m -> f' j i = f i j) -> flipped z z'.
Proof.
  intros (_ & T & Rr & C & V) (_ & T' & R' & C' & V') H. constructor.
  - rewrite T, T'. apply (fl_type _ _ FL).
  - rewrite R', C. apply (fl_rows _ _ FL).
  - rewrite C', Rr. apply (fl_cols _ _ FL).
  - intros i j Hi Hj. rewrite Rr in Hi. rewrite C in Hj. rewrite V by assumption. rewrite V' by (rewrite ?(fl_rows _ _ FL), ?(fl_cols _ _ FL); assumption). apply H; assumption.
Qed.
End Flip.

Lemma flip_norm c m m' : mwf m -> mwf m' -> flipped m m' ->
  match scaling_apply (Norm c) m None with Ok z => exists z', scaling_apply (Norm c) m' None = Ok z' /\ flipped z z' | Err e => scaling_apply (Norm c) m' None = Err e end.
Proof.
  intros W W' FL. destruct (C19_normalization c m W) as (z & E & A & B). destruct (C19_normalization c m' W') as (z' & E' & A' & B'). rewrite E. exists z'. split; [exact E'|].
  rewrite (flip_size m m' FL) in A', B'. destruct (Req_EM_T (size c m) 0) as [Z|Z].
  - rewrite (B Z), (B' Z). exact FL.
  - destruct (A Z) as (V & _), (A' Z) as (V' & _). apply (flip_result m m' FL z z' _ _ V V'). intros. cbv beta. rewrite (fl_ent _ _ FL) by assumption. reflexivity.
Qed.
Lemma non_negative_dec m : non_negative m \/ exists i j, i < m_nr m /\ j < m_nc m /\ (ment m i j < 0)%R.
Proof.
  destruct (Classical_Prop.classic (exists i j, i < m_nr m /\ j < m_nc m /\ (ment m i j < 0)%R)) as [H|H]; [right; exact H|left].
  intros i j Hi Hj. apply Rnot_lt_le. intros K. apply H. eauto.
Qed.

(** ** C96 *)
Theorem C96_transposed : forall s m, mwf m -> even_handed s ->
  match scaling_apply s m None with
  | Ok z => exists z', scaling_apply s (m_transpose m) None = Ok z' /\ flipped z z'
  | Err e => scaling_apply s (m_transpose m) None = Err e
  end.
Proof.
  intros s m W Hs. destruct (flip_self m W) as (W' & FL). set (m' := m_transpose m) in *. clearbody m'.
  destruct (non_negative_dec m) as [P|P].
  - pose proof (proj1 (flip_non_negative m m' FL) P) as P'. destruct s as [| | | |c|c]; [| | | |contradiction|].
    + destruct (C15_epmi m W P) as (z & E & V). destruct (C15_epmi m' W' P') as (z' & E' & V'). rewrite E. exists z'. split; [exact E'|].
      apply (flip_result m m' FL z z' _ _ V V'). intros. apply flip_epmi; assumption.
    + destruct (C16_ppmi m W P) as (z & E & V & _). destruct (C16_ppmi m' W' P') as (z' & E' & V' & _). rewrite E. exists z'. split; [exact E'|].
      apply (flip_result m m' FL z z' _ _ V V'). intros. unfold ppmi_entry. rewrite (flip_epmi m m' FL) by assumption. reflexivity.
    + destruct (C16_plmi m W P) as (z & E & V & _). destruct (C16_plmi m' W' P') as (z' & E' & V' & _). rewrite E. exists z'. split; [exact E'|].
      apply (flip_result m m' FL z z' _ _ V V'). intros. cbv beta. unfold ppmi_entry. rewrite (flip_epmi m m' FL), (fl_ent _ _ FL) by assumption. reflexivity.
    + destruct (C17_plog m W) as (z & E & V & _). destruct (C17_plog m' W') as (z' & E' & V' & _). rewrite E. exists z'. split; [exact E'|].
      apply (flip_result m m' FL z z' _ _ V V'). intros. cbv beta. rewrite (fl_ent _ _ FL) by assumption. reflexivity.
    + apply flip_norm; assumption.
  - destruct s as [| | | |c|c]; [| | | |contradiction|].
    1, 2, 3: rewrite (C15_negative_rejected m _ W) by (first [cbn; tauto | exact P]);
      apply C15_negative_rejected; [exact W'|cbn; tauto|]; destruct P as (i & j & Hi & Hj & K); exists j, i;
      rewrite (fl_rows _ _ FL), (fl_cols _ _ FL), (fl_ent _ _ FL) by assumption; auto.
    + destruct (C17_plog m W) as (z & E & V & _). destruct (C17_plog m' W') as (z' & E' & V' & _). rewrite E. exists z'. split; [exact E'|].
      apply (flip_result m m' FL z z' _ _ V V'). intros. cbv beta. rewrite (fl_ent _ _ FL) by assumption. reflexivity.
    + apply flip_norm; assumption.
Qed.
(** transposing twice gives the matrix back *)
Theorem C96_involution : forall m, mwf m -> flipped (m_transpose m) m /\ flipped (m_transpose m) (m_transpose (m_transpose m)).
Proof.
  intros m W. destruct (flip_self m W) as (W' & FL). destruct (flip_self _ W') as (_ & FL'). split; [|exact FL'].
  constructor; [symmetry; apply FL|symmetry; apply FL|symmetry; apply FL|]. intros i j Hi Hj. symmetry. apply (fl_ent _ _ FL); [rewrite <- (fl_cols _ _ FL)|rewrite <- (fl_rows _ _ FL)]; assumption.
Qed.
(** a concrete case, and row normalisation is not among these *)
Example C96_example : mwf cm /\ even_handed Ppmi /\ ~ even_handed (RowNorm CSum) /\ exists z, scaling_apply Ppmi cm None = Ok z.
Proof.
  split; [apply cm_wf|]. split; [exact I|]. split; [intros []|]. destruct (C16_ppmi cm cm_wf) as (z & E & _); [|exists z; exact E].
  intros i j Hi Hj. destruct i as [|[|[|i]]], j as [|[|[|j]]]; cbn in Hi, Hj; try lia; cbn; lra.
Qed.
