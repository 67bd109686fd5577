(** Dense.v -- numpy-style dense matrices: explicit shape plus row-major list of rows.
    numpy primitives are modelled by their documented meaning through [tab]. *)
From Verif Require Import Base PyList Num.
Section Dense.
Context {N : Num}.
Local Open Scope num_scope.

Record dmat := DM { d_nr : nat; d_nc : nat; d_dat : list (list F) }.

(** entry (i,j); meaningful for i < d_nr, j < d_nc *)
Definition dent (m : dmat) (i j : nat) : F := nth j (nth i (d_dat m) []) 0.

Definition tab (r c : nat) (f : nat -> nat -> F) : dmat :=
  DM r c (map (fun i => map (f i) (seq 0 c)) (seq 0 r)).

Definition dwfm (m : dmat) : Prop :=
  0 < d_nr m /\ 0 < d_nc m /\ length (d_dat m) = d_nr m /\ Forall (fun r => length r = d_nc m) (d_dat m).

Definition d_map (f : F -> F) (m : dmat) : dmat := tab (d_nr m) (d_nc m) (fun i j => f (dent m i j)).
Definition d_map2 (f : F -> F -> F) (a b : dmat) : dmat :=
  tab (d_nr a) (d_nc a) (fun i j => f (dent a i j) (dent b i j)).
Definition d_scal (x : F) (m : dmat) : dmat := d_map (fun y => y * x) m.
Definition d_transpose (m : dmat) : dmat := tab (d_nc m) (d_nr m) (fun i j => dent m j i).
Definition d_mul (a b : dmat) : dmat :=
  tab (d_nr a) (d_nc b) (fun i j => sumn (d_nc a) (fun k => dent a i k * dent b k j)).
Definition d_vstack (a b : dmat) : dmat :=
  tab (d_nr a + d_nr b) (d_nc a)
      (fun i j => if Nat.ltb i (d_nr a) then dent a i j else dent b (i - d_nr a) j).
Definition d_hstack (a b : dmat) : dmat :=
  tab (d_nr a) (d_nc a + d_nc b)
      (fun i j => if Nat.ltb j (d_nc a) then dent a i j else dent b i (j - d_nc a)).
Definition d_scale_rows (m : dmat) (v : list F) : dmat :=
  tab (d_nr m) (d_nc m) (fun i j => dent m i j * nth i v 0).
Definition d_scale_cols (m : dmat) (v : list F) : dmat :=
  tab (d_nr m) (d_nc m) (fun i j => dent m i j * nth j v 0).
Definition d_rows (m : dmat) (ids : list nat) : dmat :=
  tab (length ids) (d_nc m) (fun i j => dent m (nth i ids O) j).
Definition d_cols (m : dmat) (ids : list nat) : dmat :=
  tab (d_nr m) (length ids) (fun i j => dent m i (nth j ids O)).
Definition d_sum1 (m : dmat) : list F := map (fun i => sumn (d_nc m) (dent m i)) (seq 0 (d_nr m)).
Definition d_sum0 (m : dmat) : list F :=
  map (fun j => sumn (d_nr m) (fun i => dent m i j)) (seq 0 (d_nc m)).
Definition d_total (m : dmat) : F := sumn (d_nr m) (fun i => sumn (d_nc m) (dent m i)).
Definition d_sqtotal (m : dmat) : F := sumn (d_nr m) (fun i => sumn (d_nc m) (fun j => fsq (dent m i j))).
(** row-major reshape *)
Definition d_reshape (m : dmat) (r c : nat) : dmat :=
  tab r c (fun i j => let p := (i * c + j)%nat in dent m (p / d_nc m) (p mod d_nc m)).
Definition d_eye (n : nat) : dmat := tab n n (fun i j => if Nat.eqb i j then 1 else 0).
Definition d_const (r c : nat) (x : F) : dmat := tab r c (fun _ _ => x).
Definition d_of_rows (c : nat) (rows : list (list F)) : dmat :=
  tab (length rows) c (fun i j => nth j (nth i rows []) 0).
Definition d_list (m : dmat) : list F := concat (d_dat m).

(** numpy broadcasting of two 2-d shapes; None: ValueError *)
Definition bcast_dim (a b : nat) : option nat :=
  if Nat.eqb a b then Some a else if Nat.eqb a 1 then Some b else if Nat.eqb b 1 then Some a else None.
Definition d_bcast (f : F -> F -> F) (a b : dmat) : res dmat :=
  match bcast_dim (d_nr a) (d_nr b), bcast_dim (d_nc a) (d_nc b) with
  | Some r, Some c =>
      Ok (tab r c (fun i j =>
            f (dent a (if Nat.eqb (d_nr a) 1 then O else i) (if Nat.eqb (d_nc a) 1 then O else j))
              (dent b (if Nat.eqb (d_nr b) 1 then O else i) (if Nat.eqb (d_nc b) 1 then O else j))))
  | _, _ => Err ValueError
  end.

(** ** characterisation *)
Lemma dent_tab r c f i j : i < r -> j < c -> dent (tab r c f) i j = f i j.
Proof. intros Hi Hj. unfold dent, tab. cbn. rewrite nth_map_seq by assumption. apply nth_map_seq; assumption. Qed.

Lemma tab_wf r c f : 0 < r -> 0 < c -> dwfm (tab r c f).
Proof.
  intros. unfold dwfm, tab; cbn. rewrite map_length, seq_length. repeat split; try assumption.
  apply Forall_forall. intros x Hx. apply in_map_iff in Hx. destruct Hx as (i & <- & _).
  rewrite map_length, seq_length. reflexivity.
Qed.

Lemma tab_ext r c f g : (forall i j, i < r -> j < c -> f i j = g i j) -> tab r c f = tab r c g.
Proof.
  intros H. unfold tab. f_equal. apply map_ext_in. intros i Hi. apply in_seq in Hi.
  apply map_ext_in. intros j Hj. apply in_seq in Hj. apply H; lia.
Qed.

Lemma list_eq_nth {A} (l1 l2 : list A) d :
  length l1 = length l2 -> (forall i, i < length l1 -> nth i l1 d = nth i l2 d) -> l1 = l2.
Proof.
  revert l2; induction l1 as [|x xs IH]; intros [|y ys] Hl H; cbn in *; try discriminate; [reflexivity|].
  f_equal; [apply (H O); lia|]. apply IH; [lia|]. intros i Hi. apply (H (S i)); lia.
Qed.

Lemma d_ext a b :
  length (d_dat a) = d_nr a -> Forall (fun r => length r = d_nc a) (d_dat a) ->
  length (d_dat b) = d_nr b -> Forall (fun r => length r = d_nc b) (d_dat b) ->
  d_nr a = d_nr b -> d_nc a = d_nc b ->
  (forall i j, i < d_nr a -> j < d_nc a -> dent a i j = dent b i j) -> a = b.
Proof.
  destruct a as [r c da], b as [r' c' db]; cbn. intros La Fa Lb Fb -> -> H. f_equal.
  apply list_eq_nth with (d := []); [congruence|]. intros i Hi.
  rewrite Forall_forall in Fa, Fb.
  assert (Ha : length (nth i da []) = c') by (apply Fa, nth_In; lia).
  assert (Hb : length (nth i db []) = c') by (apply Fb, nth_In; lia).
  apply list_eq_nth with (d := 0); [congruence|]. intros j Hj. apply (H i j); lia.
Qed.

Lemma dwfm_ext a b : dwfm a -> dwfm b -> d_nr a = d_nr b -> d_nc a = d_nc b ->
  (forall i j, i < d_nr a -> j < d_nc a -> dent a i j = dent b i j) -> a = b.
Proof. intros (_&_&?&?) (_&_&?&?) ? ? ?. apply d_ext; assumption. Qed.

Lemma tab_dent m : dwfm m -> tab (d_nr m) (d_nc m) (dent m) = m.
Proof.
  intros H. pose proof H as (H1&H2&_&_). apply dwfm_ext; try assumption; try reflexivity.
  - apply tab_wf; assumption.
  - cbn. intros. apply dent_tab; assumption.
Qed.

Lemma tab_inj r c f g : tab r c f = tab r c g -> forall i j, i < r -> j < c -> f i j = g i j.
Proof. intros H i j Hi Hj. rewrite <- (dent_tab r c f), <- (dent_tab r c g), H; auto. Qed.
End Dense.
