(** Dict.v -- Python dictionaries with string keys as association lists.
    A Python dict never has two entries for a key: [dwf].  Iteration order is list order (Python 2.7's own
    order is unspecified; no theorem depends on it, the only iteration over a dict in the modelled code,
    space_utils.py:34, is a conjunction of checks). *)
From Verif Require Import Base PyList.

Definition dict (V : Type) := list (string * V).

Fixpoint dget {V} (d : dict V) (k : string) : option V :=
  match d with
  | [] => None
  | (k', v) :: t => if String.eqb k k' then Some v else dget t k
  end.

(** [d[k] = v] *)
Fixpoint dset {V} (d : dict V) (k : string) (v : V) : dict V :=
  match d with
  | [] => [(k, v)]
  | (k', v') :: t => if String.eqb k k' then (k', v) :: t else (k', v') :: dset t k v
  end.

(** [k in d] *)
Definition dmem {V} (d : dict V) (k : string) : bool := match dget d k with Some _ => true | None => false end.

Definition dkeys {V} (d : dict V) : list string := map fst d.
Definition dwf {V} (d : dict V) : Prop := NoDup (dkeys d).

(** [d[k]] with KeyError *)
Definition dlookup {V} (d : dict V) (k : string) : res V :=
  match dget d k with Some v => Ok v | None => Err KeyError end.

Lemma dget_In {V} (d : dict V) k v : dget d k = Some v -> In (k, v) d.
Proof.
  induction d as [|[k' v'] t IH]; cbn; [discriminate|].
  destruct (String.eqb_spec k k') as [->|Hn]; intros H; [inversion H; subst; auto|right; auto].
Qed.

Lemma dget_In_iff {V} (d : dict V) k v : dwf d -> (dget d k = Some v <-> In (k, v) d).
Proof.
  intros Hw. split; [apply dget_In|]. induction d as [|[k' v'] t IH]; cbn; [contradiction|].
  inversion Hw as [|? ? Hni Hw']; subst.
  intros [H|H].
  - inversion H; subst. rewrite String.eqb_refl. reflexivity.
  - destruct (String.eqb_spec k k') as [->|Hn].
    + exfalso. apply Hni. apply (in_map fst) in H. exact H.
    + apply IH; assumption.
Qed.

Lemma dget_None {V} (d : dict V) k : dget d k = None <-> ~ In k (dkeys d).
Proof.
  induction d as [|[k' v'] t IH]; cbn; [tauto|].
  destruct (String.eqb_spec k k') as [->|Hn].
  - split; [discriminate|]. intros H; exfalso; apply H; auto.
  - rewrite IH. split; intros H; [intros [?|?]; [congruence|auto] | auto].
Qed.

Lemma dmem_In {V} (d : dict V) k : dmem d k = true <-> In k (dkeys d).
Proof.
  unfold dmem. destruct (dget d k) as [v|] eqn:E.
  - split; [intros _|reflexivity]. apply dget_In in E. apply (in_map fst) in E. exact E.
  - apply dget_None in E. split; [discriminate|]. intros H; contradiction.
Qed.

Lemma dmem_false {V} (d : dict V) k : dmem d k = false <-> ~ In k (dkeys d).
Proof. rewrite <- dmem_In. destruct (dmem d k); split; congruence. Qed.

Lemma dset_new {V} (d : dict V) k v : dmem d k = false -> dset d k v = d ++ [(k, v)].
Proof.
  unfold dmem. induction d as [|[k' v'] t IH]; cbn; [reflexivity|].
  destruct (String.eqb k k'); [discriminate|]. intros H. rewrite IH by exact H. reflexivity.
Qed.

Lemma dget_dset {V} (d : dict V) k v k' :
  dget (dset d k v) k' = if String.eqb k' k then Some v else dget d k'.
Proof.
  induction d as [|[k0 v0] t IH]; cbn.
  - reflexivity.
  - destruct (String.eqb_spec k k0) as [->|Hn]; cbn.
    + destruct (String.eqb_spec k' k0); reflexivity.
    + rewrite IH. destruct (String.eqb_spec k' k0) as [->|]; [|reflexivity].
      destruct (String.eqb_spec k0 k); [congruence|reflexivity].
Qed.

Lemma dkeys_dset_new {V} (d : dict V) k v : dmem d k = false -> dkeys (dset d k v) = dkeys d ++ [k].
Proof. intros H. rewrite dset_new by exact H. unfold dkeys. rewrite map_app. reflexivity. Qed.

Lemma dkeys_dset_old {V} (d : dict V) k v : dmem d k = true -> dkeys (dset d k v) = dkeys d.
Proof.
  unfold dmem. induction d as [|[k0 v0] t IH]; cbn; [discriminate|].
  destruct (String.eqb k k0); cbn; [reflexivity|]. intros H. f_equal. apply IH, H.
Qed.

Lemma dwf_dset {V} (d : dict V) k v : dwf d -> dwf (dset d k v).
Proof.
  unfold dwf. intros H. destruct (dmem d k) eqn:E.
  - rewrite dkeys_dset_old; assumption.
  - rewrite dkeys_dset_new by assumption. apply dmem_false in E.
    clear -H E. induction (dkeys d) as [|x xs IH]; cbn; [repeat constructor; auto|].
    inversion H; subst. constructor.
    + rewrite in_app_iff. cbn. intros [?|[?|[]]]; [contradiction|]. subst. apply E; left; reflexivity.
    + apply IH; [assumption|]. intros K; apply E; right; assumption.
Qed.

Lemma dget_app {V} (a b : dict V) k : dget (a ++ b) k = match dget a k with Some v => Some v | None => dget b k end.
Proof. induction a as [|[k' v'] t IH]; cbn; [reflexivity|]. destruct (String.eqb k k'); auto. Qed.
