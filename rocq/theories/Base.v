(** Base.v -- Python exceptions as values.
    The code under /repo is Python 2.7; a call either returns a value or raises.  We keep the exception class
    (not the message), because callers in /repo discriminate on classes (e.g. space.py:209-221,
    regression code in linalg.py:270-276). *)
From Coq Require Export String.
From Coq Require Export Arith ZArith Lia Bool List.
Export ListNotations.

(** Exception classes raised by the modelled code; IllegalStateError / IllegalOperationError /
    InvalidArgumentError are the project's own (src/composes/exception/). *)
Inductive exn :=
| ValueError | TypeError | KeyError | IndexError | ZeroDivisionError | AttributeError
| UnboundLocalError | NotImplementedError | IllegalStateError | IllegalOperationError
| InvalidArgumentError | OSError | IOError | LinAlgError | StopIteration | SystemExit | AssertionError.

Definition exn_eq_dec (a b : exn) : {a = b} + {a <> b}.
Proof. decide equality. Defined.
Definition exn_eqb (a b : exn) : bool := if exn_eq_dec a b then true else false.

Inductive res (A : Type) : Type :=
| Ok (a : A)
| Err (e : exn).
Arguments Ok {A} a.
Arguments Err {A} e.

Definition bind {A B} (m : res A) (k : A -> res B) : res B :=
  match m with Ok a => k a | Err e => Err e end.

Declare Scope res_scope.
Notation "'let*' x ':=' e 'in' k" := (bind e (fun x => k))
  (at level 200, x pattern, e at level 100, k at level 200, right associativity) : res_scope.
Open Scope res_scope.

(** `if not cond: raise e` *)
Definition check (b : bool) (e : exn) : res unit := if b then Ok tt else Err e.

Definition rmap {A B} (f : A -> B) (m : res A) : res B := bind m (fun a => Ok (f a)).

(** Python loop that collects results and propagates the first exception. *)
Fixpoint mapM {A B} (f : A -> res B) (l : list A) : res (list B) :=
  match l with
  | [] => Ok []
  | x :: xs => let* y := f x in let* ys := mapM f xs in Ok (y :: ys)
  end.

Fixpoint foldM {A S} (f : S -> A -> res S) (l : list A) (s : S) : res S :=
  match l with
  | [] => Ok s
  | x :: xs => let* s' := f s x in foldM f xs s'
  end.

Definition is_ok {A} (m : res A) : bool := match m with Ok _ => true | Err _ => false end.

Lemma bind_ok {A B} (m : res A) (k : A -> res B) b :
  bind m k = Ok b -> exists a, m = Ok a /\ k a = Ok b.
Proof. destruct m as [a|e]; cbn; intros H; [exists a; auto | discriminate]. Qed.

Lemma check_ok b e u : check b e = Ok u -> b = true.
Proof. destruct b; cbn; [auto | discriminate]. Qed.

Lemma check_err b e e' : check b e = Err e' -> b = false /\ e' = e.
Proof. destruct b; cbn; intros H; inversion H; auto. Qed.

(** Inversion of successful computations. *)
Ltac inv_ok :=
  repeat match goal with
  | H : bind ?m _ = Ok _ |- _ =>
      let a := fresh "a" in let H1 := fresh "Hm" in
      apply bind_ok in H; destruct H as (a & H1 & H); cbn beta iota in H
  | H : check _ _ = Ok _ |- _ => apply check_ok in H
  | H : Ok _ = Ok _ |- _ => inversion H; clear H; subst
  | H : Err _ = Ok _ |- _ => discriminate H
  end.

Lemma mapM_ok_length {A B} (f : A -> res B) l r : mapM f l = Ok r -> length r = length l.
Proof.
  revert r; induction l as [|x xs IH]; cbn; intros r H; inv_ok; [reflexivity|].
  cbn. f_equal. eauto.
Qed.

Lemma mapM_ok_nth {A B} (f : A -> res B) l r da db :
  mapM f l = Ok r -> forall i, i < length l -> f (nth i l da) = Ok (nth i r db).
Proof.
  revert r; induction l as [|x xs IH]; cbn; intros r H i Hi; [lia|].
  inv_ok. destruct i; [assumption|]. cbn. apply IH; [assumption|lia].
Qed.

Lemma mapM_ok_In {A B} (f : A -> res B) l r :
  mapM f l = Ok r -> forall x, In x l -> exists y, In y r /\ f x = Ok y.
Proof.
  revert r; induction l as [|x xs IH]; cbn; intros r H z Hz; [contradiction|].
  inv_ok. destruct Hz as [<-|Hz]; [eexists; split; [left; reflexivity|assumption]|].
  edestruct IH as (y & Hy & Hf); eauto. exists y; split; [right; assumption|assumption].
Qed.

Lemma mapM_all_ok {A B} (f : A -> res B) (g : A -> B) l :
  (forall x, In x l -> f x = Ok (g x)) -> mapM f l = Ok (map g l).
Proof.
  induction l as [|x xs IH]; cbn; intros H; [reflexivity|].
  rewrite H by auto. cbn. rewrite IH by auto. reflexivity.
Qed.

Lemma mapM_err {A B} (f : A -> res B) l e :
  mapM f l = Err e -> exists x, In x l /\ f x = Err e.
Proof.
  induction l as [|x xs IH]; cbn; intros H; [discriminate|].
  destruct (f x) as [y|e'] eqn:E; cbn in H.
  - destruct (mapM f xs) eqn:E2; cbn in H; [discriminate|].
    inversion H; subst. destruct IH as (z & Hz & Hf); auto.
    exists z; split; [right|]; assumption.
  - inversion H; subst. exists x; split; [left|]; auto.
Qed.

Lemma mapM_ok_map {A B} (f : A -> res B) l r : mapM f l = Ok r -> map f l = map Ok r.
Proof.
  revert r; induction l as [|x xs IH]; cbn; intros r H; inv_ok; [reflexivity|].
  cbn. rewrite Hm. f_equal. eauto.
Qed.

Lemma mapM_app {A B} (f : A -> res B) l1 l2 :
  mapM f (l1 ++ l2) = (let* a := mapM f l1 in let* b := mapM f l2 in Ok (a ++ b)).
Proof.
  induction l1 as [|x xs IH]; cbn; [destruct (mapM f l2); reflexivity|].
  destruct (f x); cbn; [|reflexivity]. rewrite IH.
  destruct (mapM f xs); cbn; [|reflexivity]. destruct (mapM f l2); reflexivity.
Qed.
