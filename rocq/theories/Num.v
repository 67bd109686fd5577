(** Num.v -- the numeric carrier of matrices.
    The code stores numpy [double]s.  The model is written over an abstract record of operations; rounding, NaN and
    infinities are outside the model (DESIGN.md section 1).  The only law is that [feqb] decides equality.
    [RNum] (exact reals) carries the numerical theorems, [QNum] (canonical rationals) is computable and carries the
    executable examples and refutation witnesses. *)
From Verif Require Import Base.
From Coq Require Import Reals QArith Qcanon.

Class Num := {
  F : Type;
  f0 : F; f1 : F;
  fadd : F -> F -> F; fsub : F -> F -> F; fmul : F -> F -> F; fdiv : F -> F -> F; fopp : F -> F;
  feqb : F -> F -> bool; fltb : F -> F -> bool;
  fsqrt : F -> F; fln : F -> F;
  fofZ : Z -> F;
  feqb_eq : forall a b, feqb a b = true <-> a = b }.

Declare Scope num_scope.
Delimit Scope num_scope with num.
Notation "0" := f0 : num_scope.
Notation "1" := f1 : num_scope.
Notation "a + b" := (fadd a b) : num_scope.
Notation "a - b" := (fsub a b) : num_scope.
Notation "a * b" := (fmul a b) : num_scope.
Notation "a / b" := (fdiv a b) : num_scope.
Notation "- a" := (fopp a) : num_scope.
Notation "a <? b" := (fltb a b) : num_scope.
Notation "a =? b" := (feqb a b) : num_scope.

Section NumOps.
Context {N : Num}.
Local Open Scope num_scope.
(** a <= b, as the negation of b < a (no NaN). *)
Definition fleb (a b : F) : bool := negb (b <? a).
Definition fabs (a : F) : F := if a <? 0 then - a else a.
Definition fsq (a : F) : F := a * a.
(** [1.0/x] on non-zero entries, 0 kept: py_matrix_utils.py:22-34 (nonzero_invert), one entry. *)
Definition finv0 (a : F) : F := if a =? 0 then 0 else 1 / a.
(** sum of [f 0 .. f (n-1)] *)
Fixpoint sumn (n : nat) (f : nat -> F) : F :=
  match n with O => 0 | S k => sumn k f + f k end.
(** sum of a list *)
Definition suml (l : list F) : F := fold_left fadd l 0.

Lemma feqb_refl a : (a =? a) = true.
Proof. apply feqb_eq. reflexivity. Qed.
Lemma feqb_neq a b : (a =? b) = false <-> a <> b.
Proof.
  split.
  - intros H E. subst. rewrite feqb_refl in H. discriminate.
  - intros H. destruct (a =? b) eqn:E; [|reflexivity]. apply feqb_eq in E. contradiction.
Qed.
Lemma sumn_ext n f g : (forall i, (i < n)%nat -> f i = g i) -> sumn n f = sumn n g.
Proof. induction n as [|n IH]; cbn; intros H; [reflexivity|]. rewrite IH, H by auto. reflexivity. Qed.
End NumOps.

(** Exact reals. *)
Definition Rltb (a b : R) : bool := if Rlt_dec a b then true else false.
Definition Reqb (a b : R) : bool := if Req_EM_T a b then true else false.
Lemma Reqb_eq a b : Reqb a b = true <-> a = b.
Proof. unfold Reqb. destruct (Req_EM_T a b); split; congruence. Qed.

#[export] Instance RNum : Num := {|
  F := R; f0 := IZR 0; f1 := IZR 1;
  fadd := Rplus; fsub := Rminus; fmul := Rmult; fdiv := Rdiv; fopp := Ropp;
  feqb := Reqb; fltb := Rltb; fsqrt := R_sqrt.sqrt; fln := Rpower.ln; fofZ := IZR;
  feqb_eq := Reqb_eq |}.

(** Canonical rationals, for computation.  [fsqrt] and [fln] are identity dummies that no example relies on. *)
Definition Qcltb (a b : Qc) : bool := match (a ?= b)%Qc with Lt => true | _ => false end.
Definition Qceqb (a b : Qc) : bool := if Qc_eq_dec a b then true else false.
Lemma Qceqb_eq a b : Qceqb a b = true <-> a = b.
Proof. unfold Qceqb. destruct (Qc_eq_dec a b); split; congruence. Qed.

#[export] Instance QNum : Num := {|
  F := Qc; f0 := Q2Qc 0; f1 := Q2Qc 1;
  fadd := Qcplus; fsub := Qcminus; fmul := Qcmult; fdiv := Qcdiv; fopp := Qcopp;
  feqb := Qceqb; fltb := Qcltb; fsqrt := fun x => x; fln := fun x => x;
  fofZ := fun z => Q2Qc (inject_Z z);
  feqb_eq := Qceqb_eq |}.
(** help unification: [R = F ?N] is solved by [RNum], [Qc = F ?N] by [QNum] *)
Canonical Structure RNum.
Canonical Structure QNum.
