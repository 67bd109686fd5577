(** Round.v -- computing with rounding errors.  The whole model is written over an abstract record of arithmetic operations
    (Num.v); here it is instantiated with operations on reals that are only nearly right, as those of a floating-point unit are.
    Specification file: the standard model of floating-point arithmetic, and what it means for a matrix computed with rounding to
    be close to the one computed exactly. *)
From Coq Require Import Reals.
From Verif Require Import Base PyList Num Dense Sparse Matrix.
Open Scope R_scope.

(** the arithmetic operations of a machine, on real numbers *)
Record ops := Ops { o_add : R -> R -> R; o_sub : R -> R -> R; o_mul : R -> R -> R; o_div : R -> R -> R; o_sqrt : R -> R; o_ln : R -> R; o_ofZ : Z -> R }.

(** the numbers of the model computed with such a machine: zero, one, sign changes and comparisons are exact.  Sums (of the entries of a
    row, of a column, ...) are taken from left to right. *)
Definition FNum (o : ops) : Num := {|
  F := R; f0 := IZR 0; f1 := IZR 1;
  fadd := o_add o; fsub := o_sub o; fmul := o_mul o; fdiv := o_div o; fopp := Ropp;
  feqb := Reqb; fltb := Rltb; fsqrt := o_sqrt o; fln := o_ln o; fofZ := o_ofZ o;
  feqb_eq := Reqb_eq |}.

(** a equals b up to k rounding errors, each a factor between 1/t and t *)
Definition near (t : R) (k : nat) (a b : R) : Prop := exists q, / t ^ k <= q <= t ^ k /\ a = b * q.

(** the standard model: every operation returns the exact result up to one rounding error; a logarithm (of a number that is at least 1)
    up to a factor tl.  Double precision without overflow and underflow is the case t = 1 + 2^-53 (Prop_Round.v). *)
Record standard (o : ops) (t tl : R) : Prop := {
  st_t : 1 <= t; st_tl : 1 <= tl;
  st_add : forall a b, near t 1 (o_add o a b) (a + b);
  st_sub : forall a b, near t 1 (o_sub o a b) (a - b);
  st_mul : forall a b, near t 1 (o_mul o a b) (a * b);
  st_div : forall a b, b <> 0 -> near t 1 (o_div o a b) (a / b);
  st_sqrt : forall a, 0 <= a -> near t 1 (o_sqrt o a) (sqrt a);
  st_ln : forall a, 1 <= a -> near tl 1 (o_ln o a) (ln a) }.

(** the same matrix, held by the exact model *)
Definition exact {o : ops} (m : @matrix (FNum o)) : @matrix RNum :=
  match m with
  | MD d => @MD RNum (@DM RNum (d_nr d) (d_nc d) (d_dat d))
  | MS c => @MS RNum (@CSR RNum (s_nr c) (s_nc c) (s_data c) (s_ind c) (s_ptr c))
  end.
(** entries of a matrix *)
Definition fent {o : ops} (m : @matrix (FNum o)) (i j : nat) : R := @ment (FNum o) m i j.

(** m has the class and shape of e, and each entry is that of e up to k rounding errors *)
Definition approx {o : ops} (t : R) (k : nat) (m : @matrix (FNum o)) (e : @matrix RNum) : Prop :=
  @type_of (FNum o) m = @type_of RNum e /\ @m_nr (FNum o) m = @m_nr RNum e /\ @m_nc (FNum o) m = @m_nc RNum e /\
  @mwf (FNum o) m /\ @mwf RNum e /\
  forall i j, (i < @m_nr RNum e)%nat -> (j < @m_nc RNum e)%nat -> near t k (fent m i j) (@ment RNum e i j).
(** all entries are at least 0 *)
Definition nonneg (e : @matrix RNum) : Prop := forall i j, (i < @m_nr RNum e)%nat -> (j < @m_nc RNum e)%nat -> 0 <= @ment RNum e i j.
