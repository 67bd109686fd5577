(** RoundEx.v -- the standard model of rounding is met by double precision (53 bits, round to nearest, ties to even; the exponent is unbounded,
    so no overflow and no underflow), with Flocq's definition of rounding. *)
From Coq Require Import Reals Lra Psatz ZArith.
From Flocq Require Import Core Relative.
From Verif Require Import Base PyList Num Dense Sparse Matrix Round.
Open Scope R_scope.

(** the nearest double *)
Definition rnd (x : R) : R := round radix2 (FLX_exp 53) ZnearestE x.
(** the operations of double precision: the exact result, rounded *)
Definition double : ops := {|
  o_add := fun a b => rnd (a + b); o_sub := fun a b => rnd (a - b); o_mul := fun a b => rnd (a * b); o_div := fun a b => rnd (a / b);
  o_sqrt := fun a => rnd (sqrt a); o_ln := fun a => rnd (ln a); o_ofZ := fun z => rnd (IZR z) |}.
(** one plus half a unit in the last place of 1: 1 + 2^-53 *)
Definition ulp1 : R := 1 + / 2 ^ 53.

Lemma ulp1_ge : 1 <= ulp1.
Proof. unfold ulp1. assert (0 < / 2 ^ 53) by (apply Rinv_0_lt_compat, pow_lt; lra). lra. Qed.
Lemma rnd_near x : near ulp1 1 (rnd x) x.
Proof.
  destruct (relative_error_N_FLX'_ex radix2 53 ltac:(lia) (fun z => negb (Z.even z)) x) as (e & He & E). unfold rnd. exists (1 + e). split; [|exact E].
  assert (U : u_ro radix2 53 = / 2 ^ 53). { unfold u_ro. change (- (53) + 1)%Z with (-52)%Z. cbn. lra. }
  rewrite U in He. rewrite pow_1. unfold ulp1. set (u := / 2 ^ 53) in *. assert (U0 : 0 < u) by (apply Rinv_0_lt_compat, pow_lt; lra). apply Rabs_le_inv in He.
  assert (K : / (1 + u) = 1 - u / (1 + u)) by (field; lra). assert (u / (1 + u) <= u).
  { apply Rmult_le_reg_r with (r := 1 + u); [lra|]. unfold Rdiv. rewrite Rmult_assoc, Rinv_l by lra. nra. }
  rewrite K. lra.
Qed.
(** double precision meets the standard model *)
Lemma double_standard : standard double ulp1 ulp1.
Proof. constructor; try exact ulp1_ge; intros; apply rnd_near. Qed.

(** computing roundings *)
Lemma rnd_val (x : R) (m e : Z) : (2 ^ 52 <= m < 2 ^ 53)%Z -> bpow radix2 (e + 52) <= x < bpow radix2 (e + 53) -> Rabs (x * bpow radix2 (- e) - IZR m) < / 2 -> rnd x = IZR m * bpow radix2 e.
Proof.
  intros Hm Hx Hn. unfold rnd, round, F2R. cbn [Fnum Fexp].
  assert (X0 : 0 <= x) by (pose proof (bpow_gt_0 radix2 (e + 52)); lra).
  assert (C : cexp radix2 (FLX_exp 53) x = e).
  { unfold cexp. rewrite (mag_unique radix2 x (e + 53)). - unfold FLX_exp. lia. - rewrite Rabs_right by lra. replace (e + 53 - 1)%Z with (e + 52)%Z by lia. exact Hx. }
  unfold scaled_mantissa. rewrite C. f_equal. apply f_equal. apply Znearest_imp. exact Hn.
Qed.
Lemma rnd_exact (m e : Z) : (Z.abs m < 2 ^ 53)%Z -> rnd (IZR m * bpow radix2 e) = IZR m * bpow radix2 e.
Proof.
  intros Hm. unfold rnd. apply round_generic; [typeclasses eauto|]. apply generic_format_FLX. apply (FLX_spec radix2 53 _ (Float radix2 m e)); [reflexivity|exact Hm].
Qed.
Lemma rnd_int (m : Z) : (Z.abs m < 2 ^ 53)%Z -> rnd (IZR m) = IZR m.
Proof. intros H. pose proof (rnd_exact m 0 H) as E. cbn [bpow] in E. rewrite Rmult_1_r in E. exact E. Qed.
