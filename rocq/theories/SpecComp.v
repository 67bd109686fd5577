(** SpecComp.v -- vocabulary of the statements about composition models. *)
From Verif Require Import Base PyList Dict Num Dense Sparse Matrix Scaling Linalg Operation Similarity Space Learner Composition.
Section SpecComp.
Context {N : Num} {E : Ext}.
Local Open Scope nat_scope.

(** position of the first occurrence of a word *)
Fixpoint pos_of (l : list string) (w : string) : option nat :=
  match l with
  | [] => None
  | x :: xs => if String.eqb w x then Some 0 else match pos_of xs w with Some p => Some (S p) | None => None end
  end.
(** coordinate [j] of the vector that space [s] stores for word [w] *)
Definition vec (s : space) (w : string) (j : nat) : F :=
  match pos_of (s_id2row s) w with Some p => ment (s_mat s) p j | None => f0 end.
Definition known (s : space) (w : string) : bool := existsb (String.eqb w) (s_id2row s).
(** both argument words have a vector / all three words have a vector *)
Definition usable2 (s1 s2 : space) (t : tuple3) : bool := let '(a, b, _) := t in known s1 a && known s2 b.
Definition usable3 (s1 s2 sp : space) (t : tuple3) : bool := let '(a, b, p) := t in known s1 a && known s2 b && known sp p.
(** the two argument spaces denoted by the parameter *)
Definition args_of (a : arg_spaces) (s1 s2 : space) : Prop := (a = One s1 /\ s2 = s1) \/ a = Tup [s1; s2].
(** the model's parameters fit argument vectors of [n1] and [n2] coordinates (A and B are stored transposed; with an
    intercept B has one extra row) *)
Definition fits (k : ckind) (n1 n2 : nat) : Prop :=
  match k with
  | FAdd (Some (A, B)) i _ => mwf A /\ mwf B /\ m_nr A = n1 /\ m_nr B = (if i then n2 + 1 else n2) /\ m_nc A = m_nc B
  | FAdd None _ _ => False
  | _ => n1 = n2
  end.
(** number of coordinates of a composed vector *)
Definition width (k : ckind) (n1 : nat) : nat := match k with FAdd (Some (A, _)) _ _ => m_nc A | _ => n1 end.
End SpecComp.
