(** Composition.v -- src/composes/composition/{composition_model,weighted_additive,dilation,multiplicative,
    full_additive}.py.  A model object is a value [cmodel]; methods that mutate it return the new value.
    Log output and warnings are not modelled. *)
From Verif Require Import Base PyList Dict Num Dense Sparse Matrix Scaling Linalg Operation Similarity Space Learner.
Section Composition.
Context {N : Num} {E : Ext}.
Local Open Scope nat_scope.

(** one line of training / composition data: (arg1, arg2, phrase) *)
Definition tuple3 := (string * string * string)%type.
Definition t1 (t : tuple3) : string := fst (fst t).
Definition t2 (t : tuple3) : string := snd (fst t).
Definition t3 (t : tuple3) : string := snd t.

(** the argument space parameter: a Space or a tuple of spaces *)
Inductive arg_spaces := One (s : space) | Tup (l : list space).

(** composition_model.py:151-170 (extract_arg_spaces), 172-177 (_assert_space_match without phrase space) *)
Definition extract_arg_spaces (a : arg_spaces) : res (space * space) :=
  let* (s1, s2) := match a with
                   | One s => Ok (s, s)
                   | Tup [x; y] => Ok (x, y)
                   | Tup _ => Err ValueError end in
  let* _ := check (strings_eqb (s_id2col s1) (s_id2col s2)) ValueError in
  Ok (s1, s2).

(** composition_model.py:203-210: [row2id is None or word in row2id] *)
Definition opt_in (d : option (dict Z)) (w : string) : bool :=
  match d with None => true | Some d => dmem d w end.
Definition valid_tuple (d1 d2 d3 : option (dict Z)) (t : tuple3) : bool :=
  opt_in d1 (t1 t) && opt_in d2 (t2 t) && opt_in d3 (t3 t).
(** composition_model.py:189-226 (valid_data_to_lists): the loop variable is read after the loop (line 219), so an
    empty list raises UnboundLocalError *)
Definition valid_data_to_lists (data : list tuple3) (d1 d2 d3 : option (dict Z))
  : res (list string * list string * list string) :=
  match data with
  | [] => Err UnboundLocalError
  | _ =>
      let v := filter (valid_tuple d1 d2 d3) data in
      let* _ := check (negb (Nat.eqb (length v) 0)) ValueError in
      Ok (map t1 v, map t2 v, map t3 v)
  end.

(** matrix_utils.py:78-87 on three matrices *)
Definition resolve3 (a b c : matrix) (t : option mtype) : res (matrix * matrix * matrix) :=
  let* l := resolve_type_conflict [a; b; c] t in
  match l with [x; y; z] => Ok (x, y, z) | _ => Err ValueError end.

(** the parameters of the four models *)
Inductive ckind :=
| WAdd (alpha beta : F)
| Mult
| Dil (lambda : F)
| FAdd (ab : option (matrix * matrix)) (icpt : bool) (L : option learner).

(** [cm_cols] is composed_id2column, None until the first train/compose (composition_model.py:27) *)
Record cmodel := CM { cm_kind : ckind; cm_cols : option (list string) }.

Definition half : F := fdiv f1 (fofZ 2).
(** weighted_additive.py:36-66 *)
Definition mk_wadd (alpha beta : option F) : cmodel :=
  let a := match alpha with Some a => a | None => half end in
  let b := match beta with
           | Some b => b
           | None => match alpha with Some a => fsub f1 a | None => half end end in
  CM (WAdd a b) None.
(** multiplicative.py:25-28 *)
Definition mk_mult : cmodel := CM Mult None.
(** dilation.py:29-44 *)
Definition mk_dil (lambda : option F) : cmodel :=
  CM (Dil (match lambda with Some l => l | None => fofZ 2 end)) None.
(** full_additive.py:36-73; A and B are Matrix objects (arrays are wrapped first, matrix_utils.py:52-64).
    A model created from A and B has no regression learner. *)
Definition mk_fadd (ab : option (matrix * matrix)) (L : option learner) : cmodel :=
  match ab with
  | Some (a, b) => let (a', b') := to_compatible a b in
                   CM (FAdd (Some (m_transpose a', m_transpose b')) false None) None
  | None => let l := match L with Some l => l | None => mk_lstsq None end in
            CM (FAdd None (has_intercept l) (Some l)) None
  end.
(** full_additive.py:102-104 (set_regression_learner): _has_intercept is only refreshed by train *)
Definition set_learner (m : cmodel) (l : learner) : cmodel :=
  match cm_kind m with
  | FAdd ab i _ => CM (FAdd ab i (Some l)) (cm_cols m)
  | _ => m
  end.

(** weighted_additive.py:120-121 *)
Definition wadd_compose (alpha beta : F) (u v : matrix) : res matrix := m_add (m_scal alpha u) (m_scal beta v).
(** dilation.py:70-88 *)
Definition dil_compose (lambda : F) (u v : matrix) : res matrix :=
  let* uv := m_multiply u v in
  let scale1 := m_sum1 uv in
  let scale2 := map fsq (m_norm1 u) in
  let* us := m_scale_rows u scale1 in
  let* vs := m_scale_rows v scale2 in
  m_add (m_scal (fsub lambda f1) us) vs.
(** full_additive.py:88-100; None stands for the class attributes _mat_a_t = _mat_b_t = None: type(arg1)(None) *)
Definition fadd_compose (ab : option (matrix * matrix)) (icpt : bool) (u v : matrix) : res matrix :=
  match ab with
  | None => Err TypeError
  | Some (a, b) =>
      let* (a, b, u) := resolve3 a b u (Some (type_of u)) in
      let* x := m_mul u a in
      let* v' := (if icpt then padd_matrix v 1 f1 else Ok v) in
      let* y := m_mul v' b in
      m_add x y
  end.
(** the models' _compose; multiplicative.py:36-37 *)
Definition kind_compose (k : ckind) (u v : matrix) : res matrix :=
  match k with
  | WAdd a b => wadd_compose a b u v
  | Mult => m_multiply u v
  | Dil l => dil_compose l u v
  | FAdd ab i _ => fadd_compose ab i u v
  end.
(** composition_model.py:184-185, full_additive.py:115-116 (_build_id2column) *)
Definition build_id2column (k : ckind) (s1 s2 : space) : list string :=
  match k with FAdd _ _ _ => [] | _ => s_id2col s1 end.

(** composition_model.py:98-147 (compose) up to the composed matrix: (matrix, phrases, arg1 space, arg2 space) *)
Definition compose_matrix (k : ckind) (data : list tuple3) (a : arg_spaces)
  : res (matrix * list string * space * space) :=
  let* (s1, s2) := extract_arg_spaces a in
  let* (l1, l2, l3) := valid_data_to_lists data (Some (s_row2id s1)) (Some (s_row2id s2)) None in
  let* m1 := get_rows s1 l1 in
  let* m2 := get_rows s2 l2 in
  let* (m1, m2) := resolve2 m1 m2 (Some TDense) in
  let* c := kind_compose k m1 m2 in
  Ok (c, l3, s1, s2).
(** composition_model.py:98-149 (compose): composed_id2column is set (line 138) before the new Space is built *)
Definition compose (m : cmodel) (data : list tuple3) (a : arg_spaces) : cmodel * res space :=
  match compose_matrix (cm_kind m) data a with
  | Err e => (m, Err e)
  | Ok (c, l3, s1, s2) =>
      let cols := match cm_cols m with Some l => l | None => build_id2column (cm_kind m) s1 s2 end in
      (CM (cm_kind m) (Some cols), mk_space c l3 cols None None [] None)
  end.

(** ** training *)
(** weighted_additive.py:95-108 (_train1): the five sums of one chunk; pow(norm, 2) *)
Definition wadd_train1 (u v p : matrix) : res (F * F * F * F * F) :=
  let* uv := m_multiply u v in
  let* up := m_multiply u p in
  let* vp := m_multiply v p in
  Ok (m_sum uv, m_sum up, m_sum vp, fsq (m_norm u), fsq (m_norm v)).
(** weighted_additive.py:110-117 (_train2) *)
Definition wadd_train2 (uv up vp uu vv : F) : res (F * F) :=
  let* f := e_pinv (DM 2 2 [[uu; uv]; [uv; vv]]) in
  Ok (fadd (fmul (f 0 0) up) (fmul (f 0 1) vp), fadd (fmul (f 1 0) up) (fmul (f 1 1) vp)).
(** weighted_additive.py:74: int(nr * 0.2 / 3.0) + 1, exact for nr < 2^49 *)
Definition chunk_size (nr : nat) : nat := nr / 15 + 1.
Definition add5 (x y : F * F * F * F * F) : F * F * F * F * F :=
  let '(a1, a2, a3, a4, a5) := x in let '(b1, b2, b3, b4, b5) := y in
  (fadd a1 b1, fadd a2 b2, fadd a3 b3, fadd a4 b4, fadd a5 b5).
(** one round of weighted_additive.py:78-92 *)
Definition wadd_chunk (s1 s2 sp : space) (l1 l2 l3 : list string) (cs : nat) (acc : F * F * F * F * F) (i : nat)
  : res (F * F * F * F * F) :=
  let beg := i * cs in let end_ := Nat.min ((i + 1) * cs) (length l1) in
  let* u := get_rows s1 (slice beg end_ l1) in
  let* v := get_rows s2 (slice beg end_ l2) in
  let* p := get_rows sp (slice beg end_ l3) in
  let* (u, v, p) := resolve3 u v p (Some TDense) in
  let* r := wadd_train1 u v p in
  Ok (add5 acc r).
(** weighted_additive.py:69-93 (xxx): [range(len(arg1_list) / chunk_size)] is an integer division (Python 2), so a
    last incomplete chunk is not visited *)
Definition wadd_xxx (s1 s2 sp : space) (l1 l2 l3 : list string) : res (F * F) :=
  let cs := chunk_size (m_nr (s_mat sp)) in
  let* (uv, up, vp, uu, vv) := foldM (wadd_chunk s1 s2 sp l1 l2 l3 cs) (seq 0 (length l1 / cs)) (f0, f0, f0, f0, f0) in
  wadd_train2 uv up vp uu vv.

(** dilation.py:46-65 (_train) *)
Definition dil_train (u v p : matrix) : res F :=
  let sq := map fsq (m_norm1 u) in
  let* vs := m_scale_rows v sq in
  let* v2p := m_sub vs p in
  let* u2 := m_multiply u v2p in
  let* uv := m_multiply u v in
  let uvs := m_sum1 uv in
  let idx := seq 0 (length uvs) in
  let nom := suml (map (fun i => fmul (fsq (nth i uvs f0)) (nth i sq f0)) idx) in
  let denom := suml (map (fun i => fmul (nth i uvs f0) (nth i (m_sum1 u2) f0)) idx) in
  if feqb nom f0 then Ok (fofZ 2) else Ok (fsub f1 (fdiv denom nom)).

(** rows a..b-1 of a matrix (numpy / scipy slice, bounds clipped); an empty result is refused by the constructors *)
Definition m_slice_rows (m : matrix) (a b : nat) : res matrix :=
  let b := Nat.min b (m_nr m) in m_get_rows m (map Z.of_nat (seq a (b - a))).

(** full_additive.py:76-84 (_train) *)
Definition fadd_train (L : learner) (u v p : matrix) : res (matrix * matrix) :=
  let* uv := m_hstack u v in
  let* r := learner_train L uv p in
  let* a := m_slice_rows r 0 (m_nc u) in
  let* b := m_slice_rows r (m_nc u) (m_nr r) in
  Ok (a, b).

(** composition_model.py:82-95 (xxx of the other models) *)
Definition gen_xxx (s1 s2 sp : space) (l1 l2 l3 : list string) : res (matrix * matrix * matrix) :=
  let* u := get_rows s1 l1 in
  let* v := get_rows s2 l2 in
  let* p := get_rows sp l3 in
  resolve3 u v p (Some TDense).

(** the training matrices after composition_model.py:54-60: spaces and word lists *)
Definition train_lists (data : list tuple3) (a : arg_spaces) (sp : space)
  : res (space * space * (list string * list string * list string)) :=
  let* (s1, s2) := extract_arg_spaces a in
  let* ls := valid_data_to_lists data (Some (s_row2id s1)) (Some (s_row2id s2)) (Some (s_row2id sp)) in
  Ok (s1, s2, ls).

(** composition_model.py:35-80 (train); multiplicative.py:30-34 takes no arguments, so the call with the common
    signature raises TypeError.  full_additive.py:78 assigns _has_intercept before the regression can fail; a model
    built from A and B has no learner (AttributeError). *)
Definition train (m : cmodel) (data : list tuple3) (a : arg_spaces) (sp : space) : cmodel * res unit :=
  match cm_kind m with
  | Mult => (m, Err TypeError)
  | WAdd _ _ =>
      match (let* (s1, s2, (l1, l2, l3)) := train_lists data a sp in wadd_xxx s1 s2 sp l1 l2 l3) with
      | Err e => (m, Err e)
      | Ok (x, y) => (CM (WAdd x y) (Some (s_id2col sp)), Ok tt)
      end
  | Dil _ =>
      match (let* (s1, s2, (l1, l2, l3)) := train_lists data a sp in
             let* (u, v, p) := gen_xxx s1 s2 sp l1 l2 l3 in dil_train u v p) with
      | Err e => (m, Err e)
      | Ok x => (CM (Dil x) (Some (s_id2col sp)), Ok tt)
      end
  | FAdd ab i Lo =>
      match (let* (s1, s2, (l1, l2, l3)) := train_lists data a sp in gen_xxx s1 s2 sp l1 l2 l3) with
      | Err e => (m, Err e)
      | Ok (u, v, p) =>
          match Lo with
          | None => (m, Err AttributeError)
          | Some L =>
              match fadd_train L u v p with
              | Err e => (CM (FAdd ab (has_intercept L) Lo) (cm_cols m), Err e)
              | Ok r => (CM (FAdd (Some r) (has_intercept L) Lo) (Some (s_id2col sp)), Ok tt)
              end
          end
      end
  end.
End Composition.
