(** Linalg.v -- src/composes/matrix/linalg.py and transformation/dim_reduction/{svd,nmf}.py.
    External numerical routines are fields of the class [Ext]: every theorem holds for all their behaviours, or
    assumes a guarantee of the returned value.  Their documented *shapes* are built in ([tab]). *)
From Verif Require Import Base PyList Num Dense Sparse Matrix.
Section Linalg.
Context {N : Num}.
Local Open Scope nat_scope.

Class Ext := {
  (** np.linalg.svd(m, full_matrices=False): (u, s, vt) with u : nr x p, s : p, vt : p x nc, p = min nr nc *)
  e_svd : dmat -> res ((nat -> nat -> F) * (nat -> F) * (nat -> nat -> F));
  (** sparsesvd(m, k): the number d of dimensions found, ut : d x nr, s : d, vt : d x nc *)
  e_sparsesvd : csr -> nat -> res (nat * (nat -> nat -> F) * (nat -> F) * (nat -> nat -> F));
  (** np.linalg.pinv(m) : nc x nr, may raise LinAlgError *)
  e_pinv : dmat -> res (nat -> nat -> F);
  (** np.linalg.lstsq(a, b, rcond=-1)[0] : nc a x nc b *)
  e_lstsq : dmat -> dmat -> res (nat -> nat -> F);
  (** np.random.random_integers: e_rndcol i q = q-th draw of the i-th loop round (reduced into the range) *)
  e_rndcol : nat -> nat -> nat;
  e_rndrow : nat -> nat -> nat;
  (** time() - init_time > _NMF_TIME_LIMIT at outer iteration i (linalg.py:360) *)
  e_timeout : nat -> bool }.
Context {E : Ext}.

(** linalg.py:45 (_SVD_TOL = 1e-12) *)
Definition svd_tol : F := fdiv f1 (fofZ 1000000000000).

(** linalg.py:239-257 (_dense_svd) *)
Definition dense_svd (d : dmat) (k : nat) : res (matrix * list F * matrix) :=
  let* (u, s, vt) := e_svd d in
  let p := Nat.min (d_nr d) (d_nc d) in
  let sl := map s (seq 0 p) in
  let rank := count (fltb svd_tol) sl in
  let no_cols := Nat.min p (Nat.min k rank) in
  (* DenseMatrix(u[:,0:0]) : "cannot initialize empty matrix" *)
  let* _ := check (negb (Nat.eqb no_cols 0)) ValueError in
  let um := MD (tab (d_nr d) no_cols u) in
  let vm := MD (tab (d_nc d) no_cols (fun i j => vt j i)) in
  let sv := firstn no_cols sl in
  if m_is_mostly_positive um then Ok (um, sv, vm) else Ok (m_neg um, sv, m_neg vm).

(** linalg.py:196-237 (_sparse_svd): asks for k + k/10 dimensions and keeps at most k *)
Definition sparse_svd (c : csr) (k : nat) : res (matrix * list F * matrix) :=
  let* (dim, ut, s, vt) := e_sparsesvd c (k + k / 10) in
  let no_cols := Nat.min dim k in
  let* _ := check (negb (Nat.eqb no_cols 0)) ValueError in
  let um := MS (csr_of_dense (tab (s_nr c) no_cols (fun i j => ut j i))) in
  let vm := MS (csr_of_dense (tab (s_nc c) no_cols (fun i j => vt j i))) in
  let sv := map s (seq 0 no_cols) in
  if m_is_mostly_positive um then Ok (um, sv, vm) else Ok (m_neg um, sv, m_neg vm).

(** linalg.py:47-82 (svd) *)
Definition linalg_svd (m : matrix) (k : nat) : res (matrix * list F * matrix) :=
  let* _ := check (negb (Nat.eqb k 0)) ValueError in
  match m with MS c => sparse_svd c k | MD d => dense_svd d k end.

(** svd.py:29-32 (Svd.apply): returns (U * S, V) *)
Definition svd_apply (k : nat) (m : matrix) : res (matrix * matrix) :=
  let* (u, s, v) := linalg_svd m k in
  let* us := m_scale_cols u s in
  Ok (us, v).

(** linalg.py:383-411 (pinv) *)
Definition linalg_pinv (m : matrix) : res matrix :=
  let* f := e_pinv (to_dense m) in
  Ok (of_dense (type_of m) (tab (m_nc m) (m_nr m) f)).

(** linalg.py:84-142 (ridge_regression): (solution, trace of S, distance) *)
Definition ridge_regression (a b : matrix) (lambda : F) (intercept : bool) : res (matrix * F * F) :=
  let* _ := same_type a b in
  let* _ := assert_same_nr a b in
  let t := type_of a in
  let dim := m_nc a in
  let* a := (if intercept then m_hstack a (of_dense t (d_const (m_nr a) 1 f1)) else Ok a) in
  let lambda_diag := m_scal lambda (m_identity t dim) in
  let* lambda_diag :=
     (if intercept then let* p := padd_matrix lambda_diag 0 f0 in padd_matrix p 1 f0 else Ok lambda_diag) in
  let at_ := m_transpose a in
  let* ata := m_mul at_ a in
  let* reg := m_add ata lambda_diag in
  let* tmp := match linalg_pinv reg with
              | Ok p => Ok p
              | Err LinAlgError => Ok (m_identity t (m_nr lambda_diag))
              | Err e => Err e
              end in
  let* tmp_res := m_mul tmp at_ in
  let* result := m_mul tmp_res b in
  let* ar := m_mul a result in
  let* diff := m_sub ar b in
  let dist := m_norm diff in
  let* st := m_multiply at_ tmp_res in
  Ok (result, m_sum st, dist).

(** linalg.py:144-190 (lstsq_regression); the sparse branch is ridge with lambda 0 and no extra intercept column *)
Definition lstsq_regression (a b : matrix) (intercept : bool) : res matrix :=
  let* _ := same_type a b in
  let* _ := assert_same_nr a b in
  let* a := (if intercept then m_hstack a (of_dense (type_of a) (d_const (m_nr a) 1 f1)) else Ok a) in
  match a with
  | MD d => let* f := e_lstsq d (to_dense b) in Ok (MD (tab (d_nc d) (m_nc b) f))
  | MS _ => let* r := ridge_regression a b f0 false in Ok (fst (fst r))
  end.

(** ** NMF *)
(** linalg.py:36-37 *)
Definition nmf_alpha : F := f1.
Definition nmf_beta : F := fdiv f1 (fofZ 10).
Definition c99 : F := fdiv (fofZ 99) (fofZ 100).
Definition c05 : F := fdiv f1 (fofZ 2).

(** One candidate step of the line search, linalg.py:290-295: (hn, suff_decr) *)
Definition nmf_try (wtw grad h : matrix) (alpha : F) : res (matrix * bool) :=
  let* h1 := m_sub h (m_scal alpha grad) in
  let hn := m_get_non_negative h1 in
  let* d := m_sub hn h in
  let* gd := m_multiply grad d in
  let gradd := m_sum gd in
  let* wd := m_mul wtw d in
  let* wdd := m_multiply wd d in
  let dQd := m_sum wdd in
  Ok (hn, fltb (fadd (fmul c99 gradd) (fmul c05 dQd)) f0).

(** linalg.py:289-311 from inner_iter = 2 on ([decr] and [hp] already set); [n] iterations left.
    Leaving the loop without a break keeps [h] (only [alpha] changes). *)
Fixpoint nmf_inner (n : nat) (wtw grad h hp : matrix) (alpha : F) (decr : bool) : res (matrix * F) :=
  match n with
  | O => Ok (h, alpha)
  | S n' =>
      let* (hn, suff) := nmf_try wtw grad h alpha in
      if decr then
        if suff then Ok (hn, alpha) else nmf_inner n' wtw grad h hp (fmul alpha nmf_beta) decr
      else
        if negb suff then Ok (hp, alpha)
        else let* cl := m_all_close hp hn in
             if cl then Ok (hp, alpha)
             else nmf_inner n' wtw grad h hn (fdiv alpha nmf_beta) decr
  end.

(** linalg.py:288-311: the first inner iteration sets decr_alpha and hp = h; xrange(1,20) is 19 iterations *)
Definition nmf_search (wtw grad h : matrix) (alpha : F) : res (matrix * F) :=
  let* (hn, suff) := nmf_try wtw grad h alpha in
  let decr := negb suff in
  let hp := h in
  if decr then
    (* suff is false here *)
    nmf_inner 18 wtw grad h hp (fmul alpha nmf_beta) decr
  else
    let* cl := m_all_close hp hn in
    if cl then Ok (hp, alpha)
    else nmf_inner 18 wtw grad h hn (fdiv alpha nmf_beta) decr.

(** linalg.py:285-311: outer iterations of the sub-problem *)
Fixpoint nmf_sub_loop (n : nat) (wtv wtw h : matrix) (alpha : F) : res matrix :=
  match n with
  | O => Ok h
  | S n' =>
      let* wh := m_mul wtw h in
      let* grad := m_sub wh wtv in
      let* (h', alpha') := nmf_search wtw grad h alpha in
      nmf_sub_loop n' wtv wtw h' alpha'
  end.

(** linalg.py:266-313 (_nmf_nlssubprob); maxiter = 15 gives xrange(1,15) = 14 rounds.  The tolerance argument and
    the returned gradient / iteration count influence nothing that is returned by nmf (they only update tolW/tolH,
    which the sub-problem ignores), so they are dropped. *)
Definition nmf_nlssubprob (v w wt h_init : matrix) : res matrix :=
  let* wtv := m_mul wt v in
  let* wtw := m_mul wt w in
  nmf_sub_loop 14 wtv wtw h_init nmf_alpha.

(** linalg.py:357-377: iterations i, i+1, ... ; xrange(1, 20) is 19 rounds, cut short by the time limit *)
Fixpoint nmf_loop (n i : nat) (v vt w h : matrix) : res (matrix * matrix) :=
  match n with
  | O => Ok (w, h)
  | S n' =>
      if e_timeout i then Ok (w, h) else
      let* old_w := nmf_nlssubprob vt (m_transpose h) h (m_transpose w) in
      let w' := m_transpose old_w in
      let* h' := nmf_nlssubprob v w' old_w h in
      nmf_loop n' (S i) v vt w' h'
  end.

(** linalg.py:315-381 (nmf); lines 342-354 only compute tolerances but can raise on a shape/type mismatch *)
Definition linalg_nmf (v w_init h_init : matrix) : res (matrix * matrix) :=
  let w := w_init in let h := h_init in
  let wt := m_transpose w in let ht := m_transpose h in let vt := m_transpose v in
  let* hht := m_mul h ht in
  let* whht := m_mul w hht in
  let* vht := m_mul v ht in
  let* gradW := m_sub whht vht in
  let* wtw := m_mul wt w in
  let* wtwh := m_mul wtw h in
  let* wtv := m_mul wt v in
  let* gradH := m_sub wtwh wtv in
  nmf_loop 19 1 v vt w h.

(** nmf.py:57-78 (v_col_init): column i of w is the mean of p_col random columns, row i of h of p_row random rows *)
Definition v_col_init (k : nat) (m : matrix) : matrix * matrix :=
  let nr := m_nr m in let nc := m_nc m in
  let p_col := nc / 5 + 1 in let p_row := nr / 5 + 1 in
  let w := tab nr k (fun r i => fdiv (sumn p_col (fun q => ment m r (e_rndcol i q mod nc))) (fofZ (Z.of_nat p_col))) in
  let h := tab k nc (fun i c => fdiv (sumn p_row (fun q => ment m (e_rndrow i q mod nr) c)) (fofZ (Z.of_nat p_row))) in
  (of_dense (type_of m) w, of_dense (type_of m) h).

(** nmf.py:32-39 (Nmf.apply): (w, pinv h) *)
Definition nmf_apply (k : nat) (m : matrix) : res (matrix * matrix) :=
  let* _ := m_assert_positive m in
  let (w_init, h_init) := v_col_init k m in
  let* (w, h) := linalg_nmf m w_init h_init in
  let* p := linalg_pinv h in
  Ok (w, p).
End Linalg.
