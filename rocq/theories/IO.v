(** IO.v -- src/composes/utils/io_utils.py, and Space.build / Space.export of src/composes/semantic_space/space.py.
    A file system maps paths to contents; paths are compared as strings ("a//b" and "a/b" are different paths, links and
    permissions do not exist).  The contents of a gzipped file are its uncompressed contents.  What a call that raises
    leaves on disk is modelled in Crash.v.  Warnings and progress messages are not modelled. *)
From Coq Require Import Ascii.
From Verif Require Import Base PyList Dict Num Dense Sparse Matrix Scaling Linalg Operation Similarity Space Learner Composition Utils LexFun Str.
Section IO.
Context {N : Num} {E : Ext}.
Local Open Scope string_scope.
Local Open Scope list_scope.
Local Open Scope nat_scope.

(** conversions between numbers and text: float(s), repr(x), "%f" % x, str(x), int(s) *)
Class FloatIO := {
  fparse : string -> option F;
  frepr : F -> string;
  ffmt : F -> string;
  fstr : F -> string;
  iparse : string -> option Z }.
Context {FI : FloatIO}.

(** what pickle.dump stores: a Space (or PeripheralSpace), or a composition model *)
Inductive pobj := OSpace (s : space) | OComp (m : cmodel) | OLex (m : lexfun).
Inductive content := Text (s : string) | Pickle (o : pobj).
Record fsys := FS { fs_file : string -> option content; fs_dir : string -> bool }.

(** os.path.exists *)
Definition exists_ (fs : fsys) (p : string) : bool :=
  negb (String.eqb p "") && (fs_dir fs p || match fs_file fs p with Some _ => true | None => false end).
(** open(p) for reading text *)
Definition read_text (fs : fsys) (p : string) : res string :=
  match fs_file fs p with Some (Text s) => Ok s | Some (Pickle _) => Err ValueError | None => Err IOError end.
(** open(p, 'w') and writing: the parent must be a directory (the current one if empty), the path must not be one *)
Definition write_file (fs : fsys) (p : string) (c : content) : res fsys :=
  if String.eqb p "" || fs_dir fs p || negb (String.eqb (dirname p) "" || fs_dir fs (dirname p)) then Err IOError
  else Ok (FS (fun q => if String.eqb q p then Some c else fs_file fs q) (fs_dir fs)).
(** os.mkdir *)
Definition mkdir (fs : fsys) (p : string) : res fsys :=
  if String.eqb p "" || exists_ fs p || negb (String.eqb (dirname p) "" || fs_dir fs (dirname p)) then Err OSError
  else Ok (FS (fs_file fs) (fun q => String.eqb q p || fs_dir fs q)).
(** os.makedirs (posix, Python 2.7); [n] bounds the recursion, which shortens the path *)
Fixpoint makedirs (n : nat) (fs : fsys) (p : string) : res fsys :=
  match n with
  | 0 => Err OSError
  | S n =>
      let (head, tail) := path_split p in
      let (head, tail) := if String.eqb tail "" then path_split head else (head, tail) in
      let* fs := (if negb (String.eqb head "") && negb (String.eqb tail "") && negb (exists_ fs head)
                  then makedirs n fs head else Ok fs) in
      if String.eqb tail "." then Ok fs else mkdir fs p
  end.
(** io_utils.py:46-50 (create_parent_directories) *)
Definition create_parent_directories (fs : fsys) (p : string) : res fsys :=
  let d := dirname p in
  if exists_ fs d then Ok fs else makedirs (S (String.length d)) fs d.
(** io_utils.py:20-28 (save); pickling itself is total here *)
Definition save (fs : fsys) (o : pobj) (p : string) : res fsys :=
  let* fs := create_parent_directories fs p in write_file fs p (Pickle o).
(** io_utils.py:31-38 (load) of a Space *)
Definition load_space (fs : fsys) (p : string) : res space :=
  match fs_file fs p with
  | Some (Pickle (OSpace s)) => Ok s
  | Some (Pickle _) => Err TypeError
  | Some (Text _) => Err ValueError
  | None => Err IOError
  end.

(** ** extract_indexing_structs *)
(** state of one field: (str2id, id2str, index) *)
Definition ixst := (dict Z * list string * Z)%type.
(** io_utils.py:75-79: one field of one line *)
Definition ix_step (elements : list string) (field : Z) (st : ixst) : res ixst :=
  let* cur := py_nth elements field in
  let '(d, l, i) := st in
  if dmem d cur then Ok (d, l, i) else Ok (dset d cur i, l ++ [cur], (i + 1)%Z).
(** io_utils.py:69-79: one line *)
Definition ix_line (fields : list Z) (max_field : Z) (sts : list ixst) (line : string) : res (list ixst) :=
  if String.eqb (strip line) "" then Ok sts
  else
    let elements := split (strip line) in
    if (Z.of_nat (length elements) <=? max_field)%Z then Ok sts
    else mapM (fun fs => ix_step elements (fst fs) (snd fs)) (combine fields sts).
Definition zmax (l : list Z) : res Z :=
  match l with [] => Err ValueError | x :: r => Ok (fold_left Z.max r x) end.
(** io_utils.py:53-84 (extract_indexing_structs) *)
Definition extract_indexing_structs (text : string) (fields : list Z) : res (list (list string) * list (dict Z)) :=
  let* max_field := zmax fields in
  let* sts := foldM (ix_line fields max_field) (flines text) (map (fun _ => ([], [], 0%Z)) fields) in
  let* _ := check (forallb (fun st : ixst => negb (Nat.eqb (length (snd (fst st))) 0)) sts) ValueError in
  Ok (map (fun st : ixst => snd (fst st)) sts, map (fun st : ixst => fst (fst st)) sts).
(** the calls with field_list [0] *)
Definition extract_indexing0 (text : string) : res (list string * dict Z) :=
  let* r := extract_indexing_structs text [0%Z] in
  match r with ([l], [d]) => Ok (l, d) | _ => Err ValueError end.

(** ** tuple and list readers *)
(** io_utils.py:98-108: one line of read_tuple_list; with no fields (or an empty list of fields) all elements are kept.
    np.array(elements)[field_list] is list indexing of each field (numpy drops trailing NUL bytes of the elements, which is
    not modelled) *)
Definition tuple_line (fields : list Z) (acc : list (list string)) (line : string) : res (list (list string)) :=
  let line := strip line in
  if String.eqb line "" then Ok acc
  else
    let elements := split line in
    let* elements := (match fields with [] => Ok elements | _ => mapM (py_nth elements) fields end) in
    Ok (acc ++ [elements]).
(** io_utils.py:87-110 (read_tuple_list) *)
Definition read_tuple_list (text : string) (fields : list Z) : res (list (list string)) :=
  foldM (tuple_line fields) (flines text) [].
(** io_utils.py:121-130: one line of read_list *)
Definition list_line (field : option Z) (acc : list string) (line : string) : res (list string) :=
  let line := strip line in
  if String.eqb line "" then Ok acc
  else
    let* x := (match field with Some f => py_nth (split line) f | None => Ok line end) in
    Ok (acc ++ [x]).
(** io_utils.py:113-131 (read_list) *)
Definition read_list (text : string) (field : option Z) : res (list string) :=
  foldM (list_line field) (flines text) [].

(** ** sparse data *)
Definition parse_num (s : string) : res F := match fparse s with Some x => Ok x | None => Err ValueError end.
(** io_utils.py:163-178: one line; the state is the list of (row, col, value) stored so far *)
Definition sparse_line (row2id col2id : dict Z) (acc : list (Z * Z * F)) (line : string) : res (list (Z * Z * F)) :=
  if String.eqb (strip line) "" then Ok acc
  else match split (strip line) with
       | w1 :: w2 :: count :: _ =>
           match dget row2id w1, dget col2id w2 with
           | Some i, Some j => let* x := parse_num count in Ok (acc ++ [(i, j, x)])
           | _, _ => Ok acc
           end
       | _ => Err ValueError
       end.
(** scipy rejects indices outside the shape, and shapes with a zero *)
Definition coo_check (nr nc : nat) (e : Z * Z * F) : res (nat * nat * F) :=
  let '(i, j, x) := e in
  if ((0 <=? i) && (i <? Z.of_nat nr) && (0 <=? j) && (j <? Z.of_nat nc))%Z then Ok (Z.to_nat i, Z.to_nat j, x)
  else Err ValueError.
(** io_utils.py:134-190 (read_sparse_space_data); int32 indices do not overflow below 2^31 words *)
Definition read_sparse_space_data (text : string) (row2id col2id : dict Z) : res matrix :=
  let* es := foldM (sparse_line row2id col2id) (flines text) [] in
  let* _ := check (negb (Nat.eqb (length row2id) 0) && negb (Nat.eqb (length col2id) 0)) ValueError in
  let* es := mapM (coo_check (length row2id) (length col2id)) es in
  Ok (MS (csr_of_coo (length row2id) (length col2id) es)).

(** ** dense data *)
(** io_utils.py:224-236: one line; the state is (the rows assigned so far with their values, row_string_set) *)
Definition dense_line (no_cols no_rows : nat) (row2id : dict Z) (st : list (nat * list F) * list string) (line : string)
  : res (list (nat * list F) * list string) :=
  if String.eqb (strip line) "" then Ok st
  else
    let elements := split (strip line) in
    let* _ := check (Nat.eqb (length elements) (no_cols + 1)) ValueError in
    match elements with
    | [] => Err IndexError
    | word :: rest =>
        let (m, seen) := st in
        match dget row2id word with
        | None => Ok st
        | Some i =>
            if existsb (String.eqb word) seen then Ok st
            else
              let* k := match py_index no_rows i with Some k => Ok k | None => Err IndexError end in
              let* xs := mapM parse_num rest in
              Ok ((k, xs) :: m, word :: seen)
        end
    end.
(** row k after the assignments (the latest first) *)
Fixpoint assigned (m : list (nat * list F)) (k : nat) : list F :=
  match m with [] => [] | (k', xs) :: r => if Nat.eqb k k' then xs else assigned r k end.
(** io_utils.py:193-240 (read_dense_space_data) *)
Definition read_dense_space_data (text : string) (row2id : dict Z) : res matrix :=
  match flines text with
  | [] => Err StopIteration
  | first :: _ =>
      let no_cols := length (split (strip first)) - 1 in
      let* _ := check (negb (Nat.eqb no_cols 0)) ValueError in
      let no_rows := length row2id in
      let* (m, _) := foldM (dense_line no_cols no_rows row2id) (flines text) ([], []) in
      Ok (MD (tab no_rows no_cols (fun i j => nth j (assigned m i) f0)))
  end.

(** ** writers *)
(** io_utils.py:243-246 (print_list) *)
Definition list_text (l : list string) : string := String.concat "" (map (fun x => (x ++ nl)%string) l).
(** io_utils.py:266-269: [while i == next_row], at most one step per remaining row *)
Fixpoint advance (n : nat) (ptrs : list nat) (id2row : list string) (i row_index next_row : nat) (row : string)
  : res (nat * nat * string) :=
  if Nat.eqb i next_row then
    match n with
    | 0 => Err IndexError
    | S n =>
        let* next_row := py_nth ptrs (Z.of_nat (row_index + 2)) in
        let* row := py_nth id2row (Z.of_nat (row_index + 1)) in
        advance n ptrs id2row i (row_index + 1) next_row row
    end
  else Ok (row_index, next_row, row).
Definition cell_text (r c : string) (x : F) : string := (r ++ tabs ++ c ++ tabs ++ ffmt x ++ nl)%string.
(** io_utils.py:265-271: one stored value *)
Definition sparse_cell (c : csr) (id2row id2col : list string) (st : string * (nat * nat * string)) (i : nat)
  : res (string * (nat * nat * string)) :=
  let '(out, (row_index, next_row, row)) := st in
  let* (row_index, next_row, row) := advance (length (s_ptr c)) (s_ptr c) id2row i row_index next_row row in
  let* ci := py_nth (s_ind c) (Z.of_nat i) in
  let* col := py_nth id2col (Z.of_nat ci) in
  let* x := py_nth (s_data c) (Z.of_nat i) in
  Ok ((out ++ cell_text row col x)%string, (row_index, next_row, row)).
(** io_utils.py:249-276 (print_cooc_mat_sparse_format) *)
Definition sparse_text (m : matrix) (id2row id2col : list string) : res string :=
  let* _ := check (negb (Nat.eqb (length id2col) 0)) ValueError in
  match m with
  | MS c =>
      let* next_row := py_nth (s_ptr c) 1%Z in
      let* row := py_nth id2row 0%Z in
      let* (out, _) := foldM (sparse_cell c id2row id2col) (seq 0 (length (s_data c))) ("", (0, next_row, row)) in
      Ok out
  | MD d =>
      foldM (fun out i => foldM (fun out j =>
               if feqb (dent d i j) f0 then Ok out
               else
                 let* r := py_nth id2row (Z.of_nat i) in
                 let* c := py_nth id2col (Z.of_nat j) in
                 Ok (out ++ cell_text r c (dent d i j))%string) (seq 0 (d_nc d)) out)
            (seq 0 (d_nr d)) ""
  end.
(** io_utils.py:279-286 (print_cooc_mat_dense_format) *)
Definition dense_row_text (m : matrix) (ir : nat * string) : res string :=
  let* r := m_get_row m (Z.of_nat (fst ir)) in
  let v := map (fun j => ment r 0 j) (seq 0 (m_nc r)) in
  Ok (join tabs (snd ir :: map frepr v) ++ nl)%string.
Definition dense_text (m : matrix) (id2row : list string) : res string :=
  let* ls := mapM (dense_row_text m) (combine (seq 0 (length id2row)) id2row) in
  Ok (String.concat "" ls).

(** ** Space.export (space.py:544-596) *)
(** space.py:588-596 (_export_row_column) *)
Definition export_row_column (fs : fsys) (s : space) (prefix : string) : res fsys :=
  let* fs := (match s_col2id s with
              | [] => Ok fs
              | _ => write_file fs (prefix ++ ".cols")%string (Text (list_text (s_id2col s))) end) in
  write_file fs (prefix ++ ".rows")%string (Text (list_text (s_id2row s))).
(** space.py:544-586 (export): only when a format is given is the matrix written *)
Definition export (fs : fsys) (s : space) (prefix : string) (format : option string) : res fsys :=
  let* fs := create_parent_directories fs prefix in
  let* fs := (match format with
              | None => Ok fs
              | Some f =>
                  if String.eqb f "dm" then
                    let* t := dense_text (s_mat s) (s_id2row s) in write_file fs (prefix ++ ".dm")%string (Text t)
                  else if String.eqb f "sm" then
                    let* t := sparse_text (s_mat s) (s_id2row s) (s_id2col s) in write_file fs (prefix ++ ".sm")%string (Text t)
                  else Err ValueError
              end) in
  export_row_column fs s prefix.

(** ** Space.build (space.py:475-542); None stands for a missing keyword (rows and cols also for the value None) *)
Definition read_index (fs : fsys) (p : string) : res (list string * dict Z) :=
  let* t := read_text fs p in extract_indexing0 t.
Definition build (fs : fsys) (data format rows cols : option string) : res space :=
  match data with
  | None => Err ValueError
  | Some data_file =>
      match format with
      | None => Err ValueError
      | Some fmt =>
          let* _ := check (String.eqb fmt "dm" || String.eqb fmt "sm") ValueError in
          let* ri := (match rows with Some p => let* x := read_index fs p in Ok (Some x) | None => Ok None end) in
          let* ci := (match cols with
                      | Some p => let* x := read_index fs p in Ok (Some x)
                      | None => if String.eqb fmt "sm" then Err ValueError else Ok None end) in
          let* (id2row, row2id) := (match ri with Some x => Ok x | None => read_index fs data_file end) in
          let* t := read_text fs data_file in
          let* mat := (if String.eqb fmt "sm"
                       then read_sparse_space_data t row2id (match ci with Some (_, c) => c | None => [] end)
                       else read_dense_space_data t row2id) in
          let* _ := check (match ci with Some (l, _) => Nat.eqb (length l) 0 || Nat.eqb (length l) (m_nc mat) | None => true end) ValueError in
          let '(id2col, col2id) := match ci with Some x => x | None => ([], []) end in
          mk_space mat id2row id2col (Some row2id) (Some col2id) [] None
      end
  end.
End IO.
