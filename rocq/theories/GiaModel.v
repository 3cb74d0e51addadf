(** Model of gravity_toolkit/read_GIA_model.py: read_GIA_model (154-658) and gia.from_GIA (685-742).
    A text line is the list of its numbers (SlrModel.line); numbers are exact rationals, an integer token is a number with
    an integer value.  Titles, citations, logging and the optional copy of the file (DATAFORM, 636-647) are not modelled,
    nor the reformatted ascii, netCDF4 and HDF5 inputs (561-586), which are harmonics files (HarmModel). *)
From Coq Require Import QArith List Bool.
From Verif Require Import Base SlrModel.
Import ListNotations.
Open Scope Z_scope.

(** the names of _known_gia_types (151), and any other value *)
Inductive gia_kind := IJ05 | W12a | SM09 | ICE6G | ICE6GD | Wu10 | AW13_ICE6G | AW13_IJ05 | Caron | GIA_other.
Record gia := mkgia { g_lmax : nat; g_cols : nat; g_c : coefs; g_s : coefs }.

(** 237, 253, 270, 285, 296, 307, 321, 335, 349, 352: LMAX if not kwargs['LMAX'] else kwargs['LMAX'] *)
Definition default_lmax (k : gia_kind) : nat :=
  match k with IJ05 => 120 | ICE6G => 60 | W12a => 120 | SM09 => 120 | Wu10 => 60 | Caron => 89 | ICE6GD => 256
             | AW13_ICE6G => 100 | AW13_IJ05 => 256 | GIA_other => 60 end.
Definition use_lmax (k : gia_kind) (LMAX : option nat) : nat :=
  match LMAX with None => default_lmax k | Some O => default_lmax k | Some n => n end.
(** 358-369 *)
Definition gia_scale (k : gia_kind) : Q := match k with IJ05 | ICE6G => 1 # (10 ^ 11)%positive | _ => 1 end.

(** index into an axis of length n (numpy wraps negative indices) *)
Definition nidx (n : nat) (k : Z) : res nat :=
  let j := if k <? 0 then k + Z.of_nat n else k in if (0 <=? j) && (j <? Z.of_nat n) then Ok (Z.to_nat j) else Err IndexError.
Definition fields : Type := coefs * coefs.
Definition fzero : fields := (czero, czero).

(** 401-415, 526-540, 543-557: one line; lines without numbers are skipped *)
Definition gia_row (LMAX : nat) (scale : Q) (y : fields) (r : line) : res fields :=
  match nums r with
  | [] => Ok y
  | _ =>
    do l1 <- col r 0; do l1 <- to_int l1; do m1 <- col r 1; do m1 <- to_int m1;
    if (l1 <=? Z.of_nat LMAX) && (m1 <=? Z.of_nat LMAX) then
      do i <- nidx (LMAX + 1) l1; do j <- nidx (LMAX + 1) m1;
      do c <- col r 2; do s <- col r 3;
      Ok (cset (fst y) i j (c * scale), cset (snd y) i j (s * scale))%Q
    else Ok y
  end.

(** 428-450: ICE6G, one line for each even order; [line] is the last line read, [ii] the number of lines read *)
Record ice := mkice { i_pos : nat; i_line : list Q; i_y : fields }.
Definition ice_step (ls : list line) (scale : Q) (l : nat) (st : ice) (m : nat) : res ice :=
  do st <- (if Nat.even m then do r <- py_get ls (Z.of_nat (i_pos st)); Ok (mkice (i_pos st + 1) (nums r) (i_y st)) else Ok st);
  let c := ((if Nat.even m then 0 else 2) + (if (m =? 0)%nat || (m =? 1)%nat then 1 else 0)) in
  match i_line st with
  | [] => Ok st
  | _ => do a <- py_get (i_line st) (0 + c); do b <- py_get (i_line st) (1 + c);
         Ok (mkice (i_pos st) (i_line st) (cset (fst (i_y st)) l m (a * scale), cset (snd (i_y st)) l m (b * scale))%Q)
  end.
Definition ice_degree (ls : list line) (scale : Q) (st : ice) (l : nat) : res ice := foldM (ice_step ls scale l) (seq 0 (l + 1)) st.
Definition ice6g (ls : list line) (scale : Q) (LMAX : nat) : res fields :=
  do st <- foldM (ice_degree ls scale) (seq 0 (LMAX + 1)) (mkice 0 [] fzero); Ok (i_y st).

(** 455-481: Wu10, one column of numbers; the state is the number of values used *)
Definition rad_e : Q := 6371000000.
Definition wu_step (d : list Q) (l : nat) (st : nat * fields) (m : nat) : res (nat * fields) :=
  let '(ii, y) := st in
  do a <- py_get d (Z.of_nat ii);
  let y := (cset (fst y) l m (a / rad_e)%Q, snd y) in
  if (m =? 0)%nat then Ok ((ii + 1)%nat, y) else
  do b <- py_get d (Z.of_nat (ii + 1));
  Ok ((ii + 2)%nat, (fst y, cset (snd y) l m (b / rad_e)%Q)).
Definition wu10 (d : list Q) (LMAX : nat) : res fields :=
  do st <- foldM (fun st l => foldM (wu_step d l) (seq 0 (l + 1)) st) (seq 1 LMAX) (0%nat, fzero); Ok (snd st).

(** 500-505: Caron, rows (l, m, value), negative orders for the sine coefficients *)
Definition caron_row (LMAX : nat) (y : fields) (r : Z * Z * Q) : res fields :=
  let '(l, m, v) := r in
  if (0 <=? m) && (l <=? Z.of_nat LMAX) && (m <=? Z.of_nat LMAX) then
    do i <- nidx (LMAX + 1) l; do j <- nidx (LMAX + 1) m; Ok (cset (fst y) i j v, snd y)
  else if (m <? 0) && (l <=? Z.of_nat LMAX) && (m <=? Z.of_nat LMAX) then
    do i <- nidx (LMAX + 1) l; do j <- nidx (LMAX + 1) (Z.abs m); Ok (fst y, cset (snd y) i j v)
  else Ok y.

Section Markers.
(** lines matching the two section titles of an ICE6G-D file (517-518) *)
Context (is_h1 is_h2 : line -> bool).
(** 520-521: i+1 for the matching lines; exactly one is required *)
Fixpoint after (f : line -> bool) (n : nat) (ls : list line) : list nat :=
  match ls with [] => [] | l :: r => (if f l then [(n + 1)%nat] else []) ++ after f (n + 1) r end.
Definition the_one (l : list nat) : res nat := match l with [x] => Ok x | _ => Err ValueError end.
Definition ice6gd (ls : list line) (LMAX : nat) : res fields :=
  do header <- the_one (after is_h1 0 ls);
  do start <- the_one (after is_h2 0 ls);
  do y <- foldM (fun y ii => do r <- py_get ls (Z.of_nat ii); gia_row LMAX 1 y r) (seq header 6) fzero;
  foldM (gia_row LMAX 1) (skipn start ls) y.

(** the file: text lines; for Wu10 the values, for Caron the rows (np.loadtxt after the header lines) *)
Record gfile := mkgfile { f_exists : bool; f_lines : list line; f_values : list Q; f_rows : list (Z * Z * Q);
                          f_name : bool (* the file name matches the pattern of the model, 590-633 *) }.
Definition gia_fields (k : gia_kind) (f : gfile) (n : nat) : res fields :=
  match k with
  | IJ05 | W12a | SM09 | AW13_ICE6G | AW13_IJ05 => foldM (gia_row n (gia_scale k)) (f_lines f) fzero
  | ICE6G => ice6g (f_lines f) (gia_scale k) n
  | Wu10 => wu10 (f_values f) n
  | Caron => foldM (caron_row n) (f_rows f) fzero
  | ICE6GD => ice6gd (f_lines f) n
  | GIA_other => Ok fzero
  end.
(** 590-633: [x, = findall] raises ValueError, [findall.pop()] IndexError *)
Definition name_check (k : gia_kind) (f : gfile) : res unit :=
  if f_name f then Ok tt else
  match k with IJ05 | ICE6G => Err ValueError | W12a | SM09 | ICE6GD | AW13_ICE6G | AW13_IJ05 => Err IndexError | _ => Ok tt end.
(** 650-655: number of columns left by [:MMAX+1] *)
Definition mmax_cols (n : nat) (MMAX : option Z) : nat :=
  match MMAX with None => n | Some m => if m + 1 <? 0 then Z.to_nat (Z.of_nat n + (m + 1)) else Nat.min n (Z.to_nat (m + 1)) end.
Definition read_GIA_model (k : gia_kind) (f : gfile) (LMAX : option nat) (MMAX : option Z) : res gia :=
  let n := use_lmax k LMAX in
  do _ <- (match k with GIA_other => Ok tt | _ => if f_exists f then Ok tt else Err FileNotFound end);
  do y <- gia_fields k f n;
  do _ <- name_check k f;
  Ok (mkgia n (mmax_cols (n + 1) MMAX) (fst y) (snd y)).

(** gia.from_GIA (685-742): [lmax] of the object; keyword mmax, and whether the keyword MMAX is given: then mmax is replaced
    by np.copy(mmax), an array, and for mmax=None the sum MMAX+1 is a TypeError.  Result: lmax, mmax, fields. *)
Definition from_GIA (lmax : option nat) (k : gia_kind) (f : gfile) (mmax : option Z) (MMAX_given : bool) : res (gia * nat * nat) :=
  if negb (f_exists f) then Err FileNotFound else      (* 715: case_insensitive_filename *)
  do g <- (match mmax, MMAX_given with
           | None, true => do _ <- read_GIA_model k f lmax None; Err TypeError
           | _, _ => read_GIA_model k f lmax mmax end);
  if (g_cols g =? 0)%nat then Err ValueError else Ok (g, g_lmax g, (g_cols g - 1)%nat).
End Markers.
