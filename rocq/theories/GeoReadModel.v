(** Model of the text readers of gravity_toolkit/geocenter.py: from_AOD1B (134-186), from_SLR (292-433), from_UCI (435-520),
    from_swenson (522-614) and from_tellus (616-740).  A line is the list of its numbers (SlrModel.line), coefficients are
    real numbers.  The objects are new (no errors set before). *)
From Coq Require Import QArith Qround Qreals Reals List Bool.
From Verif Require Import Base TimeModel TimeSpec SlrModel GeoModel.
Import ListNotations.
Close Scope R_scope. Open Scope Z_scope.

(** one date of the series; the three errors in the same order *)
Record deg1 := mkdeg1 { d_time : Q; d_month : Z; d_C10 : R; d_C11 : R; d_S11 : R; d_eC10 : R; d_eC11 : R; d_eS11 : R }.
Definition set_month (d : deg1) (m : Z) : deg1 := mkdeg1 (d_time d) m (d_C10 d) (d_C11 d) (d_S11 d) (d_eC10 d) (d_eC11 d) (d_eS11 d).
(** the last statement of the readers: month = adjust_months(month) *)
Definition adjusted (l : list deg1) : list deg1 := map (fun p => set_month (fst p) (snd p)) (combine l (adjust_months (map d_month l))).

(** calendar_to_julian, convert_julian, calendar_to_grace (407-413, 595-602) *)
Definition time_month (t : Q) : res Z :=
  match calendar_to_julian t with
  | None => Err UnboundLocalError
  | Some JD => let '(YY, MM, _, _, _, _) := convert_julian JD in Ok (calendar_to_grace (inject_Z YY) MM)
  end.
Definition time_date (t : Q) : res (Z * Z) :=
  match calendar_to_julian t with
  | None => Err UnboundLocalError
  | Some JD => let '(YY, MM, _, _, _, _) := convert_julian JD in Ok (YY, MM)
  end.
(** from_cartesian with kl = 0 (998-1018) *)
Definition cart (radius : R) (x : Q) : R := ((1 + 0) * Q2R x / (radius * sqrt 3))%R.

(** ** from_AOD1B: lines (year, month, coordinates); the new object has the default radius (170-184) *)
Definition aod_line : Set := Z * Z * list Q.
Definition aod_row (year month : Z) (l : aod_line) : res (Q * Q * Q) :=
  let '(y, m, c) := l in
  if negb (y =? year) then Err AssertionErr else if negb (m =? month) then Err AssertionErr else
  match c with [x; y'; z] => Ok (x, y', z) | _ => Err ValueError end.
Definition from_AOD1B (year month : Z) (f : option (list aod_line)) : res (list (R * R * R)) :=
  match f with
  | None => Err FileNotFound
  | Some ls => do r <- mapM (aod_row year month) ls;
               Ok (map (fun p => (cart default_radius (snd p), cart default_radius (fst (fst p)), cart default_radius (snd (fst p)))) r)
  end.
(** np.mean (of an empty array: nan, an error in the model) *)
Definition rmean (l : list R) : res R := match l with [] => Err OtherExn | _ => Ok (fold_right Rplus 0 l / INR (length l))%R end.

(** ** from_SLR *)
Inductive colname := c_time' | c_X | c_Y | c_Z | c_Xs | c_Ys | c_Zs | c_other (n : nat).
Definition colname_eqb (a b : colname) : bool :=
  match a, b with c_time', c_time' | c_X, c_X | c_Y, c_Y | c_Z, c_Z | c_Xs, c_Xs | c_Ys, c_Ys | c_Zs, c_Zs => true | c_other i, c_other j => Nat.eqb i j | _, _ => false end.
(** list.index: first position, ValueError if there is none *)
Fixpoint col_index (c : colname) (l : list colname) : res nat :=
  match l with [] => Err ValueError | x :: r => if colname_eqb c x then Ok O else do k <- col_index c r; Ok (S k) end.
Definition named (cols : list colname) (l : line) (c : colname) : res Q := do k <- col_index c cols; py_get (nums l) (Z.of_nat k).
Section SLR.
Context (radius : R) (cols : list colname) (aod : option (Z -> Z -> option (list aod_line))).   (* AOD: the monthly dealiasing files *)
Definition slr_row (l : line) : res deg1 :=
  do t <- named cols l c_time';
  do x <- named cols l c_X; do y <- named cols l c_Y; do z <- named cols l c_Z;
  do ex <- named cols l c_Xs; do ey <- named cols l c_Ys; do ez <- named cols l c_Zs;
  do ym <- time_date t;
  let '(YY, MM) := ym in
  let month := calendar_to_grace (inject_Z YY) MM in
  match aod with
  | None => Ok (mkdeg1 t month (cart radius z) (cart radius x) (cart radius y) (cart radius ez) (cart radius ex) (cart radius ey))
  | Some files =>
    do a <- from_AOD1B YY MM (files YY MM);
    do m10 <- rmean (map (fun p => fst (fst p)) a); do m11 <- rmean (map (fun p => snd (fst p)) a); do s11 <- rmean (map snd a);
    Ok (mkdeg1 t month (cart radius z - m10) (cart radius x - m11) (cart radius y - s11) (cart radius ez) (cart radius ex) (cart radius ey))
  end.
(** [release]: None gives TypeError in joinpath (347); [dir]: the AOD1B directory exists (349-351), needed even without AOD *)
Definition from_SLR (release dir : bool) (HEADER : nat) (ls : list line) : res (list deg1) :=
  if negb release then Err TypeError else if negb dir then Err FileNotFound else
  if (length ls <? HEADER)%nat then Err ValueError else      (* np.zeros with a negative length *)
  do r <- mapM slr_row (skipn HEADER ls); Ok (adjusted r).
End SLR.

(** ** from_swenson: mm to cm, then from_cmwe; [h_end] marks the line with "Time" *)
Fixpoint skip_or_io (ls : list line) : res (list line) :=
  match ls with [] => Err IOErr | l :: r => if h_end l then Ok r else skip_or_io r end.
Definition cmwe (v : Q) : R := (Q2R ((1 # 10) * v) * ((1 + 0) / (rho_e * rad_e)))%R.
Definition swenson_row (l : line) : res deg1 :=
  do t <- col l 0; do a <- col l 1; do b <- col l 2; do c <- col l 3;
  do m <- (if (length (nums l) =? 5)%nat then do q <- col l 4; to_int q else time_month t);
  Ok (mkdeg1 t m (cmwe a) (cmwe b) (cmwe c) 0 0 0).
Definition from_swenson (ls : list line) : res (list deg1) :=
  do b <- skip_or_io ls; do r <- mapM swenson_row b; Ok (adjusted r).

(** ** from_UCI: [h_end] marks the end of the YAML header; the header gives for each variable the numbers in its comment *)
Definition uci_column (comment : list Q) : res Z :=
  match comment with [q] => do k <- to_int q; Ok (k - 1) | _ => Err ValueError end.
(** result: time, month (last number, not adjusted) and the values of the variables in the order of the header *)
Definition uci_row (cols : list Z) (l : line) : res (Q * Z * list Q) :=
  do t <- col l 0; do q <- col l (-1); do m <- to_int q; do v <- mapM (col l) cols; Ok (t, m, v).
Definition from_UCI (has_time has_month : bool) (comments : list (list Q)) (ls : list line) : res (list (Q * Z * list Q)) :=
  do b <- skip_or_io ls;
  if negb has_time then Err KeyError else if negb has_month then Err KeyError else
  do cols <- mapM uci_column comments;
  mapM (uci_row cols) b.

(** ** from_tellus: two lines for each month, order 0 then order 1 *)
(** strptime of the first eight (six) digits of a number: dates of the Gregorian calendar *)
Definition ymd (q : Q) : Z * Z * Z := let n := Qfloor q in (n / 10000, (n / 100) mod 100, n mod 100).
Definition strptime8 (q : Q) : res (Z * Z * Z) :=
  let '(y, m, d) := ymd q in
  if (1 <=? m) && (m <=? 12) && (1 <=? d) && (d <=? TimeSpec.month_len (TimeSpec.greg_leap y) m)
  then Ok (y, m, d) else Err ValueError.
Definition strptime6 (q : Q) : res (Z * Z) :=
  let n := Qfloor q in if (1 <=? n mod 100) && (n mod 100 <=? 12) then Ok (n / 100, n mod 100) else Err ValueError.
Definition day0 (x : Z * Z * Z) : Q := let '(y, m, d) := x in convert_calendar_decimal y m (Some (inject_Z d)) None None None None.
(** 704-729: time and month of a line *)
Definition tellus_date (JPL : bool) (l : line) : res (Q * Z) :=
  if JPL then
    do a <- col l 7; do a <- strptime8 a; do b <- col l 8; do b <- strptime8 b;
    let t := ((day0 a + day0 b) / 2)%Q in
    let year := Qfloor t in
    Ok (t, calendar_to_grace (inject_Z year) (Qfloor (12 * (t - inject_Z year) + 1)))
  else
    do a <- col l 0; do ym <- strptime6 a;
    let '(y, m) := ym in
    Ok (convert_calendar_decimal y m None None None None None, calendar_to_grace (inject_Z y) m).
Definition dzero : deg1 := mkdeg1 0 0 0 0 0 0 0 0.
(** state: index t and the arrays of length n_mon *)
Definition tellus_step (JPL : bool) (st : nat * list deg1) (l : line) : res (nat * list deg1) :=
  let '(t, a) := st in
  do q <- col l 2; do m <- to_int q;
  do d <- (if m =? 0 then
             do c <- col l 3; do d <- py_get a (Z.of_nat t); do e <- col l 5;
             Ok (mkdeg1 (d_time d) (d_month d) (Q2R c) (d_C11 d) (d_S11 d) (Q2R e) (d_eC11 d) (d_eS11 d))
           else if m =? 1 then
             do c <- col l 3; do d <- py_get a (Z.of_nat t); do s <- col l 4; do ec <- col l 5; do es <- col l 6;
             Ok (mkdeg1 (d_time d) (d_month d) (d_C10 d) (Q2R c) (Q2R s) (d_eC10 d) (Q2R ec) (Q2R es))
           else Err ValueError);
  do tm <- tellus_date JPL l;
  Ok ((t + Z.to_nat m)%nat, upd a t (mkdeg1 (fst tm) (snd tm) (d_C10 d) (d_C11 d) (d_S11 d) (d_eC10 d) (d_eC11 d) (d_eS11 d))).
Definition from_tellus (JPL : bool) (ls : list line) : res (list deg1) :=
  do b <- skip_header ls;
  do st <- foldM (tellus_step JPL) b (0%nat, repeat dzero (length b / 2));
  Ok (adjusted (snd st)).
