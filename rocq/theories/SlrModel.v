(** Model of the satellite laser ranging readers: gravity_toolkit/SLR/C20.py, C30.py, C40.py, C50.py,
    CS2.py, read_SLR_harmonics.py and the table reader of geocenter.from_gravis.
    A text line is its parsed content: the decimal numbers found by the regular expression (or by
    [split]), and whether it contains the markers the code searches for.  Numbers are exact rationals. *)
From Coq Require Import QArith Qround List Bool.
From Verif Require Import Base TimeModel.
Import ListNotations.
Open Scope Z_scope.

Record line := mkline {
  h_end : bool;     (** matches the last header line, "PRODUCT:" / "Product:" *)
  nums  : list Q;   (** re.findall of the numbers, in order *)
  star  : bool;     (** contains an asterisk (C20.py:399) *)
  gmark : bool      (** contains "G*" or "Gm" (C20.py:216) *)
}.
(** the dictionary returned: times, months, and for every date the values of the remaining keys, in a fixed order *)
Record slr := mkslr { s_time : list Q; s_month : list Z; s_vals : list (list Q) }.

Definition e10 : Q := 1 # (10 ^ 10)%positive.

(** C20.py:187-197 (and the same loop in the other readers): skip lines up to and including the header end *)
Fixpoint skip_header (ls : list line) : res (list line) :=
  match ls with [] => Err IndexError | l :: r => if h_end l then Ok r else skip_header r end.
Definition body (HEADER : bool) (ls : list line) : res (list line) := if HEADER then skip_header ls else Ok ls.

(** C20.py:328-334: modified Julian day to decimal year, whole hours only *)
Definition mjd_year (MJD : Q) : Q :=
  let '(YY, MM, DD, hh, _, _) := convert_julian (MJD + (4800001 # 2)) in
  convert_calendar_decimal YY MM (Some (inject_Z DD)) (Some (inject_Z hh)) None None None.

(** one dated row *)
Definition dated : Set := Q * list Q.
(** C20.py:211-229: rows of the selected lines, trimmed to the number of rows; months from the rounded time,
    then [adjust_months] (446) *)
Definition table (keep : line -> bool) (row : line -> res dated) (HEADER : bool) (ls : list line) : res (list dated) :=
  do b <- body HEADER ls; mapM row (filter keep b).
Definition with_months (month : Q -> Z) (rows : list dated) : slr :=
  mkslr (map fst rows) (adjust_months (map (fun r => month (fst r)) rows)) (map snd rows).
Definition round_month (t : Q) : Z := calendar_to_grace_round t 1.
Definition floor_month (t : Q) : Z := calendar_to_grace t 1.
Definition count_gt (n : nat) (l : line) : bool := (n <? length (nums l))%nat.
(** column [k]; a column that may be scaled by 1e-10 *)
Definition col (l : line) (k : Z) : res Q := py_get (nums l) k.

(** C20.py:216-221, 272-277: time in column 1, value in column c, error in column e *)
Definition row_year (c e : Z) (l : line) : res dated :=
  do t <- col l 1; do v <- col l c; do s <- col l e; Ok (t, [v; s * e10]%Q).
(** C20.py:326-337: modified Julian day in column 0 *)
Definition row_mjd (c e : Z) (l : line) : res dated :=
  do d <- col l 0; do v <- col l c; do s <- col l e; Ok (mjd_year d, [v; s * e10]%Q).

(** np.loadtxt with seven named columns (C20.py:159-163): every row must have that many numbers *)
Definition loadtxt (n : nat) (ls : list (list Q)) : res (list (list Q)) :=
  if forallb (fun r => Nat.eqb (length r) n) ls then Ok ls else Err ValueError.

(** np.unique: sorted distinct values *)
Fixpoint insert_u (x : Z) (l : list Z) : list Z :=
  match l with [] => [x] | y :: r => if x <? y then x :: l else if x =? y then l else y :: insert_u x r end.
Definition unique_Z (l : list Z) : list Z := fold_right insert_u [] l.

(** C20.py:348-437: one value per month, the starred one of two *)
Definition older_row (l : line) : res (Q * list Q * bool) :=
  do d <- col l 0; do v <- col l 2; do s <- col l 4; Ok (mjd_year d, [v; s * e10]%Q, star l).
Definition pick (rows : list (Q * list Q * bool)) (m : Z) : res dated :=
  let sel := filter (fun r => round_month (fst (fst r)) =? m) rows in
  match sel with
  | [r] => Ok (fst r)                                      (* count == 1 *)
  | [_; _] => match filter (fun r => snd r) sel with      (* count == 2: the flagged one; arrays of another length than 1 cannot be assigned *)
              | [r] => Ok (fst r) | _ => Err ValueError end
  | _ => Ok (0%Q, [0%Q; 0%Q])                              (* any other count: left at zero *)
  end.
Definition C20_older (HEADER : bool) (ls : list line) : res slr :=
  do b <- body HEADER ls;
  do rows <- mapM older_row (filter (count_gt 0) b);
  let months := unique_Z (map (fun r => round_month (fst (fst r))) rows) in
  do vals <- mapM (pick rows) months;
  Ok (mkslr (map fst vals) (adjust_months months) (map snd vals)).

(** C20.py:114-449; the file name selects the kind *)
Inductive c20_kind := C20_CSR | C20_GFZ | C20_GRAVIS | C20_TN | C20_OLD.
Definition C20 (k : c20_kind) (AOD HEADER : bool) (ls : list line) : res slr :=
  match k with
  | C20_CSR => (* 159-176: columns time, C20, delta, sigma, AOD, start, end; float32 rounding of the columns not modelled *)
    do rows <- loadtxt 7 (map nums ls);
    Ok (with_months floor_month (map (fun r => (nth 0 r 0, [nth 1 r 0 - (if AOD then nth 4 r 0 * e10 else 0); nth 3 r 0 * e10])%Q) rows))
  | C20_GFZ => do r <- table gmark (row_year 2 4) HEADER ls; Ok (with_months round_month r)
  | C20_GRAVIS => do r <- table (count_gt 0) (row_year 2 4) HEADER ls; Ok (with_months round_month r)
  | C20_TN => do r <- table (count_gt 0) (row_mjd 2 4) HEADER ls; Ok (with_months round_month r)
  | C20_OLD => C20_older HEADER ls
  end.

(** LARES files, C30.py:183-190: columns time and value, first row skipped.  np.loadtxt gives a 2-d array only for
    two rows or more: a single row is 1-d and [:,0] raises IndexError *)
Definition lares (mean : Q) (rows : list (list Q)) : res slr :=
  match rows with
  | _ :: ((_ :: _ :: _) as r) =>
    do d <- mapM (fun x => do t <- py_get x 0; do v <- py_get x 1; Ok (t, [e10 * v + mean; 0]%Q)) r;
    Ok (with_months floor_month d)
  | _ => Err IndexError
  end.

(** ** read_SLR_harmonics.py.  A line is the list of its numbers. *)
Definition LM : nat := 7.
Definition n_harm : nat := 19.   (** (36 + 18 - 4 - 2)//2 - 5, lines 140-142 *)
(** np.int64 of a token *)
Definition to_int (q : Q) : res Z := if (Zpos (Qden (Qred q)) =? 1) then Ok (Qnum (Qred q)) else Err ValueError.
(** index into an axis of length 7 *)
Definition idx (k : Z) : res nat :=
  let j := if k <? 0 then k + 7 else k in if (0 <=? j) && (j <? 7) then Ok (Z.to_nat j) else Err IndexError.
Definition coefs : Set := nat -> nat -> Q.
Definition czero : coefs := fun _ _ => 0%Q.
Definition cset (f : coefs) (l m : nat) (v : Q) : coefs := fun a b => if (Nat.eqb a l && Nat.eqb b m)%bool then v else f a b.
(** one coefficient line: degree, order, then [k] = columns of C, S, eC, eS *)
Record ylms := mkylms { y_c : coefs; y_s : coefs; y_ec : coefs; y_es : coefs }.
Definition yzero : ylms := mkylms czero czero czero czero.
Definition put (c s ec es : Z) (scale : Q) (y : ylms) (l : line) : res ylms :=
  do a <- col l 0; do a <- to_int a; do b <- col l 1; do b <- to_int b;
  do i <- idx a; do j <- idx b;
  do v1 <- col l c; do v2 <- col l s; do v3 <- col l ec; do v4 <- col l es;
  Ok (mkylms (cset (y_c y) i j (v1 * scale)) (cset (y_s y) i j (v2 * scale)) (cset (y_ec y) i j (v3 * scale)) (cset (y_es y) i j (v4 * scale)))%Q.
Definition foldM {A B} (f : B -> A -> res B) (l : list A) (b : B) : res B :=
  fold_left (fun r a => do x <- r; f x a) l (Ok b).
(** read_GSFC_weekly_6x1 (242-328): date line (MJD, decimal year), then 19 coefficient lines.
    The weekly file has no errors: columns 2, 3 are read twice, the error fields are dropped by the caller. *)
Record week := mkweek { w_mjd : Q; w_time : Q; w_y : ylms }.
Definition weekly_block (scale : Q) (b : list line) : res week :=
  match b with
  | [] => Err IndexError
  | d :: rows => do j <- col d 0; do t <- col d 1; do y <- foldM (put 2 3 2 3 scale) rows yzero; Ok (mkweek j t y)
  end.
(** consecutive blocks of 20 lines; an incomplete block at the end is ignored (line 296) *)
Fixpoint blocks (n : nat) (ls : list line) : list (list line) :=
  match n with O => [] | S k => firstn (n_harm + 1) ls :: blocks k (skipn (n_harm + 1) ls) end.
Definition GSFC_weekly (scale : Q) (HEADER : bool) (ls : list line) : res (list week) :=
  do b <- body HEADER ls; mapM (weekly_block scale) (blocks (length b / (n_harm + 1)) b).

(** ** convert_weekly (331-375) *)
(** lines 356-359: every week becomes seven days *)
Definition daily (t : list Q) : list Q :=
  flat_map (fun x => map (fun j => x + (inject_Z j - (7 # 2)) / (1461 # 4))%Q [0; 1; 2; 3; 4; 5; 6]) t.
Definition daily_value (d : list Q) : list Q := flat_map (fun x => repeat x 7) d.
Definition qsum (l : list Q) : Q := fold_right Qplus 0%Q l.
(** np.mean; of an empty selection it is nan (an error in the model) *)
Definition qmean (l : list Q) : res Q := match l with [] => Err OtherExn | _ => Ok (qsum l / inject_Z (Z.of_nat (length l)))%Q end.
Section Weekly.
(** np.argsort: any permutation that sorts its argument *)
Context (argsort : list Q -> list nat).
(** 365-370 *)
Definition week_at (N : nat) (tdec data : list Q) (D : Q) : res dated :=
  let isort := firstn N (argsort (map (fun x => (x - D) ^ 2)%Q tdec)) in
  do ts <- mapM (fun i => py_get tdec (Z.of_nat i)) isort; do t <- qmean ts;
  do ds <- mapM (fun i => py_get data (Z.of_nat i)) isort; do d <- qmean ds;
  Ok (t, [d]).
Definition convert_weekly (t d : list Q) (DATE : list Q) (N : nat) : res slr :=
  do r <- mapM (week_at N (daily t) (daily_value d)) DATE; Ok (with_months floor_month r).
(** CS2.py:137-184 (both weekly files), two series *)
Definition week_at2 (N : nat) (tdec c s : list Q) (D : Q) : res dated :=
  do a <- week_at N tdec c D; do b <- week_at N tdec s D;
  Ok (fst a, [hd 0 (snd a); hd 0 (snd b); 0; 0]%Q).
Definition CS2_weekly (t c s : list Q) (DATE : list Q) : res slr :=
  do r <- mapM (week_at2 28 (daily t) (daily_value c) (daily_value s)) DATE; Ok (with_months floor_month r).

(** ** C30.py:87-269, the non-CSR kinds *)
Inductive c30_kind := C30_TN14 | C30_LARES | C30_GRAVIS.
Definition C30 (k : c30_kind) (mean : Q) (HEADER : bool) (ls : list line) : res slr :=
  match k with
  | C30_TN14 => do r <- table (count_gt 7) (row_mjd 5 7) HEADER ls;
                match r with [] => Err OtherExn | _ => Ok (with_months round_month r) end   (* 176-177 *)
  | C30_LARES => lares mean (map nums ls)
  | C30_GRAVIS => do r <- table (count_gt 0) (row_year 5 7) HEADER ls; Ok (with_months round_month r)
  end.
(** C50.py:105-161 *)
Definition C50_GSFC (HEADER : bool) (ls : list line) : res slr :=
  do r <- table (count_gt 7) (row_mjd 10 12) HEADER ls;
  match r with [] => Err OtherExn | _ => Ok (with_months round_month r) end.
(** C40.py:90-97, C50.py:162-169: weekly zonal coefficient of degree l, months adjusted a second time (128, 200), zero errors *)
Definition zonal_weekly (l : nat) (HEADER : bool) (DATE : list Q) (ls : list line) : res slr :=
  do w <- GSFC_weekly 1 true ls;
  do r <- convert_weekly (map w_time w) (map (fun x => y_c (w_y x) l 0%nat) w) DATE 28;
  Ok (mkslr (s_time r) (adjust_months (s_month r)) (map (fun v => v ++ [0%Q]) (s_vals r))).

(** ** CS2.py:87-285 *)
Inductive cs2_kind := CS2_week | CS2_week5x5 | CS2_CSR | CS2_GRAVIS | CS2_other.
Definition CS2_gravis_row (l : line) : res dated :=
  do t <- col l 1; do c <- col l 8; do ec <- col l 10; do s <- col l 11; do es <- col l 13;
  Ok (t, [c; s; ec * e10; es * e10]%Q).
Definition CS2 (k : cs2_kind) (ORDER : nat) (DATE : list Q) (HEADER : bool) (ls : list line) : res slr :=
  match k with
  | CS2_week => do r <- loadtxt 3 (map nums ls);
      CS2_weekly (map (fun x => nth 0 x 0%Q) r) (map (fun x => nth 1 x 0%Q) r) (map (fun x => nth 2 x 0%Q) r) DATE
  | CS2_week5x5 => do w <- GSFC_weekly 1 true ls;
      if (6 <? ORDER)%nat then Err IndexError else
      CS2_weekly (map w_time w) (map (fun x => y_c (w_y x) 2%nat ORDER) w) (map (fun x => y_s (w_y x) 2%nat ORDER) w) DATE
  | CS2_CSR => do r <- loadtxt 9 (map nums ls);
      Ok (with_months floor_month (map (fun x => (nth 0 x 0, [nth 1 x 0 - nth 5 x 0 * e10; nth 2 x 0 - nth 6 x 0 * e10; nth 3 x 0 * e10; nth 4 x 0 * e10])%Q) r))
  | CS2_GRAVIS => do r <- table (count_gt 0) CS2_gravis_row HEADER ls; Ok (with_months round_month r)
  | CS2_other => Err KeyError        (* 282: dinput has no month *)
  end.
End Weekly.

(** geocenter.py:188-290 [from_gravis] *)
Definition gravis_row (l : line) : res dated :=
  do t <- col l 1; do a <- col l 2; do b <- col l 5; do c <- col l 8; do ea <- col l 4; do eb <- col l 7; do ec <- col l 10;
  Ok (t, [a; b; c; ea * e10; eb * e10; ec * e10]%Q).
Definition from_gravis (HEADER : bool) (ls : list line) : res slr :=
  do r <- table (count_gt 0) gravis_row HEADER ls; Ok (with_months round_month r).
