(** Model of read_CSR_monthly_6x1 (gravity_toolkit/read_SLR_harmonics.py:99-239).  A line is the list of its numbers
    (SlrModel.line); errors are real numbers because of the square root. *)
From Coq Require Import QArith Qround Qreals Reals List.
From Verif Require Import Base TimeModel SlrModel.
Import ListNotations.
Open Scope Z_scope.

(** one month: modified Julian day, decimal year, coefficients and their errors *)
Record csr := mkcsr { c_mjd : Q; c_time : Q; c_c : coefs; c_s : coefs; c_ec : nat -> nat -> R; c_es : nat -> nat -> R }.

Section CSR.
(** the line "end of header", and a line of 80 equal signs *)
Context (is_end is_bar : line -> bool).
(** 145-156: number of header lines, and the line after the last bar *)
Fixpoint header (count : nat) (indice : option nat) (ls : list line) : res (nat * option nat) :=
  match ls with
  | [] => Err IndexError
  | l :: r => let i := if is_bar l then Some (count + 1)%nat else indice in
              if is_end l then Ok ((count + 1)%nat, i) else header (count + 1) i r
  end.
(** 172-182: the mean field, columns 2..5, not scaled *)
Definition mean_field (ls : list line) (indice : nat) : res ylms :=
  if (length ls <? indice + n_harm)%nat then
    (* rows up to the end of the file are read first, then file_contents[...] fails *)
    do _ <- foldM (put 2 3 4 5 1) (skipn indice ls) yzero; Err IndexError
  else foldM (put 2 3 4 5 1) (firstn n_harm (skipn indice ls)) yzero.
Definition slice (a b : nat) (l : list Q) : list Q := firstn (b - a) (skipn a l).
(** 233-236 *)
Definition quad_err (a b : coefs) : nat -> nat -> R := fun l m => sqrt (Q2R (a l m) ^ 2 + Q2R (b l m) ^ 2).
Definition cadd (a b : coefs) : coefs := fun l m => (a l m + b l m)%Q.
(** 201-236: block d *)
Definition csr_block (SCALE : Q) (mean : ylms) (d : nat) (b : list line) : res csr :=
  match b with
  | [] => Err IndexError
  | h :: rows =>
    do i <- col h 0; do i <- to_int i;
    if negb (i =? Z.of_nat (d + 1)) then Err AssertionErr else
    do mjd <- qmean (slice 5 7 (nums h));
    match slice 3 5 (nums h) with
    | [YY; MM] =>
      do yy <- to_int YY; do mm <- to_int MM;
      if negb ((1 <=? mm) && (mm <=? 12)) then Err IndexError else   (* months outside 1..12 (negative indices wrap: not modelled) *)
      do y <- foldM (put 2 3 6 7 SCALE) rows yzero;
      Ok (mkcsr mjd (convert_calendar_decimal yy mm None None None None None)
            (cadd (y_c y) (y_c mean)) (cadd (y_s y) (y_s mean)) (quad_err (y_ec y) (y_ec mean)) (quad_err (y_es y) (y_es mean)))
    | _ => Err ValueError
    end
  end.
Fixpoint csr_blocks (SCALE : Q) (mean : ylms) (d : nat) (bs : list (list line)) : res (list csr) :=
  match bs with [] => Ok [] | b :: r => do x <- csr_block SCALE mean d b; do xs <- csr_blocks SCALE mean (d + 1) r; Ok (x :: xs) end.
Definition CSR_monthly (SCALE : Q) (ls : list line) : res (list csr) :=
  do hd <- header 0 None ls;
  let '(count, indice) := hd in
  match indice with
  | None => Err OtherExn                                  (* 159-160 *)
  | Some i => do mean <- mean_field ls i;
              let b := skipn count ls in csr_blocks SCALE mean 0 (blocks (length b / (n_harm + 1)) b)
  end.
(** C30.py:246-257, C40.py:108-119, C50.py:180-191: the zonal coefficient of degree l of every month; GRACE month of the
    calendar date of the modified Julian day, then adjusted *)
Definition mjd_grace (MJD : Q) : Z :=
  let '(YY, MM, _, _, _, _) := convert_julian (MJD + (4800001 # 2)) in calendar_to_grace (inject_Z YY) MM.
Definition csr_zonal (l : nat) (ls : list line) : res (list Q * list Z * list (Q * R)) :=
  do y <- CSR_monthly e10 ls;
  Ok (map c_time y, adjust_months (map (fun x => mjd_grace (c_mjd x)) y), map (fun x => (c_c x l 0%nat, c_ec x l 0%nat)) y).
End CSR.
