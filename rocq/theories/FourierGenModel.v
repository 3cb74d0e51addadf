(** Model of gravity_toolkit/gen_harmonics.py with METHOD='fourier' (69-125, 226-401).  Exact real arithmetic. *)
From Coq Require Import Reals List Bool Arith.
From Verif Require Import Base SummationModel FourierLegModel LegendreModel Arr HarmModel GenModel.
Import ListNotations.
Close Scope Z_scope.
Open Scope R_scope.

(** np.isclose(a, b) with the default tolerances (287, 307): atol = 1e-8, rtol = 1e-5 *)
Definition isclose (a b : R) : bool := if Rle_dec (Rabs (a - b)) (1 / 10 ^ 8 + 1 / 10 ^ 5 * Rabs b) then true else false.

(** 266-277: the Fourier coefficients of the data in longitude, [d i j] the value at longitude i and latitude j *)
Definition lon_coef (trig : R -> R) (phi : list R) (d : nat -> nat -> R) (m j : nat) : R :=
  (if (m =? 0)%nat then 1 else 2) * sumn (List.length phi) (fun i => trig (INR m * nth i phi 0) * d i j) / INR (List.length phi).
(** cosines for even orders, sines for odd orders (290-293, 309-312); orders above MMAX are not used *)
Definition tri (m : nat) (x : R) : R := if Nat.even m then cos x else sin x.
(** 287-306: a grid from pole to pole.  The end points are multiplied by [n] (297-304) *)
Definition theta_poles (theta : list R) (D : nat -> nat -> R) (m n : nat) : R :=
  2 * sumn (List.length theta - 2) (fun j => D m (S j) * tri m (INR n * nth (S j) theta 0))
  + (D m 0%nat * tri m (nth 0 theta 0) + D m (List.length theta - 1)%nat * tri m (nth (List.length theta - 1) theta 0)) * INR n.
(** 307-312: a grid without the poles *)
Definition theta_inner (theta : list R) (D : nat -> nat -> R) (m n : nat) : R :=
  2 * sumn (List.length theta) (fun j => D m j * tri m (INR n * nth j theta 0)).
(** 317-328: normalisation *)
Definition theta_norm (phi theta : list R) (t : nat -> nat -> R) (m n : nat) : R :=
  let delphi := Rabs (nth 1 phi 0 - nth 0 phi 0) in
  let deltheta := Rabs (nth 1 theta 0 - nth 0 theta 0) in
  let norm := INR (List.length phi) * delphi / (2 * PI) * INR (List.length theta) * deltheta / PI in
  (if (n =? 0)%nat then t m n / (2 * INR (List.length theta)) else t m n / INR (List.length theta)) * norm.
(** 351-354, 356-359 (s = 1) and 374-377, 379-382 (s = -1): k_even, k_odd *)
Definition kmat (s : R) (j n : nat) : R := 1 / 2 * dtemp s j n.
(** 361-371, 384-394: degree l of order m.  The sums run over the harmonics of the parity of the degree, up to MMAX
    (MMAX is even); degree 0 is left out for odd orders, and the degree LMAX when it is odd *)
Definition coef_sum (LMAX MMAX : nat) (p : tbl) (t : nat -> nat -> R) (l m : nat) : R :=
  let q := Nat.modulo l 2 in
  let s := if Nat.even m then 1 else -1 in
  if (l <=? LMAX)%nat && (m <=? MMAX)%nat && negb (Nat.odd l && (l =? LMAX)%nat) && negb (Nat.odd m && (l =? 0)%nat)
  then suml (cols_of q MMAX) (fun k => t m k * suml (cols_of q MMAX) (fun j => p l m j * kmat s j k))
  else 0.

(** 69-125 and 226-401.  [PLM]: None for the default 0, otherwise an array of the shape returned by fourier_legendre.
    np.squeeze turns a single longitude or latitude into a scalar (IndexError); the loops of lines 351 and 374 index
    column (MMAX+1)/2 of a matrix with as many columns when MMAX is odd, and those of 361 and 384 index order MMAX of
    the table.  An empty list of longitudes is an IndexError here whatever the latitudes are. *)
Definition gen_fourier (data0 : arr R) (lon lat : list R) (LMAX : nat) (MMAX : option nat) (PLM : option tbl) : res harm :=
  let MM := upto_order MMAX LMAX in
  let nlat := List.length lat in
  let data := oriented data0 nlat in
  let phi := map deg lon in
  let theta := map colat lat in
  let d := fun i j => get data i j 0 in
  if (List.length lon =? 1)%nat then Err IndexError
  else if negb (rows data =? List.length lon)%nat then Err ValueError
  else if (nlat <? 2)%nat || (List.length lon <? 2)%nat then Err IndexError
  else
  let c0 := isclose (nth 0 theta 0) 0 in
  let c1 := isclose (nth (nlat - 1) theta 0) PI in
  do theta_of <-
    (if c0 && c1 then
       if (cols data + 1 =? nlat)%nat then Err IndexError
       else if (cols data <? nlat)%nat then Err ValueError else Ok theta_poles
     else if negb (c0 || c1) then (if (cols data =? nlat)%nat then Ok theta_inner else Err ValueError)
     else Err ValueError);
  do p <- (match PLM with Some p => Ok p | None => fourier_legendre LMAX MM end);
  if Nat.odd MM || (LMAX <? MM)%nat then Err IndexError
  else
  let coef := fun trig => mkarr (LMAX + 1) (MM + 1) None (fun l m _ =>
    coef_sum LMAX MM p (theta_norm phi theta (theta_of theta (lon_coef trig phi d))) l m
    / (if (m =? 0)%nat then 2 else 4)) in
  Ok (mkharm LMAX MM (coef cos) (coef sin) TNone TNone).
