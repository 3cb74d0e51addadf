(** Models of fourier_legendre.py: legendre_gradient (214-291) and harmonic_gradients.py: harmonic_gradients (47-157),
    geostrophic_currents (159-282).  Exact real arithmetic. *)
From Coq Require Import Reals List Bool Arith.
From Verif Require Import Base UnitsModel SummationModel FourierLegModel LegendreModel Arr.
Import ListNotations.
Close Scope Z_scope.
Close Scope string_scope.
Open Scope R_scope.

(** ** fourier_legendre.py 214-291, entry by entry (the assignments of each entry in the order of the code) *)
(** 241-250: the terms of order m+1 *)
Definition v_plus (p : tbl) (l m n : nat) : R :=
  if (m =? 0)%nat then 2 * (sqrt ((INR l + 1) * INR l / 2) * p l 1%nat n)
  else if (2 <=? l)%nat && (m <? l)%nat then sqrt ((INR l + INR m + 1) * (INR l - INR m) / 4) * p l (m + 1)%nat n
  else 0.
(** 253-259: the terms of order m-1 *)
Definition v_minus (p : tbl) (l m n : nat) : R :=
  if (m =? 1)%nat then sqrt ((INR l + 1) * INR l / 2) * p l 0%nat n
  else if (2 <=? m)%nat && (m <=? l)%nat then sqrt ((INR l + INR m) * (INR l - INR m + 1) / 4) * p l (m - 1)%nat n
  else 0.
(** 260-262 and 289 *)
Definition vlm_of (lmax : nat) (p : tbl) : tbl := fun l m n =>
  if (1 <=? l)%nat && (l <=? lmax)%nat && (m <=? l)%nat
  then (v_plus p l m n - v_minus p l m n) / sqrt ((INR l + 1) * INR l) / (if (m =? 0)%nat then 2 else 1)
  else 0.
(** 265-271: the terms of order m+1, taken from degree l (not l-1) *)
Definition w_plus (p : tbl) (l m n : nat) : R :=
  if (2 <=? l)%nat && (1 <=? m)%nat && (m <? l)%nat
  then sqrt ((2 * INR l + 1) / (2 * INR l - 1)) * (sqrt ((INR l - INR m - 1) * (INR l - INR m) / 4) * p l (m + 1)%nat n)
  else 0.
(** 275-285: the terms of order m-1; the factor of orders above one is sqrt(..)/4 *)
Definition w_minus (p : tbl) (l m n : nat) : R :=
  if (m =? 1)%nat then sqrt ((2 * INR l + 1) / (2 * INR l - 1)) * sqrt (INR l * (INR l + 1) / 2) * p (l - 1)%nat 0%nat n
  else if (2 <=? m)%nat && (m <=? l)%nat
  then sqrt ((2 * INR l + 1) / (2 * INR l - 1)) * (sqrt ((INR l + INR m) * (INR l + INR m - 1)) / 4 * p (l - 1)%nat (m - 1)%nat n)
  else 0.
(** 286-288 *)
Definition wlm_of (lmax : nat) (p : tbl) : tbl := fun l m n =>
  if (1 <=? l)%nat && (l <=? lmax)%nat && (1 <=? m)%nat && (m <=? l)%nat then (w_plus p l m n + w_minus p l m n) / sqrt ((INR l + 1) * INR l) else 0.
Definition legendre_gradient (lmax mmax : nat) : res (tbl * tbl) :=
  do p <- fourier_legendre lmax mmax; Ok (vlm_of lmax p, wlm_of lmax p).

(** ** harmonic_gradients.py 47-157.  The two components, indexed by longitude and latitude.
    dlm[l,:,0] = ... (107) needs as many orders as degrees, except that a single order is broadcast; MMAX below 4 already fails
    in fourier_legendre.  The harmonics of even orders are summed with sines, those of odd orders with cosines;
    m_odd (111) reaches MMAX - 1, MMAX is even here. *)
Definition trc (m : nat) (x : R) : R := if Nat.even m then sin x else cos x.
Definition grad_sum (LMAX MM : nat) (f : tbl) (cf sf : nat -> nat -> R) (th phi : R) : R :=
  sumn (MM + 1) (fun m =>
    let part := fun a : nat -> nat -> R => sumn (LMAX + 1) (fun n => sumn (LMAX + 1) (fun l => f l m n * (- a l m * sqrt ((INR l + 1) * INR l))) * trc m (INR n * th)) in
    cos (INR m * phi) * part sf + sin (INR m * phi) * - part cf).
Definition harmonic_gradients (c1 s1 : arr R) (lon lat : list R) (LMIN LMAX0 : nat) (MMAX : option nat) : res (arr R * arr R) :=
  let LMAX := eff_lmax LMAX0 c1 in
  let MM := upto_order MMAX LMAX in
  if (List.length lon =? 1)%nat then Err IndexError
  else if (List.length lat =? 1)%nat then Err TypeError
  else
  do c <- load_block c1 LMIN LMAX MM;
  do s <- load_block s1 LMIN LMAX MM;
  do vw <- legendre_gradient LMAX MM;
  if negb (MM =? LMAX)%nat then Err ValueError
  else
  let out := fun f => mkarr (List.length lon) (List.length lat) None (fun i j _ => grad_sum LMAX MM f c s (colat (nth j lat 0)) (deg (nth i lon 0))) in
  Ok (out (snd vw), out (fst vw)).

(** ** harmonic_gradients.py 159-282 *)
(** units.py 79 *)
Definition omega_e : R := 7292115 / 10 ^ 11.
(** 223-224; DENSITY = 0 (ZeroDivisionError) is not modelled *)
Definition current_scale (LMAX : nat) (DENSITY : R) : R := g_wmo * rho_e (units_init (Some LMAX) a_default flat_default) / (6 * omega_e * DENSITY).
(** 234-242: component 0 of degree l and order m from the coefficients [a]; [k] the load Love numbers *)
Definition current0 (LMAX MM : nat) (coeff : R) (wl k : list R) (a : nat -> nat -> R) (l m : nat) : R :=
  let L := INR l in let M := INR m in
  let temp1 := (L - 1) / (1 + nth (l - 1) k 0) * sqrt ((L ^ 2 - M ^ 2) * (2 * L - 1) / (2 * L + 1)) in
  let temp2 := (L + 2) / (1 + nth (l + 1) k 0) * sqrt (((L + 1) ^ 2 - M ^ 2) * (2 * L + 3) / (2 * L + 1)) in
  if (1 <=? l)%nat && (l <? LMAX)%nat && (m <=? Nat.min l MM)%nat
  then coeff * nth l wl 0 * (temp1 * a (l - 1)%nat m - temp2 * a (l + 1)%nat m) else 0.
(** 244-249: component 1; [sg] is -1 for the cosine coefficients (from the sines) and 1 for the sine coefficients *)
Definition current1 (LMAX MM : nat) (coeff : R) (wl k : list R) (sg : R) (a : nat -> nat -> R) (l m : nat) : R :=
  if (l <=? LMAX)%nat && (m <=? Nat.min l MM)%nat then sg * coeff * nth l wl 0 * (INR m * (2 * INR l + 1) / (1 + nth l k 0)) * a l m else 0.
(** 253-255 assign the slices from LMIN to themselves: LMIN is not used.  258-282 *)
Definition current_at (LMAX MM : nat) (P : arr R) (j : nat) (th phi : R) (c s : nat -> nat -> R) : R :=
  let temp := 1 / (cos th * sin th) in
  sumn (MM + 1) (fun m => cos (INR m * phi) * (temp * sumn (LMAX + 1) (fun l => get P l m j * c l m)))
  + sumn (MM + 1) (fun m => sin (INR m * phi) * (temp * sumn (LMAX + 1) (fun l => get P l m j * s l m))).
Definition geostrophic_currents (c1 s1 : arr R) (lon lat : list R) (LMIN LMAX0 : nat) (MMAX : option nat) (RAD DENSITY : R)
  (LOVE : option (list R * list R * list R)) (PLM : option (arr R)) : res (arr R * arr R) :=
  let LMAX := eff_lmax LMAX0 c1 in
  let MM := upto_order MMAX LMAX in
  if (List.length lon =? 1)%nat then Err IndexError
  else if (List.length lat =? 1)%nat then Err TypeError
  else
  do wl <- smoothing RAD LMAX;
  match LOVE with
  | None => Err TypeError
  | Some (h, k, ll) =>
    do _ <- harmonic h k ll true false (units_init (Some LMAX) a_default flat_default);
    let coeff := current_scale LMAX DENSITY in
    do P <- match PLM with Some P => Ok P | None => do pd <- plm_holmes LMAX (map (fun x => cos (colat x)) lat) None; Ok (fst pd) end;
    let need := Nat.min LMAX MM in
    if (rows c1 <? LMAX + 1)%nat || (cols c1 <? need + 1)%nat || (rows s1 <? LMAX + 1)%nat || (cols s1 <? need + 1)%nat then Err IndexError
    else
    do _ <- check_plm P LMAX MM (List.length lat);
    let c := fun l m => get c1 l m 0 in
    let s := fun l m => get s1 l m 0 in
    let out := fun cc ss => mkarr (List.length lon) (List.length lat) None (fun i j _ => current_at LMAX MM P j (colat (nth j lat 0)) (deg (nth i lon 0)) cc ss) in
    Ok (out (current0 LMAX MM coeff wl k c) (current0 LMAX MM coeff wl k s),
        out (current1 LMAX MM coeff wl k (-1) s) (current1 LMAX MM coeff wl k 1 c))
  end.
