(** Models of harmonic_summation.py and clenshaw_summation.py.  Exact real
    arithmetic; numpy's ifft is its defining sum.  Coefficients are rank-2 arrays. *)
From Coq Require Import Reals Lra String.
From Verif Require Import Base UnitsModel GaussModel Arr LegendreModel.
Close Scope Z_scope.
Open Scope R_scope.

(** np.sum / np.dot over an index range *)
Fixpoint sumn (n : nat) (f : nat -> R) : R := match n with O => 0 | S k => sumn k f + f k end.

Definition deg (x : R) : R := x * PI / 180.
Definition colat (lat : R) : R := (90 - lat) * PI / 180.

(** ** degree dependent factors, shared code
    (clenshaw_summation.py 136-155, harmonic_summation.py 251-270) *)
Inductive unit_arg := UCustom (l : list R) | UName (s : string) | UCode (z : Z) | UOther.
Definition degree_factor (lm : nat) (U : unit_arg) (LOVE : option (list R * list R * list R)) : res (list R) :=
  let named := fun k : res string =>
    match LOVE with
    | None => Err TypeError                                       (* *None *)
    | Some (h, kk, l) =>
        do u <- harmonic h kk l true false (units_init (Some lm) a_default flat_default);
        do name <- k;
        do v <- UnitsModel.get u name;
        match v with Some d => Ok d | None => Err TypeError end
    end in
  match U with
  | UCustom l => Ok l
  | UName s => named (Ok s)
  | UCode z => named (bycode z)
  | UOther => Err ValueError
  end.
Definition smoothing (RAD : R) (lm : nat) : res (list R) :=
  if Req_EM_T RAD 0 then Ok (repeat 1 (lm + 1))
  else do w <- gauss_weights RAD lm cut_default; Ok (map (fun x => 2 * PI * x) w).

(** ** harmonic_summation.py 51-122 *)
(** clm[LMIN:LMAX+1,mm] = clm1[LMIN:LMAX+1,mm] (99-104): column indices beyond the
    array raise; too few rows raise, except that one single row is broadcast *)
Definition load_block (c1 : arr R) (LMIN LMAX MMAX : nat) : res (nat -> nat -> R) :=
  let avail := (Nat.min (rows c1) (LMAX + 1) - LMIN)%nat in
  let need := (LMAX + 1 - LMIN)%nat in
  if (cols c1 <? MMAX + 1)%nat then Err IndexError
  else if (avail =? need)%nat then
    Ok (fun l m => if ((LMIN <=? l) && (l <=? LMAX) && (m <=? MMAX))%nat then get c1 l m 0 else 0)
  else if (avail =? 1)%nat then
    Ok (fun l m => if ((LMIN <=? l) && (l <=? LMAX) && (m <=? MMAX))%nat then get c1 LMIN m 0 else 0)
  else Err ValueError.
(** PLM[:,mm,k] (106-111): a given PLM must have LMAX+1 rows (broadcasting of a
    one-row PLM is not modelled), at least MMAX+1 columns and a slice per latitude *)
Definition check_plm (P : arr R) (LMAX MMAX nth : nat) : res unit :=
  if (cols P <? MMAX + 1)%nat || (nslice P <? nth)%nat then Err IndexError
  else if (rows P =? LMAX + 1)%nat then Ok tt else Err ValueError.
Definition eff_lmax (LMAX : nat) (c1 : arr R) : nat := if (LMAX =? 0)%nat then (rows c1 - 1)%nat else LMAX.

Definition harmonic_summation (c1 s1 : arr R) (lon lat : list R) (LMIN LMAX : nat) (MMAX : option nat) (PLM : option (arr R))
  : res (list (list R)) :=
  let LMAX := eff_lmax LMAX c1 in
  let MM := upto_order MMAX LMAX in
  if (List.length lon =? 1)%nat then Err IndexError                (* squeeze gives a scalar: [newaxis,:] *)
  else if (List.length lat =? 1)%nat then Err TypeError            (* len() of a scalar *)
  else
  do P <- match PLM with Some P => Ok P | None => do pd <- plm_holmes LMAX (map (fun x => cos (colat x)) lat) None; Ok (fst pd) end;
  do clm <- load_block c1 LMIN LMAX MM;
  do slm <- load_block s1 LMIN LMAX MM;
  do _ <- check_plm P LMAX MM (List.length lat);
  let d_cos := fun m k => sumn (LMAX + 1) (fun l => get P l m k * clm l m) in
  let d_sin := fun m k => sumn (LMAX + 1) (fun l => get P l m k * slm l m) in
  Ok (map (fun x => map (fun k =>
        sumn (MM + 1) (fun m => cos (INR m * deg x) * d_cos m k) + sumn (MM + 1) (fun m => sin (INR m * deg x) * d_sin m k))
      (seq 0 (List.length lat))) lon).

(** ** harmonic_summation.py 124-195.  The two assertions on lon are represented by
    the argument [lon_ok]; [n] is the number of longitudes.  Only the case
    MMAX <= LMAX is modelled; [Ylms] is kept as (real, imaginary) parts. *)
(** np.fft.ifft(a, n): zero padding or cropping to n, then (1/n) sum a_m e^(2 pi i j m / n); real part *)
Definition ifft_re (re im : nat -> R) (len n j : nat) : R :=
  / INR n * sumn (Nat.min len n) (fun m => re m * cos (2 * PI * INR j * INR m / INR n) - im m * sin (2 * PI * INR j * INR m / INR n)).
Definition harmonic_transform (c1 s1 : arr R) (lon_ok : bool) (n : nat) (lat : list R) (LMIN LMAX : nat) (MMAX : option nat) (PLM : option (arr R))
  : res (list (list R)) :=
  let LMAX := eff_lmax LMAX c1 in
  let MM := upto_order MMAX LMAX in
  if negb lon_ok then Err AssertionErr
  else if (n =? 1)%nat then Err TypeError
  else if (List.length lat =? 1)%nat then Err TypeError
  else
  do P <- match PLM with Some P => Ok P | None => do pd <- plm_holmes LMAX (map (fun x => cos (colat x)) lat) None; Ok (fst pd) end;
  do clm <- (if (cols c1 <? MM + 1)%nat then Err ValueError else load_block c1 LMIN LMAX MM);
  do slm <- (if (cols s1 <? MM + 1)%nat then Err ValueError else load_block s1 LMIN LMAX MM);
  (* PLM[:,:,k]*Ylms[:,:] needs equal shapes; a mismatch raises *)
  do _ <- (if (List.length lat =? 0)%nat then Ok tt else if (cols P =? MM + 1)%nat && (rows P =? LMAX + 1)%nat then
             (if (nslice P <? List.length lat)%nat then Err IndexError else Ok tt) else Err ValueError);
  let re := fun k m => sumn (LMAX + 1) (fun l => get P l m k * clm l m) / 2 in
  let im := fun k m => sumn (LMAX + 1) (fun l => get P l m k * - slm l m) / 2 in
  let row := fun j => map (fun k => 2 * INR (n - 1) * ifft_re (re k) (im k) (MM + 1) (n - 1) j) (seq 0 (List.length lat)) in
  Ok (map row (seq 0 (n - 1)) ++ [row 0%nat])%list.

(** ** harmonic_summation.py 197-283 *)
Definition stokes_summation (c1 s1 : arr R) (lon lat : list R) (LMIN LMAX : nat) (MMAX : option nat) (RAD : R) (U : unit_arg)
  (LOVE : option (list R * list R * list R)) (PLM : option (arr R)) : res (list (list R)) :=
  let LMAX := eff_lmax LMAX c1 in
  let MM := upto_order MMAX LMAX in
  do wl <- smoothing RAD LMAX;
  do df <- degree_factor LMAX U LOVE;
  if (List.length df <? LMAX + 1)%nat then Err IndexError
  else if ((rows c1 <? LMAX + 1) || (cols c1 <? MM + 1) || (rows s1 <? LMAX + 1) || (cols s1 <? MM + 1))%nat then Err IndexError
  else
  let sc := fun a : arr R => mkarr (LMAX + 1) (MM + 1) None (fun l m t => nth l wl 0 * nth l df 0 * get a l m 0) in
  harmonic_summation (sc c1) (sc s1) lon lat LMIN LMAX (Some MM) PLM.

(** ** clenshaw_summation.py 190-269, one point; [f] are the degree factors *)
Definition clen_a (l m : R) : R := sqrt ((2 * l - 1) * (2 * l + 1) / ((l - m) * (l + m))).
Definition clenshaw_s_m (t : R) (f : nat -> R) (m : nat) (c1 s1 : nat -> nat -> R) (lmax : nat) (SC : R) : R * R :=
  let c := fun l k => SC * c1 l k in
  let s := fun l k => SC * s1 l k in
  let lm := INR lmax in
  let mm := INR m in
  let '(sc, ss) :=
    if (m =? lmax)%nat then (f lmax * c lmax lmax, f lmax * s lmax lmax)
    else if (S m =? lmax)%nat then
      let a := sqrt ((2 * lm - 1) * (2 * lm + 1) / ((lm - mm) * (lm + mm))) * t in
      (a * f lmax * c lmax (lmax - 1)%nat + f (lmax - 1)%nat * c (lmax - 1)%nat (lmax - 1)%nat,
       a * f lmax * s lmax (lmax - 1)%nat + f (lmax - 1)%nat * s (lmax - 1)%nat (lmax - 1)%nat)
    else if (1 <=? m)%nat then
      let a := sqrt ((2 * lm - 1) * (2 * lm + 1) / ((lm - mm) * (lm + mm))) * t in
      let c2 := f lmax * c lmax m in
      let s2 := f lmax * s lmax m in
      let c1 := a * c2 + f (lmax - 1)%nat * c (lmax - 1)%nat m in
      let s1 := a * s2 + f (lmax - 1)%nat * s (lmax - 1)%nat m in
      let '(c1, c2, s1, s2) := fold_left (fun '(c1, c2, s1, s2) l =>
          let ll := INR l in
          let a := sqrt ((2 * ll + 1) * (2 * ll + 3) / ((ll + 1 - mm) * (ll + 1 + mm))) * t in
          let b := sqrt ((2 * ll + 5) * (ll + mm + 1) * (ll - mm + 1) / ((ll + 2 - mm) * (ll + 2 + mm) * (2 * ll + 1))) in
          (a * c1 - b * c2 + f l * c l m, c1, a * s1 - b * s2 + f l * s l m, s1)) (rev (seq m (lmax - 1 - m))) (c1, c2, s1, s2) in
      (c1, s1)
    else
      let a := sqrt ((2 * lm - 1) * (2 * lm + 1) / (lm * lm)) * t in
      let c2 := f lmax * c lmax 0%nat in
      let c1 := a * c2 + f (lmax - 1)%nat * c (lmax - 1)%nat 0%nat in
      let '(c1, c2) := fold_left (fun '(c1, c2) l =>
          let ll := INR l in
          let a := sqrt ((2 * ll + 1) * (2 * ll + 3) / ((ll + 1) * (ll + 1))) * t in
          let b := sqrt ((2 * ll + 5) * (ll + 1) * (ll + 1) / ((ll + 2) * (ll + 2) * (2 * ll + 1))) in
          (a * c1 - b * c2 + f l * c l 0%nat, c1)) (rev (seq m (lmax - 1 - m))) (c1, c2) in
      (c1, 0) in
  (sc / SC, ss / SC).

(** clenshaw_summation.py 157-184, one point *)
Definition clenshaw_point (th phi : R) (f : nat -> R) (c s : nat -> nat -> R) (LMAX : nat) (SC : R) : R :=
  let t := cos th in
  let u := sin th in
  let smc := fun m => clenshaw_s_m t f m c s LMAX SC in
  let cos2 := 2 * cos phi in
  let cphi := st1 (st1 (fun _ => 0) (LMAX + 1) (cos (INR (LMAX + 1) * phi))) LMAX (cos (INR LMAX * phi)) in
  let sphi := st1 (st1 (fun _ => 0) (LMAX + 1) (sin (INR (LMAX + 1) * phi))) LMAX (sin (INR LMAX * phi)) in
  let sm := fst (smc LMAX) * cphi LMAX + snd (smc LMAX) * sphi LMAX in
  let '(sm, _, _) := fold_left (fun '(sm, cphi, sphi) m =>
      let cphi := st1 cphi m (cos2 * cphi (m + 1)%nat - cphi (m + 2)%nat) in
      let sphi := st1 sphi m (cos2 * sphi (m + 1)%nat - sphi (m + 2)%nat) in
      let a := sqrt ((2 * INR m + 3) / (2 * INR m + 2)) in
      (a * u * sm + fst (smc m) * cphi m + snd (smc m) * sphi m, cphi, sphi)) (rev (seq 1 (LMAX - 1))) (sm, cphi, sphi) in
  sqrt 3 * u * sm + fst (smc 0%nat).

(** elementwise product of two 1-d arrays, with broadcasting of a single element *)
Definition np_mul1 (a b : list R) : res (list R) :=
  if (List.length a =? List.length b)%nat then Ok (map (fun '(x, y) => x * y) (combine a b))
  else match a, b with
       | [x], _ => Ok (map (fun y => x * y) b)
       | _, [y] => Ok (map (fun x => x * y) a)
       | _, _ => Err ValueError
       end.
(** clenshaw_summation.py 72-186 *)
Definition clenshaw_summation (c1 s1 : arr R) (lon lat : list R) (RAD : R) (U : unit_arg) (LMAX : nat)
  (LOVE : option (list R * list R * list R)) (SC : R) : res (list R) :=
  if negb (List.length lat =? List.length lon)%nat then Err ValueError else
  do wl <- smoothing RAD LMAX;
  do df <- degree_factor LMAX U LOVE;
  do f <- np_mul1 df wl;
  if (List.length f <? LMAX + 1)%nat then Err IndexError
  else if ((rows c1 <? LMAX + 1) || (cols c1 <? LMAX + 1) || (rows s1 <? LMAX + 1) || (cols s1 <? LMAX + 1))%nat then Err IndexError
  else Ok (map (fun '(x, y) => clenshaw_point (colat y) (deg x) (fun l => nth l f 0) (fun l m => get c1 l m 0) (fun l m => get s1 l m 0) LMAX SC)
             (combine lon lat)).
