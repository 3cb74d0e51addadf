(** Models of degree_amplitude.py, gen_disc_load.py, gen_spherical_cap.py and gen_averaging_kernel.py.
    Exact real arithmetic; results are [harm] records (rank 2, no time); 0 <= MMAX <= LMAX. *)
From Coq Require Import Reals Lra.
From Verif Require Import Base UnitsModel GaussModel Arr HarmModel LegendreModel SummationModel GenModel.
Close Scope Z_scope.
Open Scope R_scope.

(** degree_amplitude.py 59-76: amp[l,t]; rows up to LMAX (default: all), np.squeeze (79) only drops axes of length one.
    Indices outside the coefficients raise; the sine array has the shape of the cosine array (otherwise it raises) *)
Definition degree_amplitude (c s : arr R) (LMAX MMAX : option nat) : res (nat * nat * (nat -> nat -> R)) :=
  let LM := match LMAX with Some k => k | None => (rows c - 1)%nat end in
  let MM := match MMAX with Some k => k | None => (cols c - 1)%nat end in
  if ((rows c <? LM + 1) || (rows s <? LM + 1) || (cols c <? MM + 1) || (cols s <? MM + 1))%nat%bool then Err IndexError
  else if negb (nslice c =? nslice s)%nat then Err ValueError
  else Ok ((LM + 1)%nat, nslice c, fun l t => sqrt (sumn (MM + 1) (fun m => get c l m t ^ 2 + get s l m t ^ 2))).

(** gen_disc_load.py 174-186, gen_spherical_cap.py 216-228: the Legendre coefficients of a cap with cosine [x] *)
Definition pl_alpha (LMAX : nat) (x : R) : res (list R) :=
  do pd <- legendre_polynomials (LMAX + 1) [x];
  let p := fun l => nth 0 (nth l (fst pd) []) 0 in
  Ok (map (fun l => match l with
                    | O => (1 - x) / 2
                    | S k => (p k / sqrt (2 * INR l - 1) - p (l + 1)%nat / sqrt (2 * INR l + 3)) / 2
                    end) (seq 0 (LMAX + 1))).
(** gen_disc_load.py 191-197, gen_spherical_cap.py 234-240: the squeezed polynomials of a single point lose an axis when
    LMAX or MMAX is zero, and plmout[l,m] (223, 266) raises *)
Definition center_plm (PLM : option (arr R)) (LMAX MM : nat) (lat : R) : res (nat -> nat -> R) :=
  match PLM with
  | Some P => if ((rows P <? LMAX + 1) || (cols P <? MM + 1))%nat%bool then Err IndexError else Ok (fun l m => get P l m 0)
  | None => do P <- holmes_or None LMAX [lat]; if ((LMAX =? 0) || (MM =? 0))%nat%bool then Err IndexError else Ok (fun l m => get P l m 0)
  end.
(** gen_disc_load.py 144-170, gen_spherical_cap.py 179-209: degree factors and conversion of the data; [gt] converts gigatonnes *)
Definition cap_units (LMAX : nat) (U : grid_units) (LOVE : option love3) (gt : R) : res (list R * R) :=
  let dfac := do d <- spatial_factors LMAX LOVE cmwe; Ok (map (fun l => 4 * PI * nth l d 0 / (1 + 2 * INR l)) (seq 0 (List.length d))) in
  match U with
  | GCustom l => Ok (l, 1)
  | GCode 1 => do d <- dfac; Ok (d, 1)
  | GCode 2 => do d <- dfac; Ok (d, gt)
  | GCode 3 => do d <- dfac; Ok (d, / 10)
  | GCode _ => Err ValueError
  end.
(** gen_disc_load.py 201-233, gen_spherical_cap.py 244-276 *)
Definition cap_load (data lon lat x : R) (LMAX MM : nat) (du : list R * R) (PLM : option (arr R)) : res harm :=
  do pa <- pl_alpha LMAX x;
  do P <- center_plm PLM LMAX MM lat;
  if (List.length (fst du) <? LMAX + 1)%nat then Err IndexError
  else
  let coef := fun trig : R -> R => mkarr (LMAX + 1) (MM + 1) None (fun l m _ =>
    if ((m <=? MM) && (m <=? l) && (l <=? LMAX))%nat
    then nth l (fst du) 0 * (P l m * nth l pa 0 * (snd du * data * trig (INR m * deg lon))) else 0) in
  Ok (mkharm LMAX MM (coef cos) (coef sin) TNone TNone).
(** gen_disc_load.py 83-233; [area] in square kilometres *)
Definition disc_cos (LMAX : nat) (area : R) : R := 1 - 10 ^ 10 * area / (2 * PI * rad_e (earth LMAX) ^ 2).
Definition gen_disc_load (data lon lat area : R) (LMAX : nat) (MMAX : option nat) (U : grid_units) (PLM : option (arr R)) (LOVE : option love3) : res harm :=
  do du <- cap_units LMAX U LOVE (10 ^ 15 / (10 ^ 10 * area));
  cap_load data lon lat (disc_cos LMAX area) LMAX (upto_order MMAX LMAX) du PLM.
(** gen_spherical_cap.py 161-176: the angular radius *)
Definition cap_radius (LMAX : nat) (AREA RAD_CAP RAD_KM : R) : res R :=
  if Req_EM_T RAD_CAP 0 then
    if Req_EM_T AREA 0 then
      if Req_EM_T RAD_KM 0 then Err ValueError else Ok (10 ^ 5 * RAD_KM / rad_e (earth LMAX))
    else Ok (sqrt (AREA / PI) / rad_e (earth LMAX))
  else Ok (deg RAD_CAP).
(** gen_spherical_cap.py 101-276 *)
Definition gen_spherical_cap (data lon lat : R) (LMAX : nat) (MMAX : option nat) (AREA RAD_CAP RAD_KM : R) (U : grid_units) (PLM : option (arr R))
  (LOVE : option love3) : res harm :=
  do alpha <- cap_radius LMAX AREA RAD_CAP RAD_KM;
  do du <- cap_units LMAX U LOVE (10 ^ 15 / (PI * (alpha * rad_e (earth LMAX)) ^ 2));
  cap_load data lon lat (cos alpha) LMAX (upto_order MMAX LMAX) du PLM.

(** ** gen_averaging_kernel.py.  118: radius in kilometres of the units class *)
Definition kernel_b (LMAX : nat) (hw : R) : R := ln 2 / (1 - cos (hw / (rad_e (earth LMAX) / 10 ^ 5))).
(** 121-140: the loop has the form of the one of gauss_weights.py *)
Definition kernel_gl (b : R) (LMAX : nat) (cut : R) : res (list R) :=
  match LMAX with
  | O => Err IndexError
  | S k => Ok (gauss_loop cut b k 2 (upd (upd (repeat 0 (LMAX + 1)) 0 ((1 - exp (-2 * b)) / b)) 1 ((1 + exp (-2 * b)) / b - (1 - exp (-2 * b)) / b ^ 2)))
  end.
(** 60-172; UNITS other than 0 and 1 leave dfactor unbound *)
Definition gen_averaging_kernel (gc gs ec es : arr R) (sigma hw : R) (LMAX : nat) (MMAX : option nat) (cut : R) (UNITS : Z) (LOVE : option love3) : res harm :=
  let MM := upto_order MMAX LMAX in
  do df <- (if (UNITS =? 0)%Z then
              match LOVE with
              | None => Err TypeError
              | Some (h, k, l) => do u <- harmonic h k l true false (earth LMAX); match cmwe u with Some d => Ok (Some d) | None => Err TypeError end
              end
            else if (UNITS =? 1)%Z then Ok (Some (repeat 1 (LMAX + 1))) else Ok None);
  let b := kernel_b LMAX hw in
  do gl <- kernel_gl b LMAX cut;
  let small := fun a : arr R => ((rows a <? LMAX + 1) || (cols a <? Nat.min MM LMAX + 1))%nat%bool in
  if (small gc || small gs)%bool then Err IndexError
  else
  let area := get gc 0 0 0 in
  let temp := sumn (LMAX + 1) (fun l => nth l gl 0 / 2 * sumn (Nat.min MM l + 1) (fun m => get gc l m 0 ^ 2 + get gs l m 0 ^ 2)) / area ^ 2 in
  let sigma0 := sigma / sqrt temp in
  match df with
  | None => Err UnboundLocalError
  | Some d =>
    if (small ec || small es)%bool then Err IndexError
    else
    let coef := fun g e : arr R => mkarr (LMAX + 1) (MM + 1) None (fun l m _ =>
      if ((l <=? LMAX) && (m <=? Nat.min MM l))%nat
      then get g l m 0 / (1 + 2 * (nth l d 0 ^ 2 / (nth l gl 0 * sigma0 ^ 2)) * get e l m 0 ^ 2) else 0) in
    scale (mkharm LMAX MM (coef gc ec) (coef gs es) TNone TNone) (SScalar (1 / area))
  end.
