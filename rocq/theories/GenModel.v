(** Models of gen_stokes.py, gen_harmonics.py (integration), ocean_stokes.py and
    gen_point_load.py.  Exact real arithmetic.  Grids are rank-2 arrays, results
    are [harm] records (rank 2, no time). *)
From Coq Require Import Reals Lra String.
From Verif Require Import Base UnitsModel GaussModel Arr HarmModel LegendreModel SummationModel LegendreOneModel.
Close Scope Z_scope.
Open Scope R_scope.

(** factors.spatial (LOVE) of units(lmax=LMAX) *)
Definition love3 : Type := (list R * list R * list R)%type.
Definition earth (LMAX : nat) : units := units_init (Some LMAX) a_default flat_default.
Definition spatial_factors (LMAX : nat) (LOVE : option love3) (sel : units -> option (list R)) : res (list R) :=
  match LOVE with
  | None => Err TypeError                                        (* *None *)
  | Some (h, k, l) =>
      do u <- spatial h k l true (earth LMAX);
      match sel u with Some d => Ok d | None => Err TypeError end
  end.

Inductive grid_units := GCustom (l : list R) | GCode (z : Z).
(** gen_stokes.py 157-177: degree factors and area factor of a latitude *)
Definition stokes_units (LMAX : nat) (U : grid_units) (LOVE : option love3) (dphi dth : R) : res (list R * (R -> R)) :=
  let cell := fun th => sin th * dphi * dth in
  match U with
  | GCustom l => Ok (l, cell)
  | GCode 1 => do d <- spatial_factors LMAX LOVE cmwe; Ok (d, cell)
  | GCode 2 => do d <- spatial_factors LMAX LOVE cmwe; Ok (d, fun _ => 10 ^ 15 / rad_e (earth LMAX) ^ 2)
  | GCode 3 => do d <- spatial_factors LMAX LOVE mmwe; Ok (d, cell)
  | GCode _ => Err ValueError
  end.

(** [data.T if (sz[0] == nlat) else data] (gen_stokes.py 150-151, gen_harmonics.py
    117-118): number of rows and columns, and value at (longitude, latitude) *)
Definition oriented (data : arr R) (nlat : nat) : arr R :=
  if (rows data =? nlat)%nat then mkarr (cols data) (rows data) None (fun i j t => get data j i t) else data.
(** lon < 0 += 360 (gen_stokes.py 141-143, gen_harmonics.py 170-171), in radians *)
Definition phi_of (x : R) : R := deg (if Rlt_dec x 0 then x + 360 else x).

(** the integration shared by gen_stokes.py 181-219 and gen_harmonics.py 178-221.
    [w j] is the area factor of latitude j.  [np.dot] needs a data row per
    longitude; a data matrix with a single column is broadcast along latitude. *)
Definition integrate (data : arr R) (phis : list R) (w : nat -> R) (nlat LMIN LMAX MMAX : nat) (P : arr R) (df : list R) : res harm :=
  do _ <- check_plm P LMAX MMAX nlat;
  if negb (rows data =? List.length phis)%nat then Err ValueError
  else
  let plm := fun l m j => get P l m j * w j in
  let bc := fun j => if (cols data =? 1)%nat then 0%nat else j in
  let dcos := fun m j => sumn (List.length phis) (fun i => cos (INR m * nth i phis 0) * get data i (bc j) 0) in
  let dsin := fun m j => sumn (List.length phis) (fun i => sin (INR m * nth i phis 0) * get data i (bc j) 0) in
  if (LMIN <=? LMAX)%nat && negb ((cols data =? nlat) || (cols data =? 1))%nat then Err ValueError
  else if (LMIN <=? LMAX)%nat && (List.length df <? LMAX + 1)%nat then Err IndexError
  else
  let coef := fun d : nat -> nat -> R => mkarr (LMAX + 1) (MMAX + 1) None (fun l m _ =>
     if ((LMIN <=? l) && (l <=? LMAX) && (m <=? Nat.min MMAX l))%nat
     then nth l df 0 * sumn nlat (fun j => plm l m j * d m j) else 0) in
  Ok (mkharm LMAX MMAX (coef dcos) (coef dsin) TNone TNone).

(** np.abs(x[1] - x[0]) in radians *)
Definition step_of (xs : list R) : res R := do b <- py_get xs 1; do a <- py_get xs 0; Ok (Rabs (b - a)).
Definition holmes_or (PLM : option (arr R)) (LMAX : nat) (lat : list R) : res (arr R) :=
  match PLM with Some P => Ok P | None => do pd <- plm_holmes LMAX (map (fun x => cos (colat x)) lat) None; Ok (fst pd) end.

(** gen_stokes.py 79-222 *)
Definition gen_stokes (data : arr R) (lon lat : list R) (LMIN LMAX : nat) (MMAX : option nat) (U : grid_units)
  (PLM : option (arr R)) (LOVE : option love3) : res harm :=
  let MM := upto_order MMAX LMAX in
  let nlat := List.length lat in
  do dlon <- step_of lon;
  do dlat <- step_of lat;
  do du <- stokes_units LMAX U LOVE (deg dlon) (deg dlat);
  do P <- holmes_or PLM LMAX lat;
  integrate (oriented data nlat) (map phi_of lon) (fun j => snd du (colat (nth j lat 0))) nlat LMIN LMAX MM P (fst du).

(** gen_harmonics.py 69-125, 127-224 with METHOD='integration' *)
Definition gen_harmonics (data : arr R) (lon lat : list R) (LMAX : nat) (MMAX : option nat) (PLM : option (arr R)) : res harm :=
  let MM := upto_order MMAX LMAX in
  let nlat := List.length lat in
  do dlon <- step_of lon;
  do dlat <- step_of lat;
  do P <- holmes_or PLM LMAX lat;
  integrate (oriented data nlat) (map phi_of lon) (fun j => sin (colat (nth j lat 0)) * deg dlon * deg dlat) nlat 0 LMAX MM P
    (repeat (1 / (4 * PI)) (LMAX + 1)).

(** ** ocean_stokes.py.  [mask] is the land-sea mask read from the file,
    [latitude, longitude]; a missing file raises before anything else *)
Definition is_land (v : option R) : bool :=
  match v with Some x => (if Rle_dec 1 x then true else false) && (if Rle_dec x 3 then true else false) | None => false end.
Definition b2r (b : bool) : R := if b then 1 else 0.
(** 111-115, 171-175 *)
Definition land0 (mask : arr (option R)) : arr R := mkarr (rows mask) (cols mask) None (fun i j _ => b2r (is_land (get mask i j 0))).
(** np.roll(mask, k, axis): entry i comes from i - k modulo the length *)
Definition roll1 (n i : nat) : nat := if (i =? 0)%nat then (n - 1)%nat else (i - 1)%nat.
Definition roll_1 (n i : nat) : nat := if (i =? n - 1)%nat then 0%nat else (i + 1)%nat.
(** 185-211 [find_isolated_points]; mask[1,:] raises when there is one row *)
Definition find_isolated_points (a : arr R) : res (arr R) :=
  let n := rows a in let p := cols a in
  if (n <? 2)%nat then Err IndexError else
  let m := fun i j => get a i j 0 in
  let lap := fun i j =>
    -4 * m i j + m i j * m i (roll1 p j) + m i j * m i (roll_1 p j)
    + m i j * (if (i =? 0)%nat then m 1%nat j else m (roll1 n i) j)
    + m i j * (if (i =? n - 1)%nat then m (n - 2)%nat j else m (roll_1 n i) j) in
  Ok (mkarr n p None (fun i j _ => if Rle_dec 3 (Rabs (lap i j)) then 1 else 0)).
(** 117-118, 177-178 *)
Definition land_function (mask : arr (option R)) (simplify : bool) : res (arr R) :=
  let l := land0 mask in
  if simplify then do iso <- find_isolated_points l; Ok (mkarr (rows l) (cols l) None (fun i j t => get l i j t - get iso i j t))
  else Ok l.
Definition transposed (a : arr R) : arr R := mkarr (cols a) (rows a) None (fun i j t => get a j i t).
(** 67-125 and 127-183; [landsea] is None when the file does not exist *)
Definition mask_stokes (f : R -> R) (landsea : option (arr (option R) * list R * list R)) (LMAX : nat) (MMAX : option nat)
  (LOVE : option love3) (simplify : bool) : res harm :=
  match landsea with
  | None => Err FileNotFound
  | Some (mask, lon, lat) =>
      do l <- land_function mask simplify;
      gen_stokes (transposed (amap f l)) lon lat 0 LMAX (Some (upto_order MMAX LMAX)) (GCode 1) None LOVE
  end.
Definition ocean_stokes := mask_stokes (fun x => 1 - x).
Definition land_stokes := mask_stokes (fun x => x).

(** ** gen_point_load.py 65-182.  [data], [lon], [lat] are the flattened arrays.
    np.squeeze(phi)[:,np.newaxis] (line 176) fails for a single point; arrays of
    different lengths do not broadcast (except a single latitude, not modelled). *)
Definition point_units (LMAX : nat) (U : grid_units) (LOVE : option love3) : res (list R * R) :=
  let scaled := do d <- spatial_factors LMAX LOVE cmwe; Ok (map (fun x => x / rad_e (earth LMAX) ^ 2) d) in
  match U with
  | GCustom l => Ok (l, 1)
  | GCode 1 => do d <- scaled; Ok (d, 1)
  | GCode 2 => do d <- scaled; Ok (d, 10 ^ 15)
  | GCode _ => Err ValueError
  end.
(** row m of the matrix returned by legendre.py *)
Definition leg_entry (tiny : nat -> R -> nat -> R) (l m : nat) (x : R) : R :=
  match legendre tiny l [x] true with p => nth 0 (nth m p []) 0 end.
Definition gen_point_load (tiny : nat -> R -> nat -> R) (data lon lat : list R) (LMAX : nat) (MMAX : option nat) (U : grid_units)
  (LOVE : option love3) : res harm :=
  let MM := upto_order MMAX LMAX in
  let npts := List.length data in
  do du <- point_units LMAX U LOVE;
  if (List.length (fst du) =? 0)%nat then Err IndexError            (* dfactor[0] *)
  else if (List.length lon =? 1)%nat then Err IndexError
  else if negb (List.length lon =? npts)%nat || negb (List.length lat =? npts)%nat then Err ValueError
  else if (List.length (fst du) <? LMAX + 1)%nat then Err IndexError
  else
  let D := fun i => snd du * nth i data 0 in
  let coef := fun trig : R -> R => mkarr (LMAX + 1) (MM + 1) None (fun l m _ =>
    if ((l <=? LMAX) && (m <=? Nat.min l MM))%nat
    then sumn npts (fun i => nth l (fst du) 0 * D i * leg_entry tiny l m (cos (colat (nth i lat 0))) * trig (INR m * deg (nth i lon 0)))
    else 0) in
  Ok (mkharm LMAX MM (coef cos) (coef sin) TNone TNone).
