(** Model of scripts/grace_raster_grids.py 201-531: monthly rasters of the GRACE fields over land in a map projection.
    Arithmetic is exact real arithmetic.  The inputs of the model are those of MapsModel.v (the record mrun, whose fields p_ddeg,
    p_interval and p_bounds are not used here) and the harmonics of the land mask as land_stokes returns them (C48).
    pyproj and the geocentric latitude of geoid-toolkit are one input: the function [loc] from a projected point to longitude and
    geocentric latitude in degrees.  File names, attributes and the output file are not modelled: the result is the lists of x and y
    and, per month, the time and the filled values. *)
From Coq Require Import Reals String.
From Verif Require Import Base UnitsModel GaussModel LegendreModel DestripeModel SummationModel GenModel MasconModel Arr HarmModel MapsModel.
Close Scope Z_scope.
Open Scope R_scope.

(** 446: np.broadcast_to(np.atleast_1d(SPACING),(2,)) *)
Definition raster_spacing (S : list R) : res (R * R) :=
  match S with [a] => Ok (a, a) | [a; b] => Ok (a, b) | _ => Err ValueError end.
(** 447-450: unpacking needs four bounds; y starts half of the spacing of x above the lower bound *)
Definition raster_axes (dx dy : R) (B : list R) : res (list R * list R) :=
  match B with
  | [xmin; xmax; ymin; ymax] => Ok (arange (xmin + dx / 2) (xmax + dx) dx, arange (ymin + dx / 2) (ymax + dy) dy)
  | _ => Err ValueError
  end.

(** 452: the points (row, column) of np.meshgrid in row-major order *)
Definition grid_points (ny nx : nat) : list (nat * nat) := flat_map (fun k => map (fun j => (k, j)) (seq 0 nx)) (seq 0 ny).
(** 453, 462: their longitudes and geocentric latitudes *)
Definition point_at (loc : R -> R -> R * R) (x y : list R) (p : nat * nat) : R * R := loc (nth (snd p) x 0) (nth (fst p) y 0).
Definition threshold : R := 25 / 1000.
Definition clenshaw_scale : R := / 10 ^ 280.                     (* clenshaw_summation.py 37: SCALE *)
Definition above (v : R) : bool := if Rlt_dec threshold v then true else false.
(** 468: np.nonzero(mask.reshape(ny,nx) > THRESHOLD), in row-major order *)
Definition selected (pts : list (nat * nat)) (mask : list R) : list (nat * nat) := map fst (filter (fun pv => above (snd pv)) (combine pts mask)).
(** 494-499: the values are stored at the selected points, the others hold the fill value *)
Definition same_point (a b : nat * nat) : bool := ((fst a =? fst b) && (snd a =? snd b))%nat.
Definition fill : R := -9999.
Definition scatter (ny nx : nat) (sel : list (nat * nat)) (vals : list R) : arr R :=
  mkarr ny nx None (fun k j _ => match find (fun pv => same_point (fst pv) (k, j)) (combine sel vals) with Some pv => snd pv | None => fill end).

(** 479-499: the raster of month i *)
Definition one_raster (LMIN LMAX MM : nat) (RAD : R) (units : string) (love : love3) (loc : R -> R -> R * R) (x y : list R)
  (sel : list (nat * nat)) (grace gia removed : harm) (i : nat) : res (R * arr R) :=
  do h <- index grace (Z.of_nat i);
  do g <- index gia (Z.of_nat i);
  do h <- subtract h g;
  do z <- index removed (Z.of_nat i);
  do h <- subtract h z;
  let h := truncate h (Some LMAX) LMIN (Some MM) in
  let at_ := map (point_at loc x y) sel in
  do vals <- clenshaw_summation (clm h) (slm h) (map fst at_) (map snd at_) RAD (UName units) LMAX (Some love) clenshaw_scale;
  do t <- scalar (time h);
  Ok (t, scatter (List.length y) (List.length x) sel vals).

(** 201-531 *)
Definition grace_raster_grids (r : mrun) (land : harm) (SPACING BOUNDS : list R) (loc : R -> R -> R * R) : res (list R * list R * list (R * arr R)) :=
  let LMAX := p_lmax r in let MM := order_of LMAX (p_mmax r) in
  do h <- centred (p_grace r) (p_mean r);
  do h <- (if p_destripe r then destripe h else Ok h);
  do ts <- list_of (time h);
  do ms <- list_of (month h);
  do gia <- drift (p_gia r) ts (20033 / 10) ms;
  if (List.length ts =? 1)%nat then Err IndexError else            (* GIA_Ylms.month[:] = ... as in grace_spatial_maps *)
  do removed <- remove_all r ms (zeros (lmax h) (mmax h) (Some (List.length ts)) TNone TNone) (with_form (p_remove r) (p_forms r));
  let removed := mkharm (lmax removed) (mmax removed) (clm removed) (slm removed) (TArr ts) (TArr ms) in
  do units <- bycode (p_units r);
  do s <- raster_spacing SPACING;
  do ax <- raster_axes (fst s) (snd s) BOUNDS;
  let '(x, y) := ax in
  let pts := grid_points (List.length y) (List.length x) in
  let at_ := map (point_at loc x y) pts in
  do mask <- clenshaw_summation (clm land) (slm land) (map fst at_) (map snd at_) (2 * p_rad r) (UCode 1) LMAX (Some (p_love r)) clenshaw_scale;
  do maps <- mapM (one_raster (p_lmin r) LMAX MM (p_rad r) units (p_love r) loc x y (selected pts mask) h gia removed) (seq 0 (List.length ms));
  Ok (x, y, maps).
