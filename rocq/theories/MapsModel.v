(** Model of scripts/grace_spatial_maps.py and scripts/combine_harmonics.py: from monthly coefficients to maps.
    Arithmetic is exact real arithmetic.  What the programs read from files is an input of the model: the monthly fields of
    grace_input_months (C13, C76) or of a coefficient file, the mean field, the GIA rates of from_GIA (C84), the fields to be
    removed as harmonics.from_index returns them (C22), the ocean function of ocean_stokes (C48) and the load Love numbers (C51, C52).
    File names, attributes and the output files are not modelled: the result is the list of (time, month, grid values). *)
From Coq Require Import Reals String.
From Verif Require Import Base UnitsModel GaussModel LegendreModel DestripeModel SummationModel GenModel MasconModel Arr HarmModel.
Close Scope Z_scope.
Open Scope R_scope.

(** harmonics.py 1793-1829 [destripe] (LMIN is not used by destripe_harmonics; ROUND=True, NARROW=False are its defaults) *)
Definition destripe (h : harm) : res harm :=
  let one := fun c s => destripe_harmonics c s (lmax h) (Some (mmax h)) true false in
  match depth (clm h) with
  | None => do r <- one (clm h) (slm h); Ok (mkharm (lmax h) (mmax h) (fst r) (snd r) (time h) (month h))
  | Some n =>
      do rs <- mapM (fun i => one (slice (clm h) i) (slice (slm h) i)) (seq 0 n);
      let at_ := fun i => nth i rs (clm h, slm h) in
      Ok (mkharm (lmax h) (mmax h)
        (mkarr (lmax h + 1) (mmax h + 1) (Some n) (fun l m t => get (fst (at_ t)) l m 0))
        (mkarr (lmax h + 1) (mmax h + 1) (Some n) (fun l m t => get (snd (at_ t)) l m 0)) (time h) (month h))
  end.

(** grace_spatial_maps.py 387-394, combine_harmonics.py 206-213: the total mass of every month is spread over the ocean;
    clm[0,0,:] needs a third axis *)
Definition spread_mass (LMAX MM : nat) (ocean h : harm) : res harm :=
  match depth (clm h) with
  | None => Err IndexError
  | Some n =>
      let ratio := fun t => get (clm h) 0 0 t / get (clm ocean) 0 0 0 in
      let upd_ := fun (a o : arr R) => mkarr (rows a) (cols a) (depth a) (fun l m t =>
        if ((m <=? l) && (l <=? LMAX) && (m <=? MM))%nat then get a l m t - ratio t * get o l m 0 else get a l m t) in
      Ok (mkharm (lmax h) (mmax h) (upd_ (clm h) (clm ocean)) (upd_ (slm h) (slm ocean)) (time h) (month h))
  end.

(** grace_spatial_maps.py 406, combine_harmonics.py 232 *)
Definition spacing_of (DDEG : list R) : res (R * R) :=
  do a <- py_get DDEG 0;
  if (List.length DDEG =? 1)%nat then Ok (a, a) else do b <- py_get DDEG 1; Ok (a, b).
(** np.int64(x) of a positive x *)
Definition rfloor (x : R) : nat := Z.to_nat (Int_part x).
(** grace_spatial_maps.py 408-426 ([lon0] = -180), combine_harmonics.py 234-252 ([lon0] = 0).  BOUNDS.copy() of None raises;
    with another INTERVAL the coordinates stay None and 90.0-grid.lat raises *)
Definition grid_axes (lon0 : R) (INTERVAL : Z) (dlon dlat : R) (BOUNDS : option (R * R * R * R)) : res (list R * list R) :=
  if (INTERVAL =? 1)%Z then
    Ok (map (fun k => lon0 + dlon * INR k) (seq 0 (rfloor (360 / dlon + 1))), map (fun k => 90 - dlat * INR k) (seq 0 (rfloor (180 / dlat + 1))))
  else if (INTERVAL =? 2)%Z then
    Ok (arange (lon0 + dlon / 2) (lon0 + 360 + dlon / 2) dlon, arange (90 - dlat / 2) (-90 - dlat / 2) (- dlat))
  else if (INTERVAL =? 3)%Z then
    match BOUNDS with
    | None => Err AttributeError
    | Some (minlon, maxlon, minlat, maxlat) =>
        Ok (arange (minlon + dlon / 2) (maxlon + dlon / 2) dlon, arange (maxlat - dlat / 2) (minlat - dlat / 2) (- dlat))
    end
  else Err TypeError.

(** the transposed grid: row = latitude, column = longitude *)
Definition as_grid (nlat nlon : nat) (out : list (list R)) : arr R := mkarr nlat nlon None (fun k i _ => nth k (nth i out []) 0).

(** "not MMAX" (grace_spatial_maps.py 286) *)
Definition order_of (LMAX : nat) (MMAX : option nat) : nat := match MMAX with Some (S k) => S k | _ => LMAX end.

(** a file of fields to be removed: one data file, or an index of monthly data files *)
Inductive remove_form := OneFile | IndexFile.

Record mrun := mkmrun {
  p_lmin : nat; p_lmax : nat; p_mmax : option nat; p_love : love3; p_rad : R; p_destripe : bool; p_units : Z;
  p_ddeg : list R; p_interval : Z; p_bounds : option (R * R * R * R);
  p_grace : harm; p_mean : option harm; p_gia : harm;
  p_remove : list harm; p_forms : list remove_form; p_redistribute : bool; p_ocean : harm }.

(** 363-366: the list of formats is repeated if it is shorter than the list of files *)
Definition with_form (files : list harm) (forms : list remove_form) : list (harm * remove_form) :=
  combine files (if (List.length forms <? List.length files)%nat then List.concat (repeat forms (List.length files)) else forms).

(** 366-401: one file to be removed; [Ylms.name] (373) does not exist: reading a single data file raises AttributeError *)
Definition remove_one (r : mrun) (months : list Z) (total : harm) (f : harm * remove_form) : res harm :=
  match snd f with
  | OneFile => Err AttributeError
  | IndexFile =>
      let LMAX := p_lmax r in let MM := order_of LMAX (p_mmax r) in
      do y <- subset (fst f) months;
      let y := truncate y (Some LMAX) 0 (Some MM) in
      do y <- (if p_redistribute r then spread_mass LMAX MM (p_ocean r) y else Ok y);
      do y <- (if p_destripe r then destripe y else Ok y);
      add total y
  end.
Fixpoint remove_all (r : mrun) (months : list Z) (total : harm) (fs : list (harm * remove_form)) : res harm :=
  match fs with
  | [] => Ok total
  | f :: rest => do t <- remove_one r months total f; remove_all r months t rest
  end.

(** 307-316 *)
Definition centred (h : harm) (m : option harm) : res harm :=
  match m with
  | Some mf => subtract h mf
  | None => do x <- mean h true None; Ok (fst x)
  end.

(** 454-473: the map of month i *)
Definition one_map (LMIN LMAX MM : nat) (f lon lat : list R) (P : arr R) (grace gia removed : harm) (i : nat) : res (R * Z * arr R) :=
  do y <- index grace (Z.of_nat i);
  do g <- index gia (Z.of_nat i);
  do y <- subtract y g;
  do x <- index removed (Z.of_nat i);
  do y <- subtract y x;
  do y <- convolve y f;
  do out <- harmonic_summation (clm y) (slm y) lon lat LMIN LMAX (Some MM) (Some P);
  do t <- scalar (time y);
  do mo <- scalar (month y);
  Ok (t, mo, as_grid (List.length lat) (List.length lon) out).

(** 211-487.  drift computes its months with adjust_months, whose result for a single month has no axis: GIA_Ylms.month[:] = ...
    (340) then raises IndexError; otherwise the months of GRACE replace them. *)
Definition grace_spatial_maps (r : mrun) : res (list R * list R * list (R * Z * arr R)) :=
  let LMAX := p_lmax r in let MM := order_of LMAX (p_mmax r) in
  do wt <- smoothing (p_rad r) LMAX;
  do h <- centred (p_grace r) (p_mean r);
  do h <- (if p_destripe r then destripe h else Ok h);
  do ts <- list_of (time h);
  do ms <- list_of (month h);
  do gia <- drift (p_gia r) ts (20033 / 10) ms;
  if (List.length ts =? 1)%nat then Err IndexError else
  do removed <- remove_all r ms (zeros (lmax h) (mmax h) (Some (List.length ts)) TNone TNone) (with_form (p_remove r) (p_forms r));
  let removed := mkharm (lmax removed) (mmax removed) (clm removed) (slm removed) (TArr ts) (TArr ms) in
  do s <- spacing_of (p_ddeg r);
  do ax <- grid_axes (-180) (p_interval r) (fst s) (snd s) (p_bounds r);
  let '(lon, lat) := ax in
  do pd <- plm_holmes LMAX (map (fun x => cos (colat x)) lat) None;
  do df <- degree_factor LMAX (UCode (p_units r)) (Some (p_love r));
  do f <- np_mul1 df wt;
  do maps <- mapM (one_map (p_lmin r) LMAX MM f lon lat (fst pd) h gia removed) (seq 0 (List.length ms));
  Ok (lon, lat, maps).

(** ** combine_harmonics.py 134-293 *)
(** the coefficient files: one file, or the list of objects an index file gives (None when the data have no dates) *)
Record crun := mkcrun {
  c_lmax : nat; c_mmax : option nat; c_love : love3; c_rad : R; c_destripe : bool; c_units : Z;
  c_ddeg : list R; c_interval : Z; c_bounds : option (R * R * R * R);
  c_index : bool; c_input : harm; c_mean : option harm; c_ocean : option harm }.

(** length of np.atleast_1d(time): array([None]) when there are no dates *)
Definition n_times (h : harm) : nat := match time h with TArr l => List.length l | _ => 1%nat end.
(** 183-186: input_Ylms.subtract: the loop runs over the times (1249-1252); reading the mean file with the format name of an
    index (184) returns None, which has no update_dimensions *)
Definition minus_mean (index_form : bool) (h : harm) (m : option harm) : res harm :=
  match m with
  | None => Ok h
  | Some mf =>
      if index_form then Err AttributeError
      else match depth (clm mf) with
      | Some _ => subtract h mf
      | None =>
          let l1 := common (lmax h) (lmax mf) in let m1 := common (mmax h) (mmax mf) in
          do c <- loop_op Rminus l1 m1 (n_times h) (clm h) (clm mf);
          do s <- loop_op Rminus l1 m1 (n_times h) (slm h) (slm mf);
          Ok (mkharm (lmax h) (mmax h) c s (time h) (month h))
      end
  end.
(** harmonics.py 1907-1930 [__next__] in the loop 280-285: month t of an object with dates or with array([None]) for them
    (None has no copy: the AttributeError is caught; an index beyond the array is not) *)
Definition month_of (h : harm) (t : nat) : res harm :=
  match time h with
  | TArr _ => index h (Z.of_nat t)
  | _ => if (t =? 0)%nat then Ok (mkharm (lmax h) (mmax h) (slice (clm h) t) (slice (slm h) t) TNone TNone) else Err IndexError
  end.
Definition combine_harmonics (r : crun) : res (list R * list R * list (arr R)) :=
  let LMAX := c_lmax r in let MM := match c_mmax r with Some k => k | None => LMAX end in
  let h := expand_dims (truncate (c_input r) (Some LMAX) 0 (Some MM)) in
  do h <- minus_mean (c_index r) h (c_mean r);
  do h <- match c_ocean r with Some o => spread_mass LMAX MM o h | None => Ok h end;
  do h <- (if c_destripe r then destripe h else Ok h);
  do wt <- smoothing (c_rad r) LMAX;
  do s <- spacing_of (c_ddeg r);
  (* 254: with another INTERVAL nlat and nlon are not set *)
  if negb ((c_interval r =? 1) || (c_interval r =? 2) || (c_interval r =? 3))%Z then Err UnboundLocalError else
  do ax <- grid_axes 0 (c_interval r) (fst s) (snd s) (c_bounds r);
  let '(lon, lat) := ax in
  do df <- degree_factor LMAX (UCode (c_units r)) (Some (c_love r));
  do pd <- plm_holmes LMAX (map (fun x => cos (colat x)) lat) None;
  do maps <- mapM (fun t =>
      do y <- month_of h t;
      do f <- np_mul1 df wt;
      do y <- convolve y f;
      do out <- harmonic_summation (clm y) (slm y) lon lat 0 LMAX None (Some (fst pd));
      if (t <? n_times h)%nat then Ok (as_grid (List.length lat) (List.length lon) out) else Err IndexError) (seq 0 (nslice (clm h)));
  Ok (lon, lat, maps).
