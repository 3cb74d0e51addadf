(** Model of scripts/scale_grace_maps.py: GRACE maps multiplied by gridded scale factors, and their errors.
    Exact real arithmetic; the monthly fields, the mean field, the GIA rates, the fields to be removed, the ocean function, the load Love
    numbers and the scale factors (a scaling_factors object, C65) are inputs.  Cells of the scale factors that are nan or hold the fill
    value have been masked when they were read.  The results are the three spatial objects the program writes. *)
From Coq Require Import Reals String.
From Verif Require Import Base UnitsModel GaussModel LegendreModel DestripeModel SummationModel GenModel MasconModel TsModel Arr HarmModel SpatialModel MapsModel ErrorModel.
Close Scope Z_scope.
Open Scope R_scope.

Record krun := mkkrun {
  x_proc : string; x_drel : string; x_dset : string; x_lmax : nat; x_rad : R; x_lmin : nat; x_mmax : option nat; x_love : love3; x_destripe : bool; x_atm : bool; x_form : dataform;
  x_grace : harm; x_mean : option harm; x_gia : harm; x_remove : list harm; x_forms : list remove_form; x_redistribute : bool; x_ocean : harm;
  x_lon : list R; x_lat : list R; x_factor : arr R; x_error : arr R; x_magnitude : arr R; x_mask : arr bool }.

(** the options that grace_spatial_error has as well; the unit is 1: centimetres of water equivalent (265, 488) *)
Definition as_erun (r : krun) : erun :=
  mkerun (x_proc r) (x_drel r) (x_dset r) (x_lmax r) (x_rad r) (x_lmin r) (x_mmax r) (x_love r) (x_destripe r) 1 [] 0 None (x_atm r) (x_form r) (x_grace r) (x_mean r).
(** the options that grace_spatial_maps has as well *)
Definition as_mrun (r : krun) : mrun :=
  mkmrun (x_lmin r) (x_lmax r) (x_mmax r) (x_love r) (x_rad r) (x_destripe r) 1 [] 0 None (x_grace r) (x_mean r) (x_gia r) (x_remove r) (x_forms r) (x_redistribute r) (x_ocean r).

(** 268 *)
Definition fill_value : R := -9999.

(** floating point values of the leakage error (544-549): a number, an infinity (of either sign) or nan *)
Inductive fval := FNum (x : R) | FInf | FNan.
(** np.power(x, 0.5), np.power(x, -1) and the product *)
Definition fsqrt (v : val) : val := match v with Some x => if Rlt_dec x 0 then None else Some (sqrt x) | None => None end.
Definition finv (x : R) : fval := if Req_EM_T x 0 then FInf else FNum (/ x).
Definition fmul (v : val) (b : fval) : fval :=
  match v, b with
  | Some x, FNum y => FNum (x * y)
  | Some x, FInf => if Req_EM_T x 0 then FNan else FInf
  | _, _ => FNan
  end.
(** 544-549: [scaled_power.scale] ends with update_mask: masked cells and nan become the fill value; then nan_to_num *)
Definition leak_ratio (m : arr R) (data : arr val) (mask : arr bool) : arr R :=
  mkarr (rows data) (cols data) None (fun k i _ =>
    match fmul (fsqrt (get data k i 0)) (finv (get m k i 0)) with
    | FNum x => if get mask k i 0%nat then fill_value else x
    | FInf => if get mask k i 0%nat then fill_value else 0
    | FNan => fill_value
    end).

Section Programs.
Context (erf : R -> R) (tppf : R -> Z -> R) (rd rt : R -> R) (grace : R -> Z).

(** 470-509: the maps; LMIN is not passed on to harmonic_summation (504) *)
Definition scaled_maps (r : krun) (wt : list R) (df : list R) (P : arr R) (h gia removed : harm) (ts : list R) (ms : list Z) : res sp :=
  let LMAX := x_lmax r in let MM := order_of LMAX (x_mmax r) in
  let nlat := rows (x_factor r) in let nlon := cols (x_factor r) in
  do f <- np_mul1 df wt;
  do maps <- mapM (one_map 0 LMAX MM f (x_lon r) (x_lat r) P h gia removed) (seq 0 (List.length ms));
  if negb ((nlat =? List.length (x_lat r)) && (nlon =? List.length (x_lon r)))%nat then Err ValueError else
  let n := List.length ts in
  let none := (0, 0%Z, full nlat nlon None 0%R) in
  let grid := mksp (mkarr nlat nlon (Some n) (fun k i t => Some (get (snd (nth t maps none)) k i 0))) (full nlat nlon (Some n) false) None (x_lon r) (x_lat r)
    (TArr (map (fun t => fst (fst (nth t maps none))) (seq 0 n))) (TArr (map (fun t => snd (fst (nth t maps none))) (seq 0 n))) None in
  do grid <- sscale grid (VArr (amap Some (x_factor r)));
  replace_invalid (Some fill_value) (Some (x_mask r)) grid.

(** 542-552: the leakage error *)
Definition leakage_error (r : krun) (grid : sp) : res sp :=
  do s <- ssum 2 grid;
  let q := leak_ratio (x_magnitude r) (sdata s) (smask s) in
  let e := scopy grid in
  update_mask (mksp (mkarr (rows (x_error r)) (cols (x_error r)) None (fun k i _ => Some (get (x_error r) k i 0 * get q k i 0))) (x_mask r) (serr e) (slon e) (slat e) (stime e) (smonth e) (sfill e)).

(** 573-604: the error from the noise of the coefficients, with LMIN *)
Definition scaled_delta (r : krun) (wt df : list R) (P : arr R) (delta : harm) (nsmth : Z) : res sp :=
  let LMAX := x_lmax r in let MM := order_of LMAX (x_mmax r) in
  do g <- error_grid (x_lmin r) LMAX MM df wt (x_lon r) (x_lat r) P delta nsmth;
  let nlat := rows (x_factor r) in let nlon := cols (x_factor r) in
  do d <- sscale (mksp (amap Some g) (full nlat nlon None false) None (x_lon r) (x_lat r) (time delta) (TScalar nsmth) None) (VArr (amap Some (x_factor r)));
  replace_invalid (Some fill_value) (Some (x_mask r)) d.

(** 363-365: zeros_like, with the times and months of the data *)
Definition zeros_like (h : harm) (ts : list R) (ms : list Z) : harm :=
  mkharm (lmax h) (mmax h) (full (lmax h + 1) (mmax h + 1) (Some (List.length ts)) 0) (full (lmax h + 1) (mmax h + 1) (Some (List.length ts)) 0) (TArr ts) (TArr ms).
(** 210-625.  Reading a file to be removed (371-380) rebinds the name Ylms: Ylms['directory'] (411) then asks for an attribute that no harmonics
    object has.  A single data file and an index of files are both read without error *)
Definition scale_grace_maps (r : krun) (d : dir) : dir * res (sp * sp * sp) :=
  let LMAX := x_lmax r in let MM := order_of LMAX (x_mmax r) in
  let e := as_erun r in
  match (do wt <- smoothing (x_rad r) LMAX;
         do h <- centred (x_grace r) (x_mean r);
         do h <- (if x_destripe r then destripe h else Ok h);
         do ts <- list_of (time h);
         do ms <- list_of (month h);
         do gia <- drift (x_gia r) ts (20033 / 10) ms;
         if (List.length ts =? 1)%nat then Err IndexError else
         let files := map (fun f => (fst f, IndexFile)) (with_form (x_remove r) (x_forms r)) in
         do removed <- remove_all (as_mrun r) ms (zeros_like h ts ms) files;
         if (0 <? List.length files)%nat then Err AttributeError else
         do m0 <- py_get ms 0;
         do m1 <- py_get ms (-1);
         Ok (wt, h, ts, ms, gia, removed,
             mkkey (x_proc r) (x_drel r) (x_dset r) LMAX (if (MM =? LMAX)%nat then None else Some MM) (x_destripe r) (x_atm r) m0 m1 (x_form r))) with
  | Err x => (d, Err x)
  | Ok (wt, h, ts, ms, gia, removed, k) =>
      let q := get_delta erf tppf rd rt grace e k h d in
      (fst q,
       do dn <- snd q;
       do pd <- plm_holmes LMAX (map (fun x => cos (colat x)) (x_lat r)) None;
       do _u <- squared_ok MM (fst pd);
       do df <- degree_factor LMAX (UCode 1) (Some (x_love r));
       do grid <- scaled_maps r wt df (fst pd) h gia removed ts ms;
       do err <- leakage_error r grid;
       do delta <- scaled_delta r wt df (fst pd) (fst dn) (snd dn);
       Ok (grid, err, delta))
  end.
End Programs.
