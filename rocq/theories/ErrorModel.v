(** Model of scripts/grace_spatial_error.py: maps of the error of GRACE fields from the noise of their coefficients.
    Arithmetic is exact real arithmetic; the monthly fields of grace_input_months (C13, C76), the mean field and the load Love numbers are
    inputs.  The directory of the GRACE data is part of the model as far as this program uses it: the coefficient error files it writes and
    reads back.  Attributes, log files and the output file of the map are not modelled: the result is the grid. *)
From Coq Require Import Reals String.
From Verif Require Import Base UnitsModel GaussModel LegendreModel DestripeModel SummationModel GenModel MasconModel TsModel Arr HarmModel MapsModel.
Close Scope Z_scope.
Open Scope R_scope.

(** DATAFORM; netCDF4 and HDF5 files hold the same variables *)
Inductive dataform := FAscii | FNetcdf | FHdf5.
Definition form_eqb (a b : dataform) : bool := match a, b with FAscii, FAscii | FNetcdf, FNetcdf | FHdf5, FHdf5 => true | _, _ => false end.
(** the contents of a coefficient file *)
Inductive stored := TextFile (ls : list line) | ArrayFile (f : HarmModel.flat).
(** 312-315: the parts of the name of the coefficient error file (text formatting is not modelled) *)
Record key := mkkey { k_proc : string; k_drel : string; k_dset : string; k_lmax : nat; k_order : option nat; k_destripe : bool; k_atm : bool;
  k_first : Z; k_last : Z; k_form : dataform }.
Definition opt_eqb (a b : option nat) : bool := match a, b with Some x, Some y => (x =? y)%nat | None, None => true | _, _ => false end.
Definition key_eqb (a b : key) : bool :=
  (String.eqb (k_proc a) (k_proc b) && String.eqb (k_drel a) (k_drel b) && String.eqb (k_dset a) (k_dset b) && (k_lmax a =? k_lmax b)%nat &&
   opt_eqb (k_order a) (k_order b) && Bool.eqb (k_destripe a) (k_destripe b) && Bool.eqb (k_atm a) (k_atm b) &&
   (k_first a =? k_first b)%Z && (k_last a =? k_last b)%Z && form_eqb (k_form a) (k_form b))%bool.
Definition dir : Type := list (key * stored).
Definition find_file (d : dir) (k : key) : option stored := option_map snd (find (fun x => key_eqb (fst x) k) d).

(** the options and inputs of a run *)
Record erun := mkerun {
  e_proc : string; e_drel : string; e_dset : string; e_lmax : nat; e_rad : R; e_lmin : nat; e_mmax : option nat; e_love : love3; e_destripe : bool; e_units : Z;
  e_ddeg : list R; e_interval : Z; e_bounds : option (R * R * R * R); e_atm : bool; e_form : dataform;
  e_grace : harm; e_mean : option harm }.

(** 330-333 *)
Definition half_width (PROC DREL : string) : nat :=
  if (String.eqb PROC "CNES" && (String.eqb DREL "RL01" || String.eqb DREL "RL02"))%bool then 19%nat else 6%nat.

Section Programs.
(** erf and the quantiles of Student's t: used by smooth only for the error of the trend.  [rd], [rt], [grace]: printing of coefficients and
    of dates, and calendar_to_grace of a decimal year, as in HarmModel *)
Context (erf : R -> R) (tppf : R -> Z -> R) (rd rt : R -> R) (grace : R -> Z).

(** 343-352: the error of one coefficient, the number of smoothed months and their mean time (val1[l,m,:] needs the degree, the order and a
    time axis).  Without a smoothed month the division by zero gives nan: outside the model *)
Definition coef_error (H : nat) (ts : list R) (a : arr R) (l m : nat) : res (R * nat * R) :=
  match depth a with
  | None => Err IndexError
  | Some n =>
      if ((rows a <=? l) || (cols a <=? m))%nat%bool then Err IndexError else
      do sm <- smooth erf tppf ts (map (fun t => get a l m t) (seq 0 n)) H 0 0 0;
      let nsmth := List.length (fst sm) in
      if (nsmth =? 0)%nat then Err OtherExn else
      Ok (sqrt (Rsum (map (fun w => s_noise w ^ 2) (fst sm)) / INR nsmth), nsmth, Rmean (snd sm))
  end.
(** 324-360: the errors of all coefficients; tsmth and nsmth are those of the last coefficient *)
Definition delta_field (H LMAX MM : nat) (h : harm) : res harm :=
  do ts <- list_of (time h);
  do es <- mapM (fun p => do c <- coef_error H ts (clm h) (fst p) (snd p); do s <- coef_error H ts (slm h) (fst p) (snd p); Ok (p, fst (fst c), s)) (lm_loop LMAX MM);
  match rev es with
  | [] => Err UnboundLocalError
  | (_, _, (_, nsmth, tsmth)) :: _ =>
      let zero := full (LMAX + 1) (MM + 1) None 0%R in
      Ok (mkharm LMAX MM
        (fold_left (fun a e => set_lm a (fst (fst (fst e))) (snd (fst (fst e))) (fun _ => snd (fst e))) es zero)
        (fold_left (fun a e => set_lm a (fst (fst (fst e))) (snd (fst (fst e))) (fun _ => fst (fst (snd e)))) es zero)
        (TScalar tsmth) (TScalar (Z.of_nat nsmth)))
  end.

(** 361: to_file; 368: from_file *)
Definition write_delta (f : dataform) (h : harm) : res stored :=
  match f with FAscii => do ls <- to_ascii rd rt true h; Ok (TextFile ls) | _ => do x <- to_nc h; Ok (ArrayFile x) end.
Definition read_delta (x : stored) : res harm :=
  match x with TextFile ls => from_ascii grace true ls | ArrayFile f => from_nc f end.

(** 312-373: the errors of the coefficients and the number of smoothed months, computed and written, or read from the file of an earlier run *)
Definition get_delta (e : erun) (k : key) (h : harm) (d : dir) : dir * res (harm * Z) :=
  let LMAX := e_lmax e in let MM := order_of LMAX (e_mmax e) in
  match find_file d k with
  | None =>
      match delta_field (half_width (e_proc e) (e_drel e)) LMAX MM h with
      | Err x => (d, Err x)
      | Ok delta =>
          match write_delta (e_form e) delta with
          | Err x => (d, Err x)
          | Ok s => ((k, s) :: d, do n <- scalar (month delta); Ok (delta, n))
          end
      end
  | Some s =>
      (d, do delta <- read_delta s;
          let delta := truncate delta (Some LMAX) 0 (Some MM) in
          do n <- scalar (month delta); Ok (delta, n))
  end.

(** 376-449: the map.  PLM[:,mm,:] (393) raises when an order exceeds LMAX or when a single latitude removed the last axis *)
Definition squared_ok (MM : nat) (P : arr R) : res unit :=
  if (cols P <=? MM)%nat then Err IndexError else match depth P with None => Err IndexError | Some _ => Ok tt end.
(** 395-399, 424-445: the grid of errors; 1.0/nsmth is infinite for nsmth = 0: outside the model *)
Definition error_grid (LMIN LMAX MM : nat) (df wt lon lat : list R) (P : arr R) (delta : harm) (nsmth : Z) : res (arr R) :=
  let y := truncate delta (Some LMAX) LMIN (Some MM) in
  do f <- np_mul1 df wt;
  do y <- convolve y f;
  if (nsmth =? 0)%Z then Err OtherExn else
  do y <- scale (power y 2) (SScalar (1 / IZR nsmth));
  let d_cos := fun m k => sumn (LMAX + 1) (fun l => get P l m k ^ 2 * get (clm y) l m 0) in
  let d_sin := fun m k => sumn (LMAX + 1) (fun l => get P l m k ^ 2 * get (slm y) l m 0) in
  Ok (mkarr (List.length lat) (List.length lon) None (fun k i _ =>
    let phi := deg (nth i lon 0) in
    sqrt (sumn (MM + 1) (fun m => cos (INR m * phi) ^ 2 * d_cos m k) + sumn (MM + 1) (fun m => sin (INR m * phi) ^ 2 * d_sin m k)))).
(** the TypeError for another INTERVAL is raised at 422 *)
Definition error_map (e : erun) (wt : list R) (delta : harm) (nsmth : Z) : res (list R * list R * arr R) :=
  let LMAX := e_lmax e in let MM := order_of LMAX (e_mmax e) in
  do s <- spacing_of (e_ddeg e);
  do ax <- grid_axes (-180) (e_interval e) (fst s) (snd s) (e_bounds e);
  let '(lon, lat) := ax in
  do df <- degree_factor LMAX (UCode (e_units e)) (Some (e_love e));
  do pd <- plm_holmes LMAX (map (fun x => cos (colat x)) lat) None;
  do _u <- squared_ok MM (fst pd);
  do g <- error_grid (e_lmin e) LMAX MM df wt lon lat (fst pd) delta nsmth;
  Ok (lon, lat, g).

(** 190-465 *)
Definition grace_spatial_error (e : erun) (d : dir) : dir * res (list R * list R * arr R) :=
  let LMAX := e_lmax e in let MM := order_of LMAX (e_mmax e) in
  match (do wt <- smoothing (e_rad e) LMAX;
         do h <- centred (e_grace e) (e_mean e);
         do h <- (if e_destripe e then destripe h else Ok h);
         do ms <- list_of (month h);
         do m0 <- py_get ms 0;
         do m1 <- py_get ms (-1);
         Ok (wt, h, mkkey (e_proc e) (e_drel e) (e_dset e) LMAX (if (MM =? LMAX)%nat then None else Some MM) (e_destripe e) (e_atm e) m0 m1 (e_form e))) with
  | Err x => (d, Err x)
  | Ok (wt, h, k) =>
      let r := get_delta e k h d in
      (fst r, do dn <- snd r; error_map e wt (fst dn) (snd dn))
  end.
End Programs.
