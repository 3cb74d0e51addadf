(** Model of scripts/run_sea_level_equation.py: sea level fingerprints of the loads of a coefficient file on the grid of a land-sea mask.
    The mask file is given by its axes and values (rows: latitudes), the load file by the object read from it (C28), the load Love numbers as pairs of lists (C51, C52).
    The result is the object written to the output file (C29-C31); attributes and permissions are not modelled. *)
From Coq Require Import Reals.
From Verif Require Import Base UnitsModel Arr HarmModel LegendreModel SummationModel GenModel SleModel.
Close Scope Z_scope.
Open Scope R_scope.

(** 160-170: the land function: one where the mask is between 1 and 3 *)
Definition land_function (mask : arr R) : arr R :=
  mkarr (rows mask) (cols mask) None (fun i j _ => if Rle_dec 1 (get mask i j 0) then if Rle_dec (get mask i j 0) 3 then 1 else 0 else 0).
Definition transpose (a : arr R) : arr R := mkarr (cols a) (rows a) None (fun i j _ => get a j i 0).
(** 216: index(i, date=DATE) (harmonics.py 1521-1550): the coefficients of date i *)
Definition load_at (h : harm) (i : nat) : arr R * arr R := (slice (clm h) i, slice (slm h) i).
(** the output: data and mask (latitude, longitude and, for several dates, time), axes, dates *)
Record level_out := mklevel { lv_lon : list R; lv_lat : list R; lv_data : arr R; lv_mask : nat -> nat -> nat -> bool; lv_time : tval R }.
(** 132-229.  np.squeeze (229) also removes axes of length one of the grid: a mask with one row or column is outside of the model *)
Definition run_sea_level_equation (lon lat : list R) (mask : arr R) (load : harm) (LMAX : nat) (LOVE : option love3) (B : body_arg) (F : fluid_arg) (POLAR : bool) (ITERATIONS : nat) (SC : R) (DATE : bool) : res level_out :=
  if ((rows mask =? 1) || (cols mask =? 1))%nat%bool then Err OtherExn else
  let land := land_function mask in
  let load := expand_dims (truncate load (Some LMAX) 0 (Some LMAX)) in
  let nt := nslice (clm load) in
  do pd <- plm_holmes LMAX (map (fun x => cos (colat x)) lat) None;
  do levels <- mapM (fun i => let '(c, s) := load_at load i in
                              sea_level_equation c s lon lat (transpose land) LMAX LOVE B F POLAR ITERATIONS (Some (fst pd)) 0 SC) (seq 0 nt);
  let at_ (t j i : nat) := get (nth t levels (full 0 0 None 0)) i j 0 in
  Ok (mklevel lon lat (mkarr (rows mask) (cols mask) (if (nt =? 1)%nat then None else Some nt) (fun j i t => at_ t j i))
        (fun j i t => if Req_EM_T (at_ t j i) 0 then true else false) (if DATE then tsqueeze (time load) else TNone)).
