(** Model of scripts/grace_mean_harmonics.py: the mean field of a range of GRACE months and its file, and of the readers used for it.
    grace_input_months is that of GraceModel (C13).  Number formats: [rd], [rt] of ascii files (HarmModel), [rg], [re] of gfc files.  Attributes, header lines and
    permissions are not modelled.  Without any month the mean is nan (an exception in the model). *)
From Coq Require Import Reals String.
From Verif Require Import Base Arr HarmModel MapsModel.
From Verif Require Import GraceModel.

(** 187 (harmonics.py 726-748): the series of the months *)
Definition series_of (L M : nat) (x : list Z * list R * cube) : harm :=
  let '(ms, ts, y) := x in
  let n := List.length ms in
  mkharm L M (mkarr (L + 1) (M + 1) (Some n) (fun l m t => y Clm l m t)) (mkarr (L + 1) (M + 1) (Some n) (fun l m t => y Slm l m t)) (TArr ts) (TArr ms).

(** 232-256, 191-198: the mean object; the months are averaged as numbers *)
Record mfield := mkmfield { mn_clm : arr R; mn_slm : arr R; mn_time : R; mn_month : R; mn_eclm : nat -> nat -> R; mn_eslm : nat -> nat -> R }.
Definition rms (n : nat) (e : nat -> R) : R := sqrt (Rsum (map (fun t => e t ^ 2) (seq 0 n)) / INR n).
Definition mean_field (L M : nat) (x : list Z * list R * cube) : res mfield :=
  let '(ms, ts, y) := x in
  let n := List.length ms in
  do r <- mean (series_of L M x) false None;
  let '(_, (mc, msl, _, _)) := r in
  Ok (mkmfield mc msl (Rmean ts) (Rmean (map IZR ms)) (fun l m => rms n (y Eclm l m)) (fun l m => rms n (y Eslm l m))).

Inductive mform := MAscii | MNetcdf | MHdf5 | MGfc.
(** a file: lines (ascii), variables (netCDF4 and HDF5: flattened coefficients, time and month), gfc lines (degree, order, coefficients, errors) *)
Inductive mfile := AsciiMean (ls : list HarmModel.line) | ArraysMean (f : flat) (t mo : R) | GfcMean (ls : list (nat * nat * (R * R) * (R * R))).

Section Formats.
Context (rd rt rg re : R -> R).
(** 258-284 *)
Definition to_gfc (L M : nat) (x : mfield) : list (nat * nat * (R * R) * (R * R)) :=
  flat_map (fun m => map (fun l => (l, m, (rg (get (mn_clm x) l m 0), rg (get (mn_slm x) l m 0)), (re (mn_eclm x l m), re (mn_eslm x l m)))) (seq m (L + 1 - m))) (seq 0 (M + 1)).
(** 213-224; harmonics.py 781-1055: the flattened arrays get a time axis of length 1 *)
Definition write_mean (form : mform) (L M : nat) (x : mfield) : res mfile :=
  let h := mkharm L M (mn_clm x) (mn_slm x) (TScalar (mn_time x)) TNone in
  match form with
  | MGfc => Ok (GfcMean (to_gfc L M x))
  | MAscii => do ls <- to_ascii rd rt true h; Ok (AsciiMean ls)
  | _ => do f <- flatten false h;
         Ok (ArraysMean (mkflat (f_lmax f) (f_mmax f) (f_l f) (f_m f) (Some 1%nat) (map (fun g (_ : nat) => g 0%nat) (f_clm f)) (map (fun g (_ : nat) => g 0%nat) (f_slm f)) TNone TNone) (mn_time x) (mn_month x))
  end.
(** 201-208: what the default name is made of (order only if it differs from the degree) *)
Record mname := mkmname { nm_proc : string; nm_rel : string; nm_set : string; nm_title : string; nm_lmax : nat; nm_mmax : option nat; nm_start : Z; nm_end : Z; nm_suffix : mform }.
(** 137-229 *)
Definition grace_mean_harmonics (PROC DREL DSET title : string) (read : Z -> option (res gfile)) (L : nat) (MMAX : option nat) (ds : dset) (START END : Z) (MISSING : list Z) (p : products) (form : mform) : res (mname * mfile) :=
  let M := order_of L MMAX in
  do x <- grace_input_months read L M ds START END MISSING p;
  do y <- mean_field L M x;
  do f <- write_mean form L M y;
  Ok (mkmname PROC DREL DSET title L (if (M =? L)%nat then None else Some M) START END form, f).
End Formats.

(** harmonics.from_file(..., date=False) of ascii, netCDF4 and HDF5 files (215-484), as in grace_spatial_maps.py 307-313.
    gfc files are read by a function of another package: not modelled *)
Definition read_mean (grace : R -> Z) (f : mfile) : res harm :=
  match f with
  | AsciiMean ls => from_ascii grace false ls
  | ArraysMean x _ _ =>
      do L <- nat_max (f_l x);
      do M <- nat_max (f_m x);
      do h <- expand false (mkflat L M (f_l x) (f_m x) (f_depth x) (f_clm x) (f_slm x) TNone TNone);
      squeeze h
  | GfcMean _ => Err OtherExn
  end.
