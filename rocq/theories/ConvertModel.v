(** Model of scripts/convert_harmonics.py: spatial fields of a file to the spherical harmonics of another file.  The readers are those of SpatialModel, the
    integration is gen_stokes (GenModel).  [grace] is calendar_to_grace of a decimal year, [rd], [rt] the number formats of ascii files (HarmModel).  Love numbers
    are given (read by load_love_numbers).  Attributes, directories and permissions are not modelled.  A nan left in a field makes all its coefficients nan: here an exception. *)
From Coq Require Import Reals String.
From Verif Require Import Base Arr HarmModel LegendreModel SummationModel GenModel.
From Verif Require SpatialModel.
Close Scope Z_scope.
Open Scope nat_scope.

Inductive cform := CAscii | CNetcdf | CHdf5.
Inductive cfile := CText (ls : list line) | CArrays (f : flat).

(** harmonics.from_list(..., date=False) (harmonics.py 643-664): the objects in the order of the list, no dates *)
Definition stack (objs : list harm) : res harm :=
  let n := List.length objs in
  do L <- list_min (map lmax objs);
  do M <- list_min (map mmax objs);
  let part := fun (sel : harm -> arr R) => mkarr (L + 1) (M + 1) (Some n) (fun l m t => match nth_error objs t with Some o => get (sel o) l m 0 | None => 0%R end) in
  Ok (mkharm L M (part clm) (part slm) TNone TNone).

Section Convert.
Context (grace : R -> Z) (rd rt : R -> R).
Definition all_numbers (a : arr SpatialModel.val) : bool :=
  forallb (fun i => forallb (fun j => negb (SpatialModel.isnan (get a i j 0))) (seq 0 (cols a))) (seq 0 (rows a)).
(** one pass of the loop (198-208; spatial.py 1721-1754): the time of the field (with date=False the times are array([None]): the attribute error of
    None.copy() is ignored for the first field, the index error of the second one is not), its values as longitude by latitude *)
Definition convert_field (DATE : bool) (s : SpatialModel.sp) (P : arr R) (LMAX MM : nat) (U : grid_units) (LOVE : option love3) (i : nat) : res harm :=
  do t <- (if DATE then do t <- tget (SpatialModel.stime s) (Z.of_nat i); Ok (Some t) else if i <? 1 then Ok None else Err IndexError);
  let d := slice (SpatialModel.sdata s) i in
  if negb (all_numbers d) then Err OtherExn
  else
  do Y <- gen_stokes (transposed (amap SpatialModel.val_of d)) (SpatialModel.slon s) (SpatialModel.slat s) 0 LMAX (Some MM) U (Some P) LOVE;
  Ok (mkharm (lmax Y) (mmax Y) (clm Y) (slm Y) (match t with Some x => TScalar x | None => TNone end) (match t with Some x => TScalar (grace x) | None => TNone end)).
(** 150-153 (expand_dims, replace_invalid), 187-221 for the object read from the file; [order]: argsort of the times in from_list *)
Definition convert_fields (form : cform) (DATE : bool) (LMAX : nat) (MMAX : option nat) (U : grid_units) (LOVE : option love3) (order : list nat) (s0 : SpatialModel.sp) : res cfile :=
  let MM := upto_order MMAX LMAX in
  do s1 <- SpatialModel.sexpand s0;
  do s <- SpatialModel.replace_invalid (Some 0%R) None s1;
  let n := match depth (SpatialModel.sdata s) with Some n => n | None => 0 end in
  do pd <- plm_holmes LMAX (map (fun x => cos (colat x)) (SpatialModel.slat s)) None;
  do Ys <- mapM (convert_field DATE s (fst pd) LMAX MM U LOVE) (seq 0 n);
  do Y <- (if DATE then from_list order Ys else stack Ys);
  match form with
  | CAscii => do ls <- to_ascii rd rt DATE Y; Ok (CText ls)
  | _ => do f <- (if DATE then to_nc Y else flatten false Y); Ok (CArrays f)
  end.
(** 163-170: netCDF4 and HDF5 files *)
Definition convert_harmonics (form : cform) (DATE : bool) (LMAX : nat) (MMAX : option nat) (U : grid_units) (LOVE : option love3) (order : list nat) (file : SpatialModel.sp) : res cfile :=
  do s <- SpatialModel.nc_read file; convert_fields form DATE LMAX MMAX U LOVE order s.
End Convert.
