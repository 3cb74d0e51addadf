(** Model of tools.py 1224-1293 [mask_oceans] with order=0 (nearest neighbours) and of scripts/calc_harmonic_resolution.py.
    Coordinates are exact reals.  The output coordinates are two arrays of one shape: a grid of points. *)
From Coq Require Import Reals String.
From Verif Require Import Base ToolsModel.
Close Scope Z_scope.
Open Scope R_scope.

(** the land-sea mask of a file: 0 ocean, 1 land, 2 lake, 3 small island, 4 ice shelf *)
Record landsea := mklandsea { ls_lon : list R; ls_lat : list R; ls_code : list (list Z) }.
(** tools.py 1262-1276: the logical or of the codes asked for *)
Definition land_function (lakes iceshelves : bool) (c : Z) : bool :=
  let f := (c =? 1)%Z in
  let f := if lakes then f || (c =? 2)%Z else f in
  let f := f || (c =? 3)%Z in
  if iceshelves then f || (c =? 4)%Z else f.
(** 1278-1279 *)
Definition mask_at (ls : landsea) (lakes iceshelves : bool) (p : R * R) : res bool :=
  match interp_nearest (map (map (land_function lakes iceshelves)) (ls_code ls)) (ls_lon ls) (ls_lat ls) (fst p) (snd p) with
  | Some b => Ok b | None => Err IndexError end.
Definition mask_grid (ls : landsea) (lakes iceshelves : bool) (pts : list (list (R * R))) : res (list (list bool)) :=
  mapM (mapM (mask_at ls lakes iceshelves)) pts.

(** a grid to be masked: values, mask (None for an object without one) and fill value *)
Record grid := mkgrid { g_data : list (list R); g_mask : option (list (list bool)); g_fill : R }.
Inductive masked := MaskOnly (m : list (list bool)) | Masked (g : grid).
(** 1283: data.mask |= mask for two arrays of one shape *)
Definition or_rows (a b : list (list bool)) : res (list (list bool)) :=
  if (List.length a =? List.length b)%nat then
    mapM (fun '(x, y) => if (List.length x =? List.length y)%nat then Ok (map (fun '(u, v) => u || v) (combine x y)) else Err ValueError) (combine a b)
  else Err ValueError.
(** 1285: data.data[data.mask] = data.fill_value *)
Definition fill_rows (v : R) (d : list (list R)) (m : list (list bool)) : list (list R) :=
  map (fun '(x, y) => map (fun '(u, b) => if (b : bool) then v else u) (combine x y)) (combine d m).
(** 1257-1290; [files] gives the land-sea mask of a resolution *)
Definition mask_oceans (files : string -> option landsea) (resolution : string) (lakes iceshelves : bool)
  (pts : list (list (R * R))) (data : option grid) : res masked :=
  match files resolution with
  | None => Err FileNotFound
  | Some ls =>
      do m <- mask_grid ls lakes iceshelves pts;
      match data with
      | None => Ok (MaskOnly m)
      | Some g =>
          match g_mask g with
          | None => Err TypeError                                (* None | array *)
          | Some old => do new <- or_rows old m; Ok (Masked (mkgrid (fill_rows (g_fill g) (g_data g) new) (Some new) (g_fill g)))
          end
      end
  end.

(** scripts/calc_harmonic_resolution.py 44-68: kilometres for an integer degree; np.arcsin outside of -1..1 gives nan (an error here) *)
Definition calc_harmonic_resolution (LMAX : Z) (RADIUS : R) (SPH_CAP : bool) : res R :=
  if SPH_CAP then
    if (LMAX =? -1)%Z then Err ZeroDivision
    else let s := 1 / (IZR LMAX + 1) in
      if Rle_dec (Rabs s) 1 then Ok (4 * RADIUS * asin s) else Err OtherExn
  else if (LMAX =? 0)%Z then Err ZeroDivision else Ok (PI * RADIUS / IZR LMAX).
