(** Model of mascons.py.  Arrays of mascon parameters are given as one list of records (equal lengths assumed); longitudes
    and latitudes have at least two entries; gdata covers the grid.  None is nan. *)
From Coq Require Import Reals Lra.
From Verif Require Import Base DestripeModel RegressModel.
Close Scope Z_scope.
Open Scope R_scope.

Record mascon := mkmas { m_lonc : R; m_latc : R; m_lons : R; m_lats : R }.
(** lines 66-67, 222-223: in place on the caller's array *)
Definition wrap_center (c : R) : R := if Rgt_dec c 180 then c - 360 else c.
Definition wrapped (l : list mascon) : list mascon := map (fun m => mkmas (wrap_center (m_lonc m)) (m_latc m) (m_lons m) (m_lats m)) l.
(** lines 72-74, 230-232 *)
Definition alon (x : R) : R := if Rlt_dec x 0 then x + 360 else x.
(** lines 101-102, 157-158, 255-256, 313-314: indices of the values in [lo, hi) *)
Definition within (lo hi x : R) : bool := ((if Rle_dec lo x then true else false) && (if Rlt_dec x hi then true else false))%bool.
Definition sel (lo hi : R) (xs : list R) : list nat := filter (fun i => within lo hi (at_ xs i)) (seq 0 (length xs)).
(** lines 84-102, 238-256: the rows and columns of one mascon (center already wrapped) *)
Definition gsfc_cells (lon lat : list R) (m : mascon) : list nat * list nat :=
  let polar := ((if Req_EM_T (m_latc m) 90 then true else false) || (if Req_EM_T (m_latc m) (-90) then true else false))%bool in
  let lo := if polar then 0 else m_lonc m - 1 / 2 * m_lons m in
  let hi := if polar then 360 else m_lonc m + 1 / 2 * m_lons m in
  let blat := if polar then m_latc m - m_lats m else m_latc m - 1 / 2 * m_lats m in
  let tlat := if polar then m_latc m + m_lats m else m_latc m + 1 / 2 * m_lats m in
  (sel blat tlat lat,
   if ((if Rle_dec lo 180 then true else false) && (if Rle_dec 180 hi then true else false))%bool then sel lo hi (map alon lon)
   else if ((if Rle_dec lo (-180) then true else false) && (if Rle_dec (-180) hi then true else false))%bool then sel (lo + 360) (hi + 360) (map alon lon)
   else sel lo hi lon).
(** lines 105-106, 162-163: mean over the cells of (cos / mean cos) * gdata / dv.  An empty selection gives nan; a zero mean cosine
    (only possible in exact arithmetic) too *)
Definition lsum (l : list nat) (f : nat -> R) : R := fold_right (fun i a => f i + a) 0 l.
Definition cosd (x : R) : R := cos (x * PI / 180).
Definition cell_mean (lat : list R) (g : nat -> nat -> R) (I J : list nat) (dv : R) : option R :=
  let mc := lsum I (fun i => cosd (at_ lat i)) / INR (length I) in
  if ((length I =? 0) || (length J =? 0))%nat%bool then None
  else if Req_EM_T mc 0 then None
  else Some (lsum J (fun j => lsum I (fun i => cosd (at_ lat i) / mc * g i j / dv)) / (INR (length I) * INR (length J))).
(** lines 64-111: the mascon averages and the caller's lon_center after the call; len(I) of the row vector I is 1 *)
Definition to_gsfc (g : nat -> nat -> R) (lon lat : list R) (ms : list mascon) : list (option R) * list R :=
  (map (fun m => let IJ := gsfc_cells lon lat m in cell_mean lat g (fst IJ) (snd IJ) 1) (wrapped ms), map m_lonc (wrapped ms)).
(** mdata[I,J] = v *)
Definition fill (md : nat -> nat -> R) (I J : list nat) (v : R) : nat -> nat -> R :=
  fun i j => if (existsb (Nat.eqb i) I && existsb (Nat.eqb j) J)%bool then v else md i j.
(** np.arange(a, b, s) for s of the sign of b - a: ceil((b-a)/s) values *)
Definition rceil (x : R) : nat := Z.to_nat (- Int_part (- x)).
Definition arange (a b s : R) : list R := map (fun k => a + INR k * s) (seq 0 (rceil ((b - a) / s))).
(** lines 226-227 *)
Definition gsfc_lon (s : R) : list R := arange (-180 + s / 2) (180 + s / 2) s.
Definition gsfc_lat (s : R) : list R := arange (90 - s / 2) (-90 - s / 2) (- s).
(** lines 220-259; the transposed output is the same with indices swapped *)
Definition from_gsfc (data : list R) (s : R) (ms : list mascon) : nat -> nat -> R :=
  fold_left (fun md mv => let IJ := gsfc_cells (gsfc_lon s) (gsfc_lat s) (fst mv) in fill md (fst IJ) (snd IJ) (snd mv)) (combine (wrapped ms) data) (fun _ _ => 0).

(** JPL mascons: lat_bound[k,0], lat_bound[k,1], lon_bound[k,0..2] *)
Record jmascon := mkjm { j_lat0 : R; j_lat1 : R; j_lon0 : R; j_lon1 : R; j_lon2 : R }.
Definition jpl_cells (lon lat : list R) (m : jmascon) : list nat * list nat := (sel (j_lat1 m) (j_lat0 m) lat, sel (j_lon0 m) (j_lon2 m) lon).
(** lines 143-178: data, mask, latitude and longitude of each mascon *)
Definition to_jpl (g : nat -> nat -> R) (lon lat : list R) (ms : list jmascon) : list (option R * bool * R * R) :=
  map (fun m =>
    let ii := fst (jpl_cells lon lat m) in
    let nlt := length ii in
    let masked := (nlt =? 0)%nat in
    let c0 := ((j_lat1 m + j_lat0 m) / 2, (j_lon1 m + j_lon2 m) / 2) in
    let c1 := if Req_EM_T (Rabs (j_lat0 m)) 90 then (j_lat0 m, 0) else c0 in
    let c2 := if Req_EM_T (Rabs (j_lat1 m)) 90 then (j_lat1 m, 0) else c1 in
    (if masked then Some 0 else cell_mean lat g ii (snd (jpl_cells lon lat m)) (INR nlt), masked, fst c2, snd c2)) ms.
Definition jpl_lon (s : R) : list R := arange (s / 2) (360 + s / 2) s.
Definition jpl_lat (s : R) : list R := arange (-90 + s / 2) (90 + s / 2) s.
(** lines 301-317 *)
Definition from_jpl (data : list R) (s : R) (ms : list jmascon) : nat -> nat -> R :=
  fold_left (fun md mv => let IJ := jpl_cells (jpl_lon s) (jpl_lat s) (fst mv) in fill md (fst IJ) (snd IJ) (snd mv)) (combine ms data) (fun _ _ => 0).
