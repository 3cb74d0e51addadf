(** Model of the geocenter solution of scripts/calc_degree_one.py 353-1134 (method of Swenson et al.).
    Simplifications: exact real arithmetic; the land-sea mask has one value per point of its latitude-longitude grid; the monthly fields (GSM, GIA, atmosphere correction, GAC)
    are given as coefficient functions after reading, removal of the temporal mean and filtering (527-606; the readers, harmonics.mean, destripe and drift are modelled elsewhere);
    plots, file names and headers are not modelled. *)
From Coq Require Import Reals Lra Lia String List ZifyBool ZifyNat.
From Verif Require Import Base UnitsModel GaussModel Arr HarmModel LegendreModel SummationModel GenModel SleModel DestripeModel LinAlg Lstsq MasconFitModel.
Import ListNotations.
Close Scope Z_scope.
Open Scope R_scope.

(** the arguments of a run; degree one coefficients are numbered 0 = C10, 1 = C11, 2 = S11 *)
Record run := mkrun {
  r_lon : list R; r_lat : list R;                     (* grid of the land-sea mask *)
  r_mask : arr (option R);                            (* mask values [latitude, longitude] *)
  r_lmax : nat; r_mmax : option nat; r_exp : nat;     (* LMAX, MMAX, EXPANSION *)
  r_love : love3; r_rad : R;                          (* Love numbers up to EXPANSION (LOVE_K1 inserted), smoothing radius *)
  r_n : nat;                                          (* number of months *)
  r_gsm : nat -> coefs; r_gia : nat -> coefs; r_atm : nat -> coefs; r_gac : nat -> coefs;
  r_guess : nat -> nat -> R;                          (* seasonal model: component, month *)
  r_obp : bool;                                       (* MODEL not in ('OMCT','MPIOM') *)
  r_fingerprint : bool; r_iterative : bool; r_solver : string }.

Definition deg1_of (Y : coefs) (c : nat) : R := match c with O => Y false 1%nat 0%nat | 1%nat => Y false 1%nat 1%nat | _ => Y true 1%nat 1%nat end.
(** 736-744: the degree one coefficients are overwritten *)
Definition set_deg1 (X : nat -> R) (Y : coefs) : coefs := fun cs l m =>
  if (l =? 1)%nat then (if cs then (if (m =? 1)%nat then X 2%nat else Y cs l m) else if (m =? 0)%nat then X 0%nat else if (m =? 1)%nat then X 1%nat else Y cs l m) else Y cs l m.
Definition mean (n : nat) (f : nat -> R) : R := sumn n f / INR n.

(** 480-518, 627-667: everything computed before the iteration *)
Record setup := mksetup {
  s_P : arr R; s_df : list R; s_wt : list R; s_dphi : R; s_dth : R; s_ocean0 : harm }.
Definition first_two (P : arr R) : arr R := mkarr (Nat.min 2 (rows P)) (Nat.min 2 (cols P)) (depth P) (get P).
(** 493-499 *)
Definition land (r : run) (i j : nat) : R := b2r (is_land (get (r_mask r) j i 0)).
Definition ocean_at (r : run) (i j : nat) : R := 1 - land r i j.
Definition on_grid (r : run) (f : nat -> nat -> R) : arr R := mkarr (List.length (r_lon r)) (List.length (r_lat r)) None (fun i j _ => f i j).
Definition mm_of (r : run) : nat := match r_mmax r with Some (S k) => S k | _ => r_lmax r end.
Definition prepare (r : run) : res setup :=
  let '(h, k, l) := r_love r in
  do u <- harmonic h k l true false (earth (r_lmax r));                       (* 467-472 *)
  do df <- match cmwe u with Some d => Ok d | None => Err TypeError end;
  do dlat <- step_of (r_lat r); do dlon <- step_of (r_lon r);                 (* 484 *)
  do pd <- plm_holmes (r_exp r) (map (fun x => cos (colat x)) (r_lat r)) None;  (* 503 *)
  do o <- gen_stokes (on_grid r (ocean_at r)) (r_lon r) (r_lat r) 0 1 None (GCode 1) (Some (first_two (fst pd))) (Some (r_love r));  (* 508-510 *)
  do wt <- smoothing (r_rad r) (r_lmax r);                                    (* 513-518 *)
  if r_obp r then Err TypeError                                               (* 623: geocenter.from_harmonics called on the class *)
  else if ((r_exp r <? r_lmax r) || (r_lmax r <? 1) || (r_lmax r <? mm_of r))%nat%bool then Err IndexError  (* 635-644, 654 *)
  else Ok (mksetup (fst pd) df wt (deg dlon) (deg dlat) o).

Section Step.
Context (r : run) (s : setup).
Definition phi (i : nat) : R := deg (nth i (r_lon r) 0).
(** 629 *)
Definition int_fact (j : nat) : R := sin (colat (nth j (r_lat r) 0)) * s_dphi s * s_dth s.
(** 653-655, 719-721 *)
Definition base (c i j : nat) : R := match c with
  | O => get (s_P s) 1 0 j * cos (INR 0 * phi i) | 1%nat => get (s_P s) 1 1 j * cos (INR 1 * phi i) | _ => get (s_P s) 1 1 j * sin (INR 1 * phi i) end.
(** 639-644 *)
Definition plmout (l m j : nat) : R := if ((1 <=? l) && (l <=? r_lmax r) && (m <=? Nat.min l (mm_of r)))%nat then get (s_P s) l m j * nth l (s_df s) 0 * nth l (s_wt s) 0 else 0.
(** 708-715 (from degree 2), 754-765 (from degree 1): mass on the grid *)
Definition mass_grid (L0 : nat) (Y : coefs) (i j : nat) : R :=
  let pcos := fun m => sumn (r_lmax r + 1) (fun l => if (L0 <=? l)%nat then plmout l m j * Y false l m else 0) in
  let psin := fun m => sumn (r_lmax r + 1) (fun l => if (L0 <=? l)%nat then plmout l m j * Y true l m else 0) in
  sumn (mm_of r + 1) (fun m => cos (INR m * phi i) * pcos m) + sumn (mm_of r + 1) (fun m => sin (INR m * phi i) * psin m).
(** 657-667, 724-726: the degree one coefficient of the ocean part of a field *)
Definition project (c : nat) (F : nat -> nat -> R) : R :=
  sumn (List.length (r_lat r)) (fun j => sumn (List.length (r_lon r)) (fun i => int_fact j * base c i j * ocean_at r i j * F i j) / (4 * PI)).
Definition imat (a b : nat) : R := project b (base a).
(** 705-707, 751-753 *)
Definition anomaly (t : nat) : coefs := fun cs l m => r_gsm r t cs l m - r_gia r t cs l m - r_atm r t cs l m.
Definition gmat (t c : nat) : R := project c (mass_grid 2 (anomaly t)).
(** 768-810: the ocean layer fed by the land mass *)
Definition eustatic (lmass : nat -> nat -> R) : res (nat -> R) :=
  let lnd := on_grid r (fun i j => lmass i j * land r i j) in
  if r_fingerprint r then
    do ly <- gen_stokes lnd (r_lon r) (r_lat r) 0 (r_exp r) None (GCode 1) (Some (s_P s)) (Some (r_love r));
    do sea <- sea_level_equation (clm ly) (slm ly) (r_lon r) (r_lat r) (on_grid r (land r)) (r_exp r) (Some (r_love r)) (BCode 0) (FCode 0) true 3 (Some (s_P s)) 0 (/ 10 ^ 32);
    do sy <- gen_stokes sea (r_lon r) (r_lat r) 0 1 None (GCode 1) (Some (first_two (s_P s))) (Some (r_love r));
    Ok (fun c => deg1_of (fun cs l m => if cs then get (slm sy) l m 0 else get (clm sy) l m 0) c * nth 1 (s_df s) 0)
  else
    do ly <- gen_stokes lnd (r_lon r) (r_lat r) 0 1 None (GCode 1) (Some (first_two (s_P s))) (Some (r_love r));
    let ratio := - get (clm ly) 0 0 0 / get (clm (s_ocean0 s)) 0 0 0 in
    Ok (fun c => deg1_of (fun cs l m => if cs then get (slm (s_ocean0 s)) l m 0 else get (clm (s_ocean0 s)) l m 0) c * (ratio * nth 1 (s_df s) 0)).
(** 834-840: an unknown solver leaves the zeros of line 691 *)
Definition solve (v : nat -> R) : res (nat -> R) :=
  if (r_solver r =? "inv")%string then do B <- inv 3 imat; Ok (fun a => rsum 3 (fun b => B a b * v b))
  else if ((r_solver r =? "lstsq") || (r_solver r =? "gelsd") || (r_solver r =? "gelsy") || (r_solver r =? "gelss"))%string then Ok (lstsq 3 3 (fun k i => imat i k) v)
  else Ok (fun _ => 0).
(** 733-840: month t of one iteration; [X] are the degree one coefficients of the month *)
Definition month_step (X : nat -> R) (t : nat) : res (nat -> R) :=
  let Y := fun cs l m => set_deg1 X (r_gsm r t) cs l m - r_gia r t cs l m - r_atm r t cs l m in
  do e <- eustatic (mass_grid 1 Y);
  solve (fun c => e c - gmat t c).
(** 842-844, 865-867 *)
Definition restored (D : nat -> nat -> R) (c t : nat) : R := D t c / nth 1 (s_df s) 0 + deg1_of (r_gia r t) c + deg1_of (r_atm r t) c.
(** 851-855 and the test of 729: relative change above 1e-6 (a division of zero by zero is not above) *)
Definition continues (X X' : nat -> nat -> R) : bool :=
  let sigma := sumn 3 (fun c => sumn (r_n r) (fun t => (X c t - X' c t) ^ 2)) in
  let power := sumn (r_n r) (fun t => X 0%nat t ^ 2 + X 1%nat t ^ 2 + X 2%nat t ^ 2) in
  if Req_EM_T power 0 then (if Rlt_dec 0 sigma then true else false)
  else if Rlt_dec (/ 10 ^ 6) (sqrt sigma / sqrt power) then true else false.
(** 729-857: the iterations made so far (newest first), and the unreduced values of the last one *)
Fixpoint iterate (fuel : nat) (X : nat -> nat -> R) (done : list (nat -> nat -> R)) : res (list (nat -> nat -> R) * (nat -> nat -> R)) :=
  match fuel with
  | O => Ok (done, fun _ _ => 0)
  | S k =>
      do L <- mapM (fun t => month_step (fun c => X c t) t) (seq 0 (r_n r));
      let raw := restored (fun t => nth t L (fun _ => 0)) in
      let X' := fun c t => raw c t - mean (r_n r) (raw c) in
      match k with
      | O => Ok (X' :: done, raw)
      | S _ => if continues X X' then iterate k X' (X' :: done) else Ok (X' :: done, raw)
      end
  end.
End Step.

(** 353-1134: degree one coefficients, the same with dealiasing restored, the iterations (oldest first), and the group AOD of the netCDF file (970) *)
Definition calc_degree_one (r : run) : res ((nat -> nat -> R) * (nat -> nat -> R) * list (nat -> nat -> R) * (nat -> nat -> R)) :=
  do s <- prepare r;
  do p <- iterate r s (if r_iterative r then 15 else 1) (r_guess r) [];
  let raw := snd p in
  let deg1 := fun c t => raw c t - mean (r_n r) (raw c) in                    (* 869 *)
  Ok (deg1, fun c t => deg1 c t + deg1_of (r_gac r t) c, rev (fst p), fun c t => 1 / nth 1 (s_df s) 0 * deg1_of (r_gac r t) c).

