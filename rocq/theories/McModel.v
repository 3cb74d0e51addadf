(** Model of the Monte Carlo errors of the geocenter solution: scripts/monte_carlo_degree_one.py 247-866.
    The functions of calc_degree_one.py that monte_carlo_degree_one.py repeats line by line (projection on the ocean, mass on the grid, normal matrix, one month) are those of DegreeOneModel.
    Simplifications: exact real arithmetic; the random draws of numpy are given (any numbers; C114_noise is about draws between 0 and 1); the monthly fields are given after reading,
    removal of the temporal mean and filtering (442-515); the field of the error standard deviations (519-579) is given (its computation is ErrorModel.get_delta, the same lines);
    plots, file names, headers and attributes are not modelled. *)
From Coq Require Import Reals Lra Lia String List.
From Verif Require Import Base UnitsModel GaussModel Arr HarmModel LegendreModel SummationModel GenModel SleModel DestripeModel LinAlg Lstsq MasconFitModel GeoModel DegreeOneModel.
Import ListNotations.
Close Scope Z_scope.
Close Scope string_scope.
Open Scope R_scope.

(** the arguments of a Monte Carlo calculation; the fields r_gac, r_guess, r_obp and r_iterative of the record of calc_degree_one have no counterpart here and are not used *)
Record mc := mkmc {
  m_run : run;                                   (* mask, LMAX, MMAX, EXPANSION, Love numbers, radius, months, fields, FINGERPRINT, SOLVER *)
  m_time : nat -> R;                             (* tdec *)
  m_runs : nat;                                  (* RUNS *)
  m_delta : coefs; m_errors : list coefs;        (* delta_Ylms, error_Ylms *)
  m_rand : nat -> nat -> nat -> coefs }.         (* draws: run, month, file (0 is delta) *)

(** 247-273 with geocenter.from_cartesian (geocenter.py 998-1011, kl = 0): component, month *)
Definition amplitude (c : nat) : R * R * R * R :=   (* annual amplitude and phase, semiannual amplitude and phase, of Z, X and Y [mm], [degrees] *)
  match c with O => (330 / 100, 43, 50 / 100, 75) | 1%nat => (128 / 100, 44, 15 / 100, 331) | _ => (52 / 100, 182, 56 / 100, 312) end.
Definition cartesian (time : nat -> R) (c t : nat) : R :=
  let '(a, p, b, q) := amplitude c in a * sin (2 * PI * time t + p * PI / 180) + b * sin (4 * PI * time t + q * PI / 180).
Definition seasonal (n : nat) (time : nat -> R) (c t : nat) : R :=
  (cartesian time c t - mean n (cartesian time c)) / (default_radius * sqrt 3).

(** 639-645 *)
Definition noise (m : mc) (n t : nat) : coefs := fun cs l o =>
  fold_left (fun v fe => v + (1 - 2 * m_rand m n t (fst fe) cs l o) * snd fe cs l o) (combine (seq 1 (List.length (m_errors m))) (m_errors m))
    ((1 - 2 * m_rand m n t 0 cs l o) * m_delta m cs l o).

(** 386-438, 583-602: everything computed before the runs; the polynomials go up to LMAX *)
Definition mc_prepare (r : run) : res setup :=
  let '(h, k, l) := r_love r in
  do u <- harmonic h k l true false (earth (r_lmax r));                       (* 386-391 *)
  do df <- match cmwe u with Some d => Ok d | None => Err TypeError end;
  do dlat <- step_of (r_lat r); do dlon <- step_of (r_lon r);                 (* 404 *)
  do pd <- plm_holmes (r_lmax r) (map (fun x => cos (colat x)) (r_lat r)) None;  (* 422 *)
  do o <- gen_stokes (on_grid r (ocean_at r)) (r_lon r) (r_lat r) 0 1 None (GCode 1) (Some (first_two (fst pd))) (Some (r_love r));  (* 427-428 *)
  do wt <- smoothing (r_rad r) (r_lmax r);                                    (* 431-436 *)
  if ((r_lmax r <? 1) || (r_lmax r <? mm_of r))%nat%bool then Err IndexError  (* 595-600, 610 *)
  else Ok (mksetup (fst pd) df wt (deg dlon) (deg dlat) o).

(** 709-747: the ocean layer fed by the land mass; the sea level equation computes its own polynomials up to EXPANSION *)
Definition mc_eustatic (r : run) (s : setup) (lmass : nat -> nat -> R) : res (nat -> R) :=
  let lnd := on_grid r (fun i j => lmass i j * land r i j) in
  if r_fingerprint r then
    do ly <- gen_stokes lnd (r_lon r) (r_lat r) 0 (r_exp r) None (GCode 1) None (Some (r_love r));
    do sea <- sea_level_equation (clm ly) (slm ly) (r_lon r) (r_lat r) (on_grid r (land r)) (r_exp r) (Some (r_love r)) (BCode 0) (FCode 0) true 3 None 0 (/ 10 ^ 32);
    do sy <- gen_stokes sea (r_lon r) (r_lat r) 0 1 None (GCode 1) (Some (first_two (s_P s))) (Some (r_love r));
    Ok (fun c => deg1_of (fun cs l m => if cs then get (slm sy) l m 0 else get (clm sy) l m 0) c * nth 1 (s_df s) 0)
  else
    do ly <- gen_stokes lnd (r_lon r) (r_lat r) 0 1 None (GCode 1) (Some (first_two (s_P s))) (Some (r_love r));
    let ratio := - get (clm ly) 0 0 0 / get (clm (s_ocean0 s)) 0 0 0 in
    Ok (fun c => deg1_of (fun cs l m => if cs then get (slm (s_ocean0 s)) l m 0 else get (clm (s_ocean0 s)) l m 0) c * (ratio * nth 1 (s_df s) 0)).
(** 757-763: an unknown solver leaves DMAT without a value *)
Definition mc_solve (r : run) (s : setup) (v : nat -> R) : res (nat -> R) :=
  if (r_solver r =? "inv")%string then do B <- inv 3 (imat r s); Ok (fun a => rsum 3 (fun b => B a b * v b))
  else if ((r_solver r =? "lstsq") || (r_solver r =? "gelsd") || (r_solver r =? "gelsy") || (r_solver r =? "gelss"))%string then Ok (lstsq 3 3 (fun k i => imat r s i k) v)
  else Err UnboundLocalError.
(** 637-767: month t of run n; the coefficients of the noise are added to the data from degree 2 for the ocean (648-681), from degree 1 for the land (684-707) *)
Definition mc_month (m : mc) (s : setup) (n t : nat) : res (nat -> R) :=
  let r := m_run m in let E := noise m n t in
  let ocean := fun cs l o => (r_gsm r t cs l o - r_gia r t cs l o - r_atm r t cs l o) + E cs l o in
  let guess := fun c => seasonal (r_n r) (m_time m) c t in
  let lands := fun cs l o => (set_deg1 guess (r_gsm r t) cs l o - r_gia r t cs l o - r_atm r t cs l o) + E cs l o in
  let G := fun c => project r s c (mass_grid r s 2 ocean) in
  do e <- mc_eustatic r s (mass_grid r s 1 lands);
  do D <- mc_solve r s (fun c => e c - G c);
  Ok (fun c => D c + deg1_of (r_gia r t) c + deg1_of (r_atm r t) c).          (* 765-767 *)
(** 635-771: one run *)
Definition mc_one (m : mc) (s : setup) (n : nat) : res (nat -> nat -> R) :=
  let N := r_n (m_run m) in
  do L <- mapM (mc_month m s n) (seq 0 N);
  let raw := fun c t => nth t L (fun _ => 0) c in
  Ok (fun c t => raw c t - mean N (raw c)).                                   (* 769-771 *)
(** 774-793, 813-815, 860-864: mean and error of the text file (component, month; no number without runs), and the runs of the netCDF file (run, component, month) *)
Definition monte_carlo (m : mc) : res ((nat -> nat -> option R) * (nat -> nat -> option R) * (nat -> nat -> nat -> R)) :=
  do s <- mc_prepare (m_run m);
  do L <- mapM (mc_one m s) (seq 0 (m_runs m));
  let it := fun n => nth n L (fun _ _ => 0) in
  let df1 := nth 1 (s_df s) 0 in
  let avg := fun c t => mean (m_runs m) (fun n => it n c t) in
  let rms := fun c t => sqrt (sumn (m_runs m) (fun n => (it n c t - avg c t) ^ 2) / INR (m_runs m)) in
  let some := fun (f : nat -> nat -> R) c t => if (m_runs m =? 0)%nat then None else Some (1 / df1 * f c t) in
  Ok (some avg, some rms, fun n c t => it n c t / df1).
