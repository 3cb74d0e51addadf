(** Model of the least squares mascon fit of scripts/calc_mascon.py and the sensitivity kernels of scripts/calc_sensitivity_kernel.py.
    Simplifications: exact real arithmetic; the coefficient files are given as functions [cs l m] (cs = false for clm, true for slm)
    defined for all degrees up to LMAX and orders up to MMAX (they were read by harmonics.from_file and cut by truncate, modelled in HarmModel);
    the text output is the list of numbers printed. *)
From Coq Require Import Reals Lra Lia String List ZifyBool ZifyNat.
From Verif Require Import Base UnitsModel GaussModel SummationModel GenModel DestripeModel LinAlg Lstsq.
Import ListNotations.
Close Scope Z_scope.
Open Scope R_scope.

Definition coefs : Type := bool -> nat -> nat -> R.
Definition b2n (cs : bool) : nat := if cs then 1%nat else 0%nat.

(** calc_mascon.py 617-646 (calc_sensitivity_kernel.py 306-327, 376-389): the order in which the loops visit the harmonics:
    first clm with orders from 0, then slm with orders from 1 *)
Definition harm_idx (LMIN LMAX MM : nat) : list (bool * nat * nat) :=
  flat_map (fun cs => flat_map (fun l => map (fun m => (cs, l, m)) (seq (b2n cs) (Nat.min MM l + 1 - b2n cs))) (seq LMIN (LMAX + 1 - LMIN))) [false; true].
(** calc_mascon.py 589 (calc_sensitivity_kernel.py 284) *)
Definition n_harm (LMIN LMAX MM : nat) : Z :=
  let L := Z.of_nat LMAX in let M := Z.of_nat MM in (L ^ 2 - Z.of_nat LMIN ^ 2 + 2 * L + 1 - (L - M) ^ 2 - (L - M))%Z.
(** a vector of length n filled in that order: the entries never reached stay zero *)
Definition row (idx : list (bool * nat * nat)) (v : bool -> nat -> nat -> R) (i : nat) : R :=
  nth i (map (fun q => v (fst (fst q)) (snd (fst q)) (snd q)) idx) 0.

(** calc_mascon.py 498 (calc_sensitivity_kernel.py 257): total area (cm^2) of a mascon of 1 cm of water *)
Definition total_area (LMAX : nat) (Y : coefs) : R := 4 * PI * rad_e (earth LMAX) ^ 3 * rho_e (earth LMAX) * Y false 0%nat 0%nat / 3.
(** calc_mascon.py 500-510 (calc_sensitivity_kernel.py 259-269): uniform redistribution over the ocean *)
Definition redistribute (LMAX MM : nat) (ocean Y : coefs) : coefs := fun cs l m =>
  if ((m <=? MM) && (m <=? l) && (l <=? LMAX))%nat then Y cs l m - Y false 0%nat 0%nat / ocean false 0%nat 0%nat * ocean cs l m else Y cs l m.
Definition mascon_coefs (LMAX MM : nat) (ocean : option coefs) (Y : coefs) : coefs :=
  match ocean with Some o => redistribute LMAX MM o Y | None => Y end.

(** calc_mascon.py 642 *)
Definition fact_of (kl : list R) (l : nat) : R := (2 * INR l + 1) / (1 + nth l kl 0).
(** calc_mascon.py 649-659 (calc_sensitivity_kernel.py 330-342): fit matrix (column k, row i) and fit factors.
    Method 2 writes every row of the matrix in every pass (line 658, 340), so that all rows end up equal to the last one *)
Definition fit_matrix (METHOD : Z) (n : nat) (M : nat -> nat -> R) (wt fact : nat -> R) : res ((nat -> nat -> R) * (nat -> R)) :=
  if (METHOD =? 1)%Z then Ok (fun k i => M k i * wt i * fact i, fun i => wt i * fact i)
  else if (METHOD =? 2)%Z then Ok (fun k i => M k (n - 1)%nat * wt (n - 1)%nat, wt)
  else Err UnboundLocalError.
(** calc_mascon.py 662-675 (calc_sensitivity_kernel.py 345-358): the response of the fit to harmonic i *)
Definition solve_kernel (SOLVER : string) (p n : nat) (MA : nat -> nat -> R) (fit : nat -> R) : res (nat -> nat -> R) :=
  let kern := fun i => (fun i' => if (i' =? i)%nat then fit i else 0) in
  if (SOLVER =? "inv")%string then
    if negb (n =? p)%nat then Err OtherExn                                   (* LinAlgError: not square *)
    else do B <- inv p (fun i k => MA k i); Ok (fun i k => dot n (B k) (kern i))
  else if ((SOLVER =? "lstsq") || (SOLVER =? "gelsd") || (SOLVER =? "gelsy") || (SOLVER =? "gelss"))%string
  then Ok (fun i => lstsq p n MA (kern i))
  else Err UnboundLocalError.
(** calc_mascon.py 589-678 (calc_sensitivity_kernel.py 284-361): A_lm *)
Definition mascon_kernel (LMIN LMAX MM : nat) (kl wt : list R) (ocean : option coefs) (files : list coefs) (METHOD : Z) (SOLVER : string) : res (nat -> nat -> R) :=
  let idx := harm_idx LMIN LMAX MM in
  let p := List.length files in
  if (n_harm LMIN LMAX MM <? 0)%Z then Err ValueError                        (* np.zeros *)
  else let n := Z.to_nat (n_harm LMIN LMAX MM) in
  if (n <? List.length idx)%nat then Err IndexError
  else if (n =? 0)%nat then Ok (fun _ _ => 0)
  else
    let M := fun k => row idx (mascon_coefs LMAX MM ocean (nth k files (fun _ _ _ => 0))) in
    do fm <- fit_matrix METHOD n M (row idx (fun _ l _ => nth l wt 0)) (row idx (fun _ l _ => fact_of kl l));
    do kern <- solve_kernel SOLVER p n (fst fm) (snd fm);
    Ok (fun i k => kern i k * total_area LMAX (nth k files (fun _ _ _ => 0))).
(** calc_mascon.py 637-638, 640, 681-711: the mass of mascon k in month t and its error, in Gt, and its area in km^2.
    [Y t]: coefficients of month t minus GIA, removed fields and reconstructed fields; [delta]: coefficient errors *)
Definition calc_mascon (LMIN LMAX : nat) (MMAX : option nat) (kl : list R) (RAD : R) (ocean : option coefs) (files : list coefs) (METHOD : Z) (SOLVER : string)
   (grace gia remove construct : nat -> coefs) (delta : coefs) : res ((nat -> nat -> R) * (nat -> R) * (nat -> R)) :=
  let MM := match MMAX with Some (S k) => S k | _ => LMAX end in            (* np.copy(LMAX) if not MMAX else MMAX *)
  do wt <- smoothing RAD LMAX;
  do A <- mascon_kernel LMIN LMAX MM kl wt ocean files METHOD SOLVER;
  let idx := harm_idx LMIN LMAX MM in let n := Z.to_nat (n_harm LMIN LMAX MM) in
  let Ylm := fun t => row idx (fun cs l m => grace t cs l m - gia t cs l m - remove t cs l m - construct t cs l m) in
  Ok (fun k t => rsum n (fun i => A i k * Ylm t i) / 10 ^ 15,
      fun k => sqrt (rsum n (fun i => (row idx delta i * A i k) ^ 2)) / 10 ^ 15,
      fun k => total_area LMAX (nth k files (fun _ _ _ => 0)) / 10 ^ 10).
(** calc_sensitivity_kernel.py 320-323, 335-342, 369-389: the kernel of mascon k *)
Definition sensitivity_kernel (LMIN LMAX : nat) (MMAX : option nat) (kl : list R) (RAD : R) (ocean : option coefs) (files : list coefs) (METHOD : Z) (SOLVER : string)
   : res (nat -> coefs) :=
  let MM := match MMAX with Some (S k) => S k | _ => LMAX end in
  do wt <- smoothing RAD LMAX;
  do A <- mascon_kernel LMIN LMAX MM kl wt ocean files METHOD SOLVER;
  let idx := harm_idx LMIN LMAX MM in
  let coeff_inv := 75 / 100 / (PI * rho_e (earth LMAX) * rad_e (earth LMAX) ^ 3) in
  let inv_fit := fun l => if (METHOD =? 1)%Z then coeff_inv * (1 + nth l kl 0) / (2 * INR l + 1) else 1 in
  Ok (fun k cs l m => rsum (List.length idx) (fun i =>
        match nth_error idx i with
        | Some (cs', l', m') => if (Bool.eqb cs cs' && (l =? l') && (m =? m'))%nat then inv_fit l * A i k else 0
        | None => 0 end)).
