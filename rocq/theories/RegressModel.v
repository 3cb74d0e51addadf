(** Model of gravity_toolkit/time_series/regress.py and piecewise.py (exact real
    arithmetic; np.linalg.lstsq and np.linalg.inv from LinAlg). *)
From Coq Require Import Reals Lra.
From Verif Require Import Base DestripeModel LinAlg.
Close Scope Z_scope.
Open Scope R_scope.

Definition at_ (l : list R) (i : nat) : R := nth i l 0.
Definition tab (n : nat) (f : nat -> R) : list R := map f (seq 0 n).
Definition sum_ (l : list R) : R := fold_right Rplus 0 l.
Definition mean_ (l : list R) : R := sum_ l / INR (length l).

(** keyword argument DATA_ERR: a number or an array *)
Inductive data_err := Scalar (e : R) | Array (es : list R).
(** keyword argument RELATIVE (regress.py 195-200): indices, a number, Ellipsis *)
Inductive relative := RelIdx (ix : list Z) | RelVal (r : R) | RelAll.

(** regress.py 195-200 *)
Definition t_rel (rel : relative) (t : list R) : res R :=
  match rel with
  | RelIdx ix => do v <- mapM (py_get t) ix; Ok (mean_ v)
  | RelVal r => Ok r
  | RelAll => Ok (mean_ t)
  end.

(** regress.py 209-214, piecewise.py 198-203: cyclical and extra columns *)
Definition cycle_cols (t : list R) (cycles : list R) : list (list R) :=
  flat_map (fun c => [map (fun x => sin (2 * PI * x / c)) t; map (fun x => cos (2 * PI * x / c)) t]) cycles.
(** regress.py 204-216 (columns of DMAT) *)
Definition design (order : nat) (r : R) (t cycles : list R) (terms : list (list R)) : list (list R) :=
  map (fun o => map (fun x => (x - r) ^ o) t) (seq 0 (order + 1)) ++ cycle_cols t cycles ++ terms.

Definition col (D : list (list R)) (j i : nat) : R := at_ (nth j D []) i.

(** everything the two functions compute alike *)
Record lsfit := mkfit { f_beta : list R; f_model : list R; f_residual : list R; f_dof : Z; f_n : nat;
  f_R2 : R; f_R2Adj : R; f_loglik : R; f_AIC : R; f_BIC : R; f_cov : nat -> nat -> R;
  f_w : nat -> R;            (* the weights wi *)
  f_data_err : data_err      (* the caller's DATA_ERR after the call *) }.

(** np.finfo(np.float64).eps *)
Definition eps : R := / 2 ^ 52.

(** weighted solution: regress.py 220-237, piecewise.py 209-226; the Err values are numpy's
    shape errors and LinAlgError.  [Array] is a one-dimensional float array. *)
Definition weighted (D : list (list R)) (n : nat) (d : list R) (err : data_err) : res (list R * (nat -> R) * data_err * (nat -> nat -> R)) :=
  let p := length D in
  match err with
  | Scalar _ => Err ValueError
  | Array es =>
    let es := map (fun e => if Req_EM_T e 0 then eps else e) es in
    let w i := / (at_ es i) ^ 2 in
    if (length es =? n)%nat && (length d =? n)%nat then
      do H <- inv p (fun j k => rsum n (fun i => col D j i * (w i * col D k i)));
      let rhs j := rsum n (fun i => col D j i * (w i * at_ d i)) in
      Ok (tab p (fun j => rsum p (fun k => H j k * rhs k)), w, Array es, H)
    else Err ValueError
  end.
(** standard solution: regress.py 239-241, piecewise.py 228-230 *)
Definition unweighted (D : list (list R)) (n : nat) (d : list R) : res (list R) :=
  if (length d =? n)%nat then Ok (tab (length D) (lsq (length D) n (col D) (at_ d))) else Err OtherExn.

(** regress.py 216-292, 311, 338; piecewise.py 205-286, 309, 339.  numpy divides by zero
    (SStotal, AICc) or takes log 0 without raising; the model has Coq's value there.
    [(nmax-1.0)/nu] is Python division: ZeroDivisionError when nu = 0.  [DATA_ERR != 0]
    of an array with two or more elements has no truth value: ValueError. *)
Definition fit_core (D : list (list R)) (n : nat) (d : list R) (err : data_err) (weight aicc : bool) : res lsfit :=
  let p := length D in
  if negb (forallb (fun c => length c =? n)%nat D) then Err ValueError else
  do sol <- (if weight then weighted D n d err
             else do b <- unweighted D n d; Ok (b, (fun _ => 1), err, (fun _ _ => 0)));
  let '(beta, w, err', Hw) := sol in
  let modl := tab n (comb p (col D) (at_ beta)) in
  let resid := tab n (fun i => at_ d i - at_ modl i) in
  let nu := (Z.of_nat n - Z.of_nat p)%Z in
  let m := mean_ d in
  let SStotal := rsum n (fun i => (at_ d i - m) * (at_ d i - m)) in
  let SSerror := rsum n (fun i => at_ resid i * at_ resid i) in
  if (nu =? 0)%Z then Err ZeroDivision else
  let K := INR p + 1 in
  let sumlog := if weight then rsum n (fun i => ln (w i)) else ln 1 in
  let loglik := / 2 * (sumlog - INR n * (ln (2 * PI) + 1 - ln (INR n) + ln (rsum n (fun i => w i * at_ resid i ^ 2)))) in
  let AIC := -2 * loglik + 2 * K + (if aicc then 2 * K * (K + 1) / (INR n - K - 1) else 0) in
  let BIC := -2 * loglik + ln (INR n) * K in
  do H <- (if weight then Ok Hw
           else match err with
                | Array (_ :: _ :: _) => Err ValueError
                | _ => inv p (gram n (col D))
                end);
  Ok (mkfit beta modl resid nu p (1 - SSerror / SStotal) (1 - SSerror / SStotal * ((INR n - 1) / IZR nu))
        loglik AIC BIC H w err').

Definition mse (f : lsfit) : R := sum_ (map (fun r => r * r) (f_residual f)) / IZR (f_dof f).
(** rows of NORMEQ: regress.py 294 / 313 *)
Definition normeq (D : list (list R)) (f : lsfit) (j i : nat) : R := rsum (f_n f) (fun k => f_cov f j k * (f_w f i * col D k i)).

(** dictionary returned by regress; [r_mse] is MSE or WSSE *)
Record regression := mkreg { r_fit : lsfit; r_error : list R; r_std_err : option (list R); r_mse : R; r_nrmse : option R;
  r_simple : list R; r_season : list R }.

Definition is_scalar (e : data_err) : R := match e with Scalar x => x | Array [x] => x | Array _ => 0 end.
(** regress.py 342-353: significance level and t value; [erf] and [tppf] are scipy's functions *)
Definition t_star (erf : R -> R) (tppf : R -> Z -> R) (stdev conf : R) (nu : Z) : R :=
  let alpha := if Req_EM_T stdev 0 then (if Req_EM_T conf 0 then 1 - 95 / 100 else 1 - conf) else 1 - erf (stdev / sqrt 2) in
  tppf (1 - alpha / 2) nu.

Definition rmax (l : list R) : R := match l with [] => 0 | x :: t => fold_left Rmax t x end.
Definition rmin (l : list R) : R := match l with [] => 0 | x :: t => fold_left Rmin t x end.

(** regress.py 108-362 *)
Definition regress (erf : R -> R) (tppf : R -> Z -> R) (t d : list R) (order : nat) (cycles : list R) (terms : list (list R))
    (err : data_err) (weight : bool) (rel : relative) (stdev conf : R) (aicc : bool) : res regression :=
  let n := length t in
  if (n =? 1)%nat then Err TypeError (* np.squeeze makes it a scalar: len() fails *) else
  do r <- t_rel rel t;
  let D := design order r t cycles terms in
  do f <- fit_core D n d err weight aicc;
  let simple := tab n (comb (order + 1) (col D) (at_ (f_beta f))) in
  let season := tab n (fun i => at_ (f_model f) i - at_ simple i) in
  let p := length D in
  if weight then
    let es := match f_data_err f with Array es => es | Scalar _ => [] end in
    Ok (mkreg f (tab p (fun j => sqrt (rsum n (fun i => (normeq D f j i * at_ es i) ^ 2)))) None
          (rsum n (fun i => (f_w f i * at_ (f_residual f) i) * (f_w f i * at_ (f_residual f) i)) / IZR (f_dof f)) None simple season)
  else if Req_EM_T (is_scalar err) 0 then
    let st := tab p (fun j => sqrt (mse f * f_cov f j j)) in
    Ok (mkreg f (map (fun s => t_star erf tppf stdev conf (f_dof f) * s) st) (Some st) (mse f)
          (Some (sqrt (mse f) / (rmax d - rmin d))) simple season)
  else
    Ok (mkreg f (tab p (fun j => sqrt (rsum n (fun i => (normeq D f j i * is_scalar err) ^ 2)))) None (mse f) None simple season).

(** piecewise.py 179-184: BREAKPOINT wins over BREAK_TIME; neither leaves nco unbound *)
Definition dist_le (t : list R) (b : R) (i j : nat) : bool := if Rle_dec (Rabs (at_ t i - b)) (Rabs (at_ t j - b)) then true else false.
(** np.argmin: first index of the least value *)
Definition argmin_dist (t : list R) (b : R) : nat :=
  fold_left (fun best i => if dist_le t b best i then best else i) (seq 0 (length t)) 0%nat.
Definition breakpoint (t : list R) (bp : option Z) (bt : option R) : res (nat * R) :=
  match bp, bt with
  | Some k, _ => do tc <- py_get t k; Ok (Z.to_nat (if (k <? 0)%Z then k + Z.of_nat (length t) else k), tc)
  | None, Some b => if (length t =? 0)%nat then Err ValueError else Ok (argmin_dist t b, b)
  | None, None => Err UnboundLocalError
  end.
(** piecewise.py 189-205 *)
Definition pw_design (t : list R) (nco : nat) (tco : R) (cycles : list R) (terms : list (list R)) : list (list R) :=
  [map (fun _ => 1) t; t; tab (length t) (fun i => if (nco <=? i)%nat then at_ t i - tco else 0)] ++ cycle_cols t cycles ++ terms.

Record pw_result := mkpw { p_fit : lsfit; p_beta : list R; p_error : list R; p_std_err : option (list R); p_mse : R; p_nrmse : option R; p_simple : list R }.
(** piecewise.py 235, 296, 317, 362, 365: replace entry 2 *)
Definition comb2 (l : list R) : list R := upd l 2 (sqrt (at_ l 1 ^ 2 + at_ l 2 ^ 2)).

(** piecewise.py 99-370 *)
Definition piecewise (erf : R -> R) (tppf : R -> Z -> R) (t d : list R) (bp : option Z) (bt : option R) (cycles : list R) (terms : list (list R))
    (err : data_err) (weight : bool) (stdev conf : R) (aicc : bool) : res pw_result :=
  let n := length t in
  if (n =? 1)%nat then Err TypeError else
  do brk <- breakpoint t bp bt;
  let '(nco, tco) := brk in
  let D := pw_design t nco tco cycles terms in
  do f <- fit_core D n d err weight aicc;
  let p := length D in
  let beta_out := upd (f_beta f) 2 (at_ (f_beta f) 1 + at_ (f_beta f) 2) in
  let simple := tab n (comb 3 (col D) (at_ (f_beta f))) in
  if weight then
    let es := match f_data_err f with Array es => es | Scalar _ => [] end in
    Ok (mkpw f beta_out (comb2 (tab p (fun j => sqrt (rsum n (fun i => (normeq D f j i * at_ es i) ^ 2))))) None
          (rsum n (fun i => (f_w f i * at_ (f_residual f) i) * (f_w f i * at_ (f_residual f) i)) / IZR (f_dof f)) None simple)
  else if Req_EM_T (is_scalar err) 0 then
    let st := tab p (fun j => sqrt (mse f * f_cov f j j)) in
    Ok (mkpw f beta_out (comb2 (map (fun s => t_star erf tppf stdev conf (f_dof f) * s) st)) (Some (comb2 st)) (mse f)
          (Some (sqrt (mse f) / (rmax d - rmin d))) simple)
  else (* line 314: no square root *)
    Ok (mkpw f beta_out (comb2 (tab p (fun j => rsum n (fun i => (normeq D f j i * is_scalar err) ^ 2)))) None (mse f) None simple).
