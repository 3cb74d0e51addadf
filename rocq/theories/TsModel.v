(** Model of gravity_toolkit/time_series: amplitude.py, smooth.py, lomb_scargle.py, savitzky_golay.py, fit.py
    (exact real arithmetic). *)
From Coq Require Import Reals Lra.
From Verif Require Import Base DestripeModel LinAlg RegressModel.
Close Scope Z_scope.
Open Scope R_scope.

(** numpy.arctan2 (without signed zeros) *)
Definition atan2 (y x : R) : R :=
  if Rlt_dec 0 x then atan (y / x)
  else if Rlt_dec x 0 then (if Rle_dec 0 y then atan (y / x) + PI else atan (y / x) - PI)
  else if Rlt_dec 0 y then PI / 2 else if Rlt_dec y 0 then - (PI / 2) else 0.

(** amplitude.py 33-53 *)
Definition amplitude (bsin bcos : R) : R * R := (sqrt (bsin ^ 2 + bcos ^ 2), 180 * atan2 bcos bsin / PI).

(** slice [l[a:b]] for 0 <= a, b *)
Definition slice {A} (l : list A) (a b : nat) : list A := skipn a (firstn b l).

(** smooth.py 139-169, MOVING=True.  The result is (data, time); an entry of data is None when it is not
    a number (HFWTH = 0 divides by zero).  np.zeros of a negative size raises ValueError; a length-1 series
    is squeezed to a scalar, whose len() raises TypeError. *)
Definition moving (t d : list R) (H : nat) : res (list (option R) * list R) :=
  let n := length t in
  if (n =? 1)%nat then Err TypeError
  else if (n <? 2 * H)%nat then Err ValueError
  else
    let count := (n - 2 * H)%nat in
    if (negb (count =? 0) && (length d <? n))%nat then Err IndexError
    else
      let smth k := sum_ (slice d (k + 1) (k + 2 * H)) + 1 / 2 * (at_ d k + at_ d (k + 2 * H)) in
      Ok (map (fun k => if (H =? 0)%nat then None else Some (smth k / (2 * INR H))) (seq 0 count), slice t H (n - H)).

(** smooth.py 205-215, 271-281: columns of TMAT for one window *)
Definition seas_col (t : list R) (i j k : nat) : R :=
  let x := at_ t (i + k) in
  match j with
  | 0%nat => 1 | 1%nat => x
  | 2%nat => sin (2 * PI * x) | 3%nat => cos (2 * PI * x)
  | 4%nat => sin (4 * PI * x) | _ => cos (4 * PI * x)
  end.

Record seasonal := mkseas { s_data : R; s_trend : R; s_season : R; s_annual : R; s_annamp : R; s_annphase : R;
  s_semiann : R; s_semiamp : R; s_semiphase : R; s_noise : R; s_reduce : R; s_error : R }.

(** smooth.py 147-155 and 313: t value *)
(** smooth.py 269-339: the window starting at epoch i (default mode); raises LinAlgError when the normal
    matrix is singular *)
Definition window_fit (erf : R -> R) (tppf : R -> Z -> R) (t d : list R) (H i : nat) (err stdev conf : R) : res seasonal :=
  let w := (2 * H + 1)%nat in
  let T := seas_col t i in
  let beta := lsq 6 w T (fun k => at_ d (i + k)) in
  let nu := (Z.of_nat w - 6)%Z in
  do Hinv <- inv 6 (gram w T);
  let resid k := at_ d (i + k) - comb 6 T beta k in
  let e1 := if Req_EM_T err 0
            then t_star erf tppf stdev conf nu * sqrt (rsum w (fun k => resid k * resid k) / IZR nu * Hinv 1%nat 1%nat)
            else sqrt (rsum w (fun k => (rsum 6 (fun l => Hinv 1%nat l * T l k) * err) ^ 2)) in
  let sm := T 0%nat H * beta 0%nat + T 1%nat H * beta 1%nat in
  let se := T 2%nat H * beta 2%nat + T 3%nat H * beta 3%nat + T 4%nat H * beta 4%nat + T 5%nat H * beta 5%nat in
  let an := T 2%nat H * beta 2%nat + T 3%nat H * beta 3%nat in
  let sa := T 4%nat H * beta 4%nat + T 5%nat H * beta 5%nat in
  Ok (mkseas sm (beta 1%nat) se an (sqrt (beta 2%nat ^ 2 + beta 3%nat ^ 2)) (atan2 (beta 3%nat) (beta 2%nat) * 180 / PI)
        sa (sqrt (beta 4%nat ^ 2 + beta 5%nat ^ 2)) (atan2 (beta 5%nat) (beta 4%nat) * 180 / PI)
        (at_ d (i + H) - sm - se) (at_ d (i + H)) e1).
(** smooth.py 252-344 *)
Definition smooth (erf : R -> R) (tppf : R -> Z -> R) (t d : list R) (H : nat) (err stdev conf : R) : res (list seasonal * list R) :=
  let n := length t in
  if (n =? 1)%nat then Err TypeError
  else if (n <? 2 * H)%nat then Err ValueError
  else
    let count := (n - 2 * H)%nat in
    if (negb (count =? 0) && (length d <? n))%nat then Err IndexError
    else do l <- mapM (fun i => window_fit erf tppf t d H i err stdev conf) (seq 0 count); Ok (l, slice t H (n - H)).

(** smooth.py 181-192: window weights for WEIGHT = 1 (linear) and 2 (Gaussian) *)
Definition win_weight (WEIGHT H k : nat) : R :=
  if (WEIGHT =? 1)%nat then (if (k <=? H)%nat then INR (k + 1) else INR (2 * H + 1 - k))
  else exp (- (INR k - INR H) ^ 2 / (2 * 2 ^ 2)) / (2 * sqrt (2 * PI)).
(** [a[ran] += v] for ran = i .. i+2H *)
Definition add_window (H i : nat) (a v : nat -> R) : nat -> R :=
  fun j => if ((i <=? j) && (j <=? i + 2 * H))%nat then a j + v (j - i)%nat else a j.
(** one accumulated array: [a[ran] += wi*v] for every window i *)
Definition accum (n H : nat) (v : nat -> nat -> R) : nat -> R :=
  fold_left (fun a i => add_window H i a (v i)) (seq 0 (n - 2 * H)) (fun _ => 0).
(** a[j]/weight[j]: None when numpy gives nan (0/0) *)
Definition ratio (a w : R) : option R := if Req_EM_T w 0 then None else Some (a / w).
Definition osub (a : R) (x y : option R) : option R :=
  match x, y with Some x, Some y => Some (a - x - y) | _, _ => None end.
Record weighted := mkwt { w_data : nat -> option R; w_season : nat -> option R; w_annual : nat -> option R; w_annamp : nat -> option R;
  w_annphase : nat -> option R; w_semiann : nat -> option R; w_semiamp : nat -> option R; w_semiphase : nat -> option R;
  w_noise : nat -> option R; w_weight : nat -> R }.
(** smooth.py 194-251, WEIGHT in (1,2), outputs as functions of the epoch 0 .. len(t)-1; t and d have the same length.
    lstsq is LinAlg.lsq: numpy's answer when the window's columns are independent. *)
Definition smooth_weighted (t d : list R) (H WEIGHT : nat) : weighted :=
  let n := length t in
  let w := (2 * H + 1)%nat in
  let wi := win_weight WEIGHT H in
  let beta i := lsq 6 w (seas_col t i) (fun k => at_ d (i + k)) in
  let part i k (a : nat) := seas_col t i a k * beta i a in
  let acc v := accum n H (fun i k => wi k * v i k) in
  let wt := accum n H (fun _ => wi) in
  let mean v j := ratio (acc v j) (wt j) in
  let sm := mean (fun i k => part i k 0%nat + part i k 1%nat) in
  let se := mean (fun i k => part i k 2%nat + part i k 3%nat + part i k 4%nat + part i k 5%nat) in
  mkwt sm se
    (mean (fun i k => part i k 2%nat + part i k 3%nat)) (mean (fun i k => sqrt (beta i 2%nat ^ 2 + beta i 3%nat ^ 2)))
    (mean (fun i k => atan2 (beta i 3%nat) (beta i 2%nat) * 180 / PI))
    (mean (fun i k => part i k 4%nat + part i k 5%nat)) (mean (fun i k => sqrt (beta i 4%nat ^ 2 + beta i 5%nat ^ 2)))
    (mean (fun i k => atan2 (beta i 5%nat) (beta i 4%nat) * 180 / PI))
    (fun j => osub (at_ d j) (sm j) (se j)) wt.

(** lomb_scargle.py 116-125: angular frequency range; an empty list is false *)
Definition omega_range (OMEGA FREQUENCY PERIOD : list R) : res (list R) :=
  match OMEGA, FREQUENCY, PERIOD with
  | _ :: _, _, _ => Ok OMEGA
  | [], _ :: _, _ => Ok (map (fun f => f / (2 * PI)) FREQUENCY)
  | [], [], _ :: _ => Ok (map (fun p => 2 * PI / p) PERIOD)
  | [], [], [] => Err ValueError
  end.
(** np.linspace(a, b, N) *)
Definition linspace (a b : R) (N : nat) : list R :=
  if (N =? 1)%nat then [a] else tab N (fun i => a + INR i * (b - a) / INR (N - 1)).
Record periodogram := mkpg { g_power : list R; g_freq : list R; g_period : list R; g_nyquist : R }.
(** np.std *)
Definition std_ (l : list R) : R := sqrt (mean_ (map (fun x => (x - mean_ l) ^ 2) l)).
(** lomb_scargle.py 108-165; [ls t data w] is scipy.signal.lombscargle, any function; N >= 1; data are finite;
    the false alarm probabilities, contours, peak and centroid are functions of these outputs and are not modelled *)
Definition lomb_scargle (ls : list R -> list R -> list R -> list R) (t d OMEGA FREQUENCY PERIOD : list R) (N : nat) : res periodogram :=
  let ny := 1 / (2 * mean_ (map (fun i => at_ t (i + 1) - at_ t i) (seq 0 (length t - 1)))) in
  do om <- omega_range OMEGA FREQUENCY PERIOD;
  match om with
  | [a; b] =>
    let w := linspace a b N in
    let t0 := map (fun x => x - at_ t 0) t in
    let dn := map (fun x => (x - mean_ d) / std_ d) d in
    Ok (mkpg (ls t0 dn w) (map (fun x => x / (2 * PI)) w) (map (fun x => 2 * PI / x) w) ny)
  | _ => Err AssertionErr
  end.

(** savitzky_golay.py 103-108 *)
Definition sg_window (WINDOW : option Z) (ORDER : nat) : res Z :=
  let o := Z.of_nat ORDER in
  let w := match WINDOW with Some w => w | None => (o + -1 * (o mod 2) + 3)%Z end in
  if ((negb (w mod 2 =? 1) || (w <? 1)))%Z then Err ValueError
  else if (w <? o + 2)%Z then Err ValueError else Ok w.
(** np.convolve(a, v, mode='valid')[k] for length a <= length v *)
Definition convolve_valid (a v : list R) (k : nat) : R :=
  rsum (length a) (fun j => at_ a j * at_ v (k + (length a - 1) - j)).
(** savitzky_golay.py 123-129: weights of the window that starts at epoch n.  pinv(b)[DERIV] . e_i is the
    DERIV-th least squares coefficient of the unit vector e_i (b has independent columns whenever the window has more
    distinct times than ORDER). *)
Definition sg_weights (t : list R) (ORDER DERIV h n : nat) (RATE : R) : list R :=
  tab (2 * h + 1) (fun i => lsq (ORDER + 1) (2 * h + 1) (fun o k => (at_ t (n + k) - at_ t (n + h)) ^ o) (delta i) DERIV
                            * RATE ^ DERIV * INR (fact DERIV)).
(** savitzky_golay.py 124-141: one output epoch *)
Definition sg_point (t y : list R) (ORDER DERIV h n : nat) (RATE : R) (err : R) : R * R :=
  let yran := tab (2 * h + 1) (fun k => at_ y (n + k)) in
  let m := sg_weights t ORDER DERIV h n RATE in
  let y0 := at_ yran 0 in let yl := at_ yran (2 * h) in
  let firstvals := map (fun x => y0 - Rabs (x - y0)) (rev (slice yran 1 (h + 1))) in
  let lastvals := map (fun x => yl + Rabs (x - yl)) (rev (slice yran (2 * h - h) (2 * h))) in
  let yn := firstvals ++ yran ++ lastvals in
  (convolve_valid (rev m) yn h,
   if Req_EM_T err 0 then 0
   else sqrt (convolve_valid (map (fun x => x ^ 2) (rev m)) (tab (4 * h + 1) (fun _ => err ^ 2)) h)).
(** savitzky_golay.py 65-143 *)
Definition savitzky_golay (t y : list R) (WINDOW : option Z) (ORDER DERIV : nat) (RATE err : R) : res (list (R * R) * list R) :=
  do w <- sg_window WINDOW ORDER;
  let n := length t in
  if (n =? 1)%nat then Err TypeError else
  let h := Z.to_nat ((w - 1) / 2) in
  if (n <? 2 * h)%nat then Err ValueError
  else if (negb (n - 2 * h =? 0))%nat && ((length y <? n) || (ORDER <? DERIV))%nat then Err IndexError
  else Ok (map (fun i => sg_point t y ORDER DERIV h i RATE err) (seq 0 (n - 2 * h)), slice t h (n - h)).

(** fit.py 18-56: aliasing terms before and after 2018.0 *)
Definition aliasing_terms (t : list R) (period : R) : list (list R) :=
  let early f := map (fun x => if Rlt_dec x 2018 then f (PI * x * (7305 / 10) / period) else 0) t in
  let late f := map (fun x => if Rle_dec 2018 x then f (PI * x * (7305 / 10) / period) else 0) t in
  [early sin; early cos; late sin; late cos].
