(** Model of the grid helpers of gravity_toolkit/tools.py (exact real arithmetic). *)
From Coq Require Import Reals Lra.
From Verif Require Import Base RegressModel TsModel.
Close Scope Z_scope.
Open Scope R_scope.

(** tools.py 1117-1128 *)
Definition wrap_longitudes (lon : R) : R := atan2 (sin (lon * PI / 180)) (cos (lon * PI / 180)) * 180 / PI.

(** np.argmin of f 0 .. f (n-1): index of the first minimum (n >= 1) *)
Fixpoint argmin (f : nat -> R) (n : nat) : nat :=
  match n with
  | 0%nat => 0%nat
  | S m => if Rlt_dec (f m) (f (argmin f m)) then m else argmin f m
  end.

(** tools.py 1156: 1 when the last longitude repeats the first one *)
Definition start_idx (lon : list R) (C : R) : nat :=
  if Rgt_dec (Rabs (at_ lon (length lon - 1) - at_ lon 0 - C)) (1 / 10000) then 0%nat else 1%nat.
(** numpy [out[0:-i0] = x[i0:]; out[-i0:] = x[start:i0+start]] on a row of length n.  For i0 = 0 the slices are
    [0:0] and [0:]: the assignment raises ValueError (for every n >= 1). *)
Definition shift_row {A} (i0 s : nat) (first second : A -> A) (x : list A) : res (list A) :=
  if (i0 =? 0)%nat then Err ValueError
  else Ok (map first (skipn i0 x) ++ map second (slice x s (i0 + s))).
(** tools.py 1131-1173; data is a list of rows, each of the length of lon *)
Definition shift_grid {A} (lon0 : R) (data : list (list A)) (lon : list R) (C : R) : res (list (list A) * list R) :=
  match lon with
  | [] => Err IndexError                                   (* lon[-1] *)
  | _ =>
    let s := start_idx lon C in
    let i0 := argmin (fun i => Rabs (at_ lon i - lon0)) (length lon) in
    do l <- shift_row i0 s (fun x => x - C) (fun x => x) lon;
    do d <- mapM (shift_row i0 s (fun x => x) (fun x => x)) data;
    Ok (d, l)
  end.

(** np.around: nearest integer, ties to even *)
Definition around (x : R) : Z :=
  let f := Int_part x in let r := frac_part x in
  if Rlt_dec r (1 / 2) then f else if Rlt_dec (1 / 2) r then (f + 1)%Z else if Z.even f then f else (f + 1)%Z.
Definition clip (x lo hi : R) : R := Rmin (Rmax x lo) hi.
(** tools.py 1207-1212: index of one output coordinate in an axis *)
Definition axis_index (xin : list R) (x : R) : nat :=
  let n := INR (length xin - 1) in
  Z.to_nat (around (clip (n * (x - at_ xin 0) / (at_ xin (length xin - 1) - at_ xin 0)) 0 n)).
(** tools.py 1205-1213 [interp_grid] with order=0, one output point (the spline orders are scipy's) *)
Definition interp_nearest {A} (data : list (list A)) (xin yin : list R) (x y : R) : option A :=
  match nth_error data (axis_index yin y) with Some row => nth_error row (axis_index xin x) | None => None end.
