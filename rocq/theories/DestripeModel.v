(** Model of gravity_toolkit/destripe_harmonics.py (exact real arithmetic).
    [np.linalg.lstsq] on the 3x3 normal matrix is modelled by Cramer's rule,
    which is its answer whenever the matrix is invertible (proved below for every
    window); the code of the even and of the odd degrees is textually the same and
    is one function here, applied to each parity. *)
From Coq Require Import Reals Lra.
From Verif Require Import Base Arr.
Close Scope Z_scope.
Open Scope R_scope.

(** np.around: nearest integer, ties to even *)
Definition around (x : R) : Z :=
  let f := Int_part x in
  if Rlt_dec (x - IZR f) (1 / 2) then f
  else if Rlt_dec (1 / 2) (x - IZR f) then (f + 1)%Z
  else if Z.even f then f else (f + 1)%Z.

(** destripe_harmonics.py 120-130: half width of the window at order m *)
Definition nsmooth (round : bool) (m : nat) : nat :=
  let smooth := exp (- INR m / 10) * 15 in
  Z.to_nat (Z.max 2 (if round then around smooth else Int_part smooth)).

(** accumulation over i = 0 .. n-1 *)
Fixpoint rsum (n : nat) (f : nat -> R) : R := match n with O => 0 | S k => rsum k f + f k end.

(** window offset of the i-th point (lines 133, 191) *)
Definition off (n i : nat) : R := INR i - INR n.

(** solution of a 3x3 system (Cramer) *)
Definition det3 (a b c d e f g h i : R) : R := a * (e * i - f * h) - b * (d * i - f * g) + c * (d * h - e * g).
Definition solve3 (m00 m01 m02 m10 m11 m12 m20 m21 m22 r0 r1 r2 : R) : R * R * R :=
  let D := det3 m00 m01 m02 m10 m11 m12 m20 m21 m22 in
  (det3 r0 m01 m02 r1 m11 m12 r2 m21 m22 / D, det3 m00 r0 m02 m10 r1 m12 m20 r2 m22 / D, det3 m00 m01 r0 m10 m11 r1 m20 m21 r2 / D).

(** lines 132-149, 189-202: quadratic fit to the values y(i), i = 0..2n, at the
    offsets -n..n *)
Definition fit (n : nat) (y : nat -> R) : R * R * R :=
  let w := (2 * n + 1)%nat in
  let S p := rsum w (fun i => off n i ^ p) in
  let T p := rsum w (fun i => y i * off n i ^ p) in
  solve3 (S 0%nat) (S 1%nat) (S 2%nat) (S 1%nat) (S 2%nat) (S 3%nat) (S 2%nat) (S 3%nat) (S 4%nat) (T 0%nat) (T 1%nat) (T 2%nat).
Definition poly (b : R * R * R) (x : R) : R := let '(b0, b1, b2) := b in b0 + b1 * x + b2 * x ^ 2.
Definition b0 (b : R * R * R) : R := fst (fst b).

(** [a[i] = v] *)
Definition fset (f : nat -> R) (i : nat) (v : R) : nat -> R := fun j => if Nat.eqb j i then v else f j.

(** lines 172-223 (226-277): smoothed values of one parity; [degs] are the degrees
    (leven / lodd), [x] the coefficients of this order by degree, [sm] the
    smoothed array (column m of clmsm) by degree *)
Definition smooth_series (n : nat) (narrow : bool) (degs : list nat) (x sm : nat -> R) : nat -> R :=
  let len := length degs in
  let d k := nth k degs 0%nat in
  if (len <=? 2 * n)%nat then                               (* l1 > l2 - 2*nsmooth *)
    fold_left (fun sm l => fset sm (d l) (if narrow then 0 else x (d l))) (seq 0 len) sm
  else
    fold_left (fun sm l =>
      let b := fit n (fun i => x (d (l - n + i)%nat)) in
      let sm := fset sm (d l) (b0 b) in
      let sm := if (l =? n)%nat
                then fold_left (fun sm i => fset sm (d (l - n + i)%nat) (poly b (off n i))) (seq 0 n) sm else sm in
      let sm := if (l =? len - 1 - n)%nat
                then fold_left (fun sm i => fset sm (d (l + 1 + i)%nat) (poly b (INR (i + 1)))) (seq 0 n) sm else sm in
      sm) (seq n (len - 2 * n)) sm.

(** lines 152-168: the degrees m..LMAX of one parity *)
Definition degrees (odd : bool) (m LMAX : nat) : list nat :=
  filter (fun l => Bool.eqb (Nat.odd l) odd) (seq m (LMAX + 1 - m)).

(** lines 119-277: smoothed values of order m (clm and slm are treated alike) *)
Definition smoothed (round narrow : bool) (LMAX m : nat) (x : nat -> R) : nat -> R :=
  let n := nsmooth round m in
  smooth_series n narrow (degrees true m LMAX) x (smooth_series n narrow (degrees false m LMAX) x (fun _ => 0)).

(** lines 108-109, 280-284 for one of the two arrays *)
Definition destripe1 (round narrow : bool) (LMAX MMAX : nat) (a : arr R) : arr R :=
  mkarr (rows a) (cols a) (depth a) (fun l m t =>
    if ((m <=? MMAX) && (m <=? l) && (l <=? LMAX) && (5 <=? m))%nat
    then get a l m t - smoothed round narrow LMAX m (fun j => get a j m t) l
    else get a l m t).

(** the array reads [clm1[l,m]] for m <= MMAX, m <= l <= LMAX are inside the array *)
Definition readable (a : arr R) (LMAX MMAX : nat) : bool :=
  (LMAX <? rows a)%nat && (Nat.min LMAX MMAX <? cols a)%nat.

(** lines 61-286; LMIN is not used by the code; arrays are rank 2.  LMAX = 0 makes
    the index arrays empty and the first store raises. *)
Definition destripe_harmonics (clm slm : arr R) (LMAX : nat) (MMAX : option nat) (round narrow : bool) : res (arr R * arr R) :=
  if ((rows clm =? 1) || (rows slm =? 1))%nat then Err ValueError
  else
    let MM := match MMAX with Some k => k | None => LMAX end in
    if (LMAX =? 0)%nat then Err IndexError
    else if readable clm LMAX MM && readable slm LMAX MM
    then Ok (destripe1 round narrow LMAX MM clm, destripe1 round narrow LMAX MM slm)
    else Err IndexError.
