(** Model of gravity_toolkit/fourier_legendre.py: fourier_legendre (34-212) and legendre_gradient (214-291).
    Exact real arithmetic.  An array plm[l,m,j] is a function, an assignment to a set of entries evaluates its right
    hand side on the old array; a loop over an index is a fold over the list of its values. *)
From Coq Require Import Reals List Bool Arith.
From Verif Require Import Base SummationModel.
Import ListNotations.
Close Scope Z_scope.
Open Scope R_scope.

Definition tbl := nat -> nat -> nat -> R.
(** plm[sel] = rhs *)
Definition asg (sel : nat -> nat -> nat -> bool) (rhs : tbl) (p : tbl) : tbl := fun l m j => if sel l m j then rhs l m j else p l m j.
(** range(a, b, 2) and range(a, b) *)
Definition range2 (a b : nat) : list nat := map (fun i => (a + 2 * i)%nat) (seq 0 ((b + 1 - a) / 2)).
Definition range1 (a b : nat) : list nat := seq a (b - a).
Definition suml (xs : list nat) (f : nat -> R) : R := fold_right (fun x s => f x + s) 0 xs.
(** degrees l_even, l_odd (53-54): parity q = 0 or 1 *)
Definition deg_row (q lmax l : nat) : bool := (Nat.modulo l 2 =? q)%nat && (l <=? lmax)%nat.
(** m_even, m_odd (55-56) *)
Definition cols_of (q mmax : nat) : list nat := if (q =? 0)%nat then range2 0 (mmax + 1) else range2 1 mmax.
Definition in_cols (q mmax j : nat) : bool := (Nat.modulo j 2 =? q)%nat && (j + q <=? mmax)%nat.
Definition lam (l : nat) : R := INR l * (INR l + 1).

(** one entry j of order m for every degree of parity q *)
Definition set_col (q lmax m j : nat) (f : nat -> R) : tbl -> tbl :=
  asg (fun l m' j' => deg_row q lmax l && (m' =? m)%nat && (j' =? j)%nat) (fun l _ _ => f l).
(** 63-67, 90-94 (c = 0) and 113-117, 136-140 (c = 2) *)
Definition recur (q lmax m : nat) (c : R) (p : tbl) : tbl :=
  fold_left (fun p j => set_col q lmax m (j + 2) (fun l =>
      (2 * (lam l - INR j ^ 2 - c) * p l m j + ((INR j - 2) * (INR j - 1) - lam l) * p l m (j - 2)%nat)
      / (lam l - (INR j + 2) * (INR j + 1))) p)
    (if (q =? 0)%nat then range2 2 lmax else range2 3 (lmax - 1)) p.
(** 76-77, 100-101 (s = 1) and 124-125, 146-147 (s = -1) *)
Definition dtemp (s : R) (j k : nat) : R :=
  s / (1 - INR j - INR k) + 1 / (1 + INR j - INR k) + 1 / (1 - INR j + INR k) + s / (1 + INR j + INR k).
(** 73-81, 97-105 (d = 2) and 121-129, 143-151 (d = 4): the norm of a degree *)
Definition norm_of (q lmax mmax m : nat) (s d : R) (p : tbl) (l : nat) : R :=
  sqrt (suml (if (q =? 0)%nat then range2 0 (lmax + 2) else range2 1 (lmax + 1))
          (fun j => p l m j * suml (cols_of q mmax) (fun k => p l m k * dtemp s j k) / 2) / d).
(** 82-83, 106-107, 130-131, 152-153 *)
Definition normalise (q lmax mmax m : nat) (s d : R) (p : tbl) : tbl :=
  asg (fun l m' _ => deg_row q lmax l && (m' =? m)%nat) (fun l m' j => p l m' j / norm_of q lmax mmax m s d p l) p.

(** 60-83: zonal terms of even degree *)
Definition zonal_even (lmax mmax : nat) (p : tbl) : tbl :=
  let p := set_col 0 lmax 0 0 (fun _ => 1) p in
  let p := set_col 0 lmax 0 2 (fun l => lam l * p l 0%nat 0%nat / (lam l - 2)) p in
  let p := recur 0 lmax 0 0 p in
  let p := set_col 0 lmax 0 0 (fun l => p l 0%nat 0%nat / 2) p in
  normalise 0 lmax mmax 0 1 2 p.
(** 87-107: zonal terms of odd degree *)
Definition zonal_odd (lmax mmax : nat) (p : tbl) : tbl :=
  let p := set_col 1 lmax 0 1 (fun _ => 1) p in
  let p := set_col 1 lmax 0 3 (fun l => (2 - lam l) * p l 0%nat 1%nat / (6 - lam l)) p in
  let p := recur 1 lmax 0 0 p in
  normalise 1 lmax mmax 0 1 2 p.
(** 111-131: order 1, even degree *)
Definition one_even (lmax mmax : nat) (p : tbl) : tbl :=
  let p := set_col 0 lmax 1 0 (fun _ => 0) p in
  let p := set_col 0 lmax 1 2 (fun _ => 1) p in
  let p := recur 0 lmax 1 2 p in
  normalise 0 lmax mmax 1 (-1) 4 p.
(** 134-153: order 1, odd degree *)
Definition one_odd (lmax mmax : nat) (p : tbl) : tbl :=
  let p := set_col 1 lmax 1 1 (fun _ => 1) p in
  let p := set_col 1 lmax 1 3 (fun l => 3 * (lam l - 2) * p l 1%nat 1%nat / (lam l - 6)) p in
  let p := recur 1 lmax 1 2 p in
  normalise 1 lmax mmax 1 (-1) 4 p.
(** 161-165: from degrees l, l+2 of order m to degree l+2 of order m+2; [h] = 2 for m = 0 and 1 otherwise *)
Definition up (q mmax : nat) (h : R) (m : nat) (p : tbl) (l : nat) : tbl :=
  asg (fun l' m' j => (l' =? l + 2)%nat && (m' =? m + 2)%nat && in_cols q mmax j)
    (fun _ _ j => let L := INR l in let M := INR m in
       (sqrt ((L + M + 2) * (L + M + 1) / (2 * L + 1)) * p l m j
        - sqrt ((L - M + 1) * (L - M + 2) / (2 * L + 5)) * p (l + 2)%nat m j
        + sqrt ((L - M) * (L - M - 1) / (2 * L + 1) / h) * p l (m + 2)%nat j)
       / sqrt ((L + M + 4) * (L + M + 3) / (2 * L + 5) / h)) p.
(** 158-173 *)
Definition orders_two (lmax mmax : nat) (p : tbl) : tbl :=
  let p := fold_left (up 0 mmax 2 0) (range1 0 (lmax - 1)) p in
  fold_left (up 1 mmax 2 0) (range1 1 (lmax - 1)) p.
(** 176-191 *)
Definition orders_even (lmax mmax : nat) (p : tbl) : tbl :=
  fold_left (fun p m =>
    let p := fold_left (up 0 mmax 1 m) (range2 m lmax) p in
    fold_left (up 1 mmax 1 m) (range2 (m + 1) (lmax - 1)) p) (range2 2 lmax) p.
(** 194-209 *)
Definition orders_odd (lmax mmax : nat) (p : tbl) : tbl :=
  fold_left (fun p m =>
    let p := fold_left (up 0 mmax 1 m) (range2 (m + 1) (lmax - 1)) p in
    fold_left (up 1 mmax 1 m) (range2 m (lmax - 1)) p) (range2 1 (lmax - 1)) p.
(** 34-212.  The entry plm[:,0,2] does not exist for lmax < 2, plm[:,0,lmax+1] not for odd lmax; np.squeeze (75, 99)
    drops the column axis when there is one column only, and np.dot then fails; plm[:,0,3] does not exist for lmax = 2. *)
Definition fourier_legendre (lmax mmax : nat) : res tbl :=
  if (lmax =? 0)%nat || Nat.odd lmax then Err IndexError
  else if (lmax + 2 <=? mmax)%nat then Err IndexError
  else if (mmax <? 2)%nat then Err ValueError
  else if (lmax =? 2)%nat then Err IndexError
  else if (mmax <? 4)%nat then Err ValueError
  else Ok (orders_odd lmax mmax (orders_even lmax mmax (orders_two lmax mmax
        (one_odd lmax mmax (one_even lmax mmax (zonal_odd lmax mmax (zonal_even lmax mmax (fun _ _ _ => 0)))))))).
