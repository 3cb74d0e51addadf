(** Model of gravity_toolkit/legendre.py: all orders of one degree.  Exact real
    arithmetic; the routine is elementwise in the points x, so it is modelled for
    one point.  The branch of lines 87-115 (points where |sin|^l is below
    sqrt(smallest float)), an approximation that truncates the recursion, is not
    modelled: its values are the parameter [tiny]. *)
From Coq Require Import Reals Lra.
From Verif Require Import Base Arr LegendreModel.
Close Scope Z_scope.
Open Scope R_scope.

(** legendre.py 79 *)
Definition rootl (k : nat) : R := sqrt (INR k).
(** legendre.py 86: sqrt(np.finfo(np.float64).tiny) = sqrt(2^-1022) *)
Definition tol : R := / 2 ^ 511.
(** legendre.py 124-125: np.prod(1 - 1/d), d = 2, 4, ..., 2l *)
Definition sect_prod (l : nat) : R := fold_left (fun a k => a * (1 - 1 / INR (2 * k))) (seq 1 l) 1.

(** legendre.py 81-143, one point, degree l >= 1: Schmidt seminormalised
    functions P[m], m = 0..l *)
Definition legendre_col (tiny : nat -> R -> nat -> R) (l : nat) (x : R) : nat -> R :=
  let s := sqrt (1 - x ^ 2) in
  let sn := (- s) ^ l in
  let P := if Rlt_dec 0 s then (if Rle_dec (Rabs sn) tol then tiny l x else fun _ => 0) else fun _ => 0 in
  let P := if Req_EM_T x 1 then P else if Rle_dec tol (Rabs sn) then
      let twocot := -2 * x / s in
      let p := st1 P l (sqrt (sect_prod l) * sn) in
      let p := st1 p (l - 1) (p l * twocot * INR l / rootl (2 * l)) in
      fold_left (fun p m => st1 p m ((p (m + 1)%nat * twocot * INR (m + 1) - p (m + 2)%nat * rootl (l + m + 2) * rootl (l - m - 1))
                                     / (rootl (l + m + 1) * rootl (l - m)))) (rev (seq 0 (l - 1))) p
    else P in
  if Req_EM_T s 0 then st1 P 0 (x ^ l) else P.

(** legendre.py 146-159: factor of order m *)
Definition rootprod (a n : nat) : R := fold_left (fun p k => p * rootl k) (seq a n) 1.
Definition legendre_norm (normalize : bool) (l m : nat) : R :=
  if normalize then (if (m =? 0)%nat then sqrt (2 * INR l + 1) else (-1) ^ m * sqrt (2 * (2 * INR l + 1)))
  else if (m =? 0)%nat then 1 else if (m =? l)%nat then rootprod 1 (2 * l) else rootprod (l - m + 1) (2 * m).

(** legendre.py 45-161: rows are orders 0..l, columns the points *)
Definition legendre (tiny : nat -> R -> nat -> R) (l : nat) (xs : list R) (normalize : bool) : list (list R) :=
  if (l =? 0)%nat then [map (fun _ => 1) xs]
  else map (fun m => map (fun x => legendre_col tiny l x m * legendre_norm normalize l m) xs) (seq 0 (l + 1)).
