(** Models of gravity_toolkit/legendre_polynomials.py and
    gravity_toolkit/associated_legendre.py.  Exact real arithmetic; every routine
    is elementwise in the points x, so the loops are modelled for one point and
    the arrays collect the points along the last axis.  Points are in [-1, 1]
    (outside numpy produces nan). *)
From Coq Require Import Reals Lra String.
From Verif Require Import Base Arr.
Close Scope Z_scope.
Open Scope R_scope.

(** stores into zero-initialised arrays *)
Definition st1 (f : nat -> R) (i : nat) (v : R) : nat -> R := fun j => if (j =? i)%nat then v else f j.
Definition st2 (f : nat -> nat -> R) (i j : nat) (v : R) : nat -> nat -> R :=
  fun a b => if ((a =? i) && (b =? j))%nat then v else f a b.

(** np.finfo(float64).eps *)
Definition eps64 : R := / 2 ^ 52.
(** u = sqrt(1 - x^2), zero replaced by eps (legendre_polynomials.py 87-90,
    associated_legendre.py 113-115, 212-214, 315-317) *)
Definition uval (x : R) : R :=
  let u := sqrt (1 - x ^ 2) in if Req_EM_T u 0 then eps64 else u.

(** ** legendre_polynomials.py 49-111, one point: ptemp and pl, dpl *)
Definition legpoly_tab (lmax : nat) (x : R) : (nat -> R) * (nat -> R) :=
  let polar := if Req_EM_T (sqrt (1 - x ^ 2)) 0 then true else false in
  let u := uval x in
  let pt := st1 (st1 (fun _ => 0) 0 1) 1 x in
  let pl := st1 (st1 (fun _ => 0) 0 1) 1 (sqrt 3 * x) in
  let '(pt, pl) := fold_left (fun '(pt, pl) l =>
      let L := INR l in
      let pt := st1 pt l ((2 * L - 1) / L * x * pt (l - 1)%nat - (L - 1) / L * pt (l - 2)%nat) in
      let pl := st1 pl l (sqrt (2 * L + 1) * pt l) in
      let pl := if polar then st1 pl l (sqrt (2 * L + 1) * x ^ l) else pl in
      (pt, pl)) (seq 2 (lmax - 1)) (pt, pl) in
  let dpl := fold_left (fun dpl l =>
      let L := INR l in
      let fl := sqrt (L ^ 2 * (2 * L + 1) / (2 * L - 1)) in
      st1 dpl l (1 / u * (L * x * pl l - fl * pl (l - 1)%nat))) (seq 1 lmax) (fun _ => 0) in
  (pl, dpl).
(** result arrays are [degree, point]; lmax = 0 makes [ptemp[1,:]] raise *)
Definition legendre_polynomials (lmax : nat) (xs : list R) : res (list (list R) * list (list R)) :=
  match lmax with
  | O => Err IndexError
  | _ => Ok (map (fun l => map (fun x => fst (legpoly_tab lmax x) l) xs) (seq 0 (lmax + 1)),
             map (fun l => map (fun x => snd (legpoly_tab lmax x) l) xs) (seq 0 (lmax + 1)))
  end.

(** ** plm_colombo, associated_legendre.py 98-145, one point *)
Definition flm (l m : nat) : R := sqrt ((INR l ^ 2 - INR m ^ 2) * (2 * INR l + 1) / (2 * INR l - 1)).
Definition colombo_tab (LMAX : nat) (x : R) : (nat -> nat -> R) * (nat -> nat -> R) :=
  let u := uval x in
  let z := fun _ _ : nat => 0 in
  let p := st2 (st2 (st2 z 0 0 1) 1 0 (sqrt 3 * x)) 1 1 (sqrt 3 * u) in
  let d := st2 (st2 z 1 0 (1 / u * (x * p 1%nat 0%nat - sqrt 3 * p 0%nat 0%nat))) 1 1 (x / u * p 1%nat 1%nat) in
  fold_left (fun st l =>
    let L := INR l in
    let '(p, d) := fold_left (fun '(p, d) m =>
        let M := INR m in
        let alm := sqrt ((2 * L - 1) * (2 * L + 1) / ((L - M) * (L + M))) in
        let blm := sqrt ((2 * L + 1) * (L + M - 1) * (L - M - 1) / ((L - M) * (L + M) * (2 * L - 3))) in
        let p := st2 p l m (alm * x * p (l - 1)%nat m - blm * p (l - 2)%nat m) in
        (p, st2 d l m (1 / u * (L * x * p l m - flm l m * p (l - 1)%nat m)))) (seq 0 l) st in
    let p := st2 p l l (u * sqrt ((2 * L + 1) / (2 * L)) * p (l - 1)%nat (l - 1)%nat) in
    (p, st2 d l l (L * (x / u) * p l l))) (seq 2 (LMAX - 1)) (p, d).

(** [plm[:,:MMAX+1,:]] *)
Definition table (tab : R -> nat -> nat -> R) (LMAX ncol : nat) (xs : list R) : arr R :=
  mkarr (LMAX + 1) ncol (Some (List.length xs)) (fun l m t => tab (nth t xs 0) l m).
Definition upto_order (MMAX : option nat) (LMAX : nat) : nat := match MMAX with Some k => k | None => LMAX end.

Definition plm_colombo (LMAX : nat) (xs : list R) (MMAX : option nat) : res (arr R * arr R) :=
  match LMAX with
  | O => Err IndexError                                   (* plm[1,0,:] *)
  | _ => let n := (Nat.min LMAX (upto_order MMAX LMAX) + 1)%nat in
         Ok (table (fun x => fst (colombo_tab LMAX x)) LMAX n xs, table (fun x => snd (colombo_tab LMAX x)) LMAX n xs)
  end.

(** ** plm_holmes, associated_legendre.py 177-265, one point *)
Definition scalef : R := / 10 ^ 280.
Definition tri (l : nat) : nat := (l * (l + 1) / 2)%nat.
(** 189-208: recursion coefficients, stored at k = l*(l+1)/2 + m *)
Definition holmes_coef (LMAX : nat) : (nat -> R) * (nat -> R) :=
  let '(_, f1, f2) := fold_left (fun '(k, f1, f2) l =>
      let L := INR l in
      let k := (k + 1)%nat in
      let f1 := st1 f1 k (sqrt (2 * L - 1) * sqrt (2 * L + 1) / L) in
      let f2 := st1 f2 k ((L - 1) * sqrt (2 * L + 1) / (sqrt (2 * L - 3) * L)) in
      let '(k, f1, f2) := fold_left (fun '(k, f1, f2) m =>
          let M := INR m in
          let k := (k + 1)%nat in
          (k, st1 f1 k (sqrt (2 * L + 1) * sqrt (2 * L - 1) / (sqrt (L + M) * sqrt (L - M))),
              st1 f2 k (sqrt (2 * L + 1) * sqrt (L - M - 1) * sqrt (L + M - 1) / (sqrt (2 * L - 3) * sqrt (L + M) * sqrt (L - M)))))
          (seq 1 (l - 2)) (k, f1, f2) in
      ((k + 2)%nat, f1, f2)) (seq 2 (LMAX - 1)) (2%nat, fun _ => 0, fun _ => 0) in
  (f1, f2).
(** 217-222: zonal harmonics *)
Definition holmes_zonal (LMAX : nat) (x : R) (f1 f2 : nat -> R) : nat -> R :=
  let p := st1 (st1 (fun _ => 0) 0 1) 1 (sqrt 3 * x) in
  snd (fold_left (fun '(k, p) l =>
     let k := (k + l)%nat in
     (k, st1 p k (f1 k * x * p (k - l)%nat - f2 k * p (k + 1 - 2 * l)%nat))) (seq 2 (LMAX - 1)) (1%nat, p)).
(** 225-245: tesseral harmonics; state (rescalem, kstart, pmm, p) *)
Definition holmes_step (LMAX : nat) (x u : R) (f1 f2 : nat -> R) (st : R * nat * R * (nat -> R)) (m : nat) : R * nat * R * (nat -> R) :=
  let '(resc, ks, pmm, p) := st in
  let resc := resc * u in
  let ks := (ks + (m + 1))%nat in
  let pmm := pmm * sqrt (INR (2 * m + 1)) / sqrt (INR (2 * m)) in
  let p := st1 p ks pmm in
  let k := (ks + m + 1)%nat in
  let p := st1 p k (x * sqrt (INR (2 * m + 3)) * pmm) in
  let '(k, p) := fold_left (fun '(k, p) l =>
      let k := (k + l)%nat in
      let p := st1 p k (x * f1 k * p (k - l)%nat - f2 k * p (k + 1 - 2 * l)%nat) in
      let p := st1 p (k + 1 - 2 * l) (p (k + 1 - 2 * l)%nat * resc) in
      (k, p)) (seq (m + 2) (LMAX - 1 - m)) (k, p) in
  let p := st1 p k (p k * resc) in
  let p := st1 p (k - LMAX) (p (k - LMAX)%nat * resc) in
  (resc, ks, pmm, p).
Definition holmes_p (LMAX : nat) (x : R) : nat -> R :=
  let u := uval x in
  let '(f1, f2) := holmes_coef LMAX in
  let p := holmes_zonal LMAX x f1 f2 in
  let '(resc, ks, pmm, p) := fold_left (holmes_step LMAX x u f1 f2) (seq 1 (LMAX - 1)) (/ scalef, 0%nat, sqrt 2 * scalef, p) in
  (* 248-250: sectoral; m is LMAX-1 after the loop *)
  let m := (LMAX - 1)%nat in
  let resc := resc * u in
  let ks := (ks + (m + 2))%nat in
  st1 p ks (pmm * sqrt (INR (2 * LMAX + 1)) / sqrt (INR (2 * LMAX)) * resc).
(** 252-263: plm and dplm *)
Definition holmes_tab (LMAX : nat) (x : R) : (nat -> nat -> R) * (nat -> nat -> R) :=
  let u := uval x in
  let p := holmes_p LMAX x in
  let plm := fun l m => if ((m <=? l) && (l <=? LMAX))%nat then p (tri l + m)%nat else 0 in
  (plm, fun l m => if ((m <=? l) && (l <=? LMAX))%nat then
      (if (l =? m)%nat then INR m * (x / u) * plm l m
       else 1 / u * (INR l * x * plm l m - flm l m * plm (l - 1)%nat m)) else 0).
Definition plm_holmes (LMAX : nat) (xs : list R) (MMAX : option nat) : res (arr R * arr R) :=
  match LMAX with
  | O => Err IndexError                                   (* p[1,:] of one row *)
  | S O => Err UnboundLocalError                          (* m is never assigned: range(1,1) is empty *)
  | _ => let n := (Nat.min LMAX (upto_order MMAX LMAX) + 1)%nat in
         Ok (table (fun x => fst (holmes_tab LMAX x)) LMAX n xs, table (fun x => snd (holmes_tab LMAX x)) LMAX n xs)
  end.

(** ** plm_mohlenkamp, associated_legendre.py 299-360, one point *)
(** 320-345: column mm of jlmm, indexed by k = l - mm *)
Definition mohl_prod (mm : nat) : R := fold_left (fun a j => a * sqrt (1 + 1 / (2 * (INR j + 1)))) (seq 0 mm) 1.
Definition mohl_j (LMAX mm : nat) (x : R) : nat -> R :=
  let M := INR mm in
  let j0 := if (0 <? mm)%nat then mohl_prod mm / sqrt 2 else 1 / sqrt 2 in
  fold_left (fun j k =>
    let K := INR k in
    st1 j k (if (k =? 1)%nat then
        2 * x * j (k - 1)%nat * sqrt (1 + (M - 1 / 2) / K) * sqrt (1 - (M - 1 / 2) / (K + 2 * M))
      else
        2 * x * j (k - 1)%nat * sqrt (1 + (M - 1 / 2) / K) * sqrt (1 - (M - 1 / 2) / (K + 2 * M)) -
        j (k - 2)%nat * sqrt (1 + 4 / (2 * K + 2 * M - 3)) * sqrt (1 - 1 / K) * sqrt (1 - 1 / (K + 2 * M))))
    (seq 1 LMAX) (st1 (fun _ => 0) 0 j0).
(** 347-358 *)
Definition mohl_tab (LMAX MMAX : nat) (x : R) : (nat -> nat -> R) * (nat -> nat -> R) :=
  let u := uval x in
  let plm := fun l mm => if ((mm <=? MMAX) && (mm <=? l) && (l <=? LMAX))%nat then
      (if (mm =? 0)%nat then sqrt 2 * mohl_j LMAX mm x (l - mm) else 2 * u ^ mm * mohl_j LMAX mm x (l - mm)) else 0 in
  (plm, fun l mm => if ((mm <=? MMAX) && (mm <=? l) && (l <=? LMAX))%nat then
      (if (l =? mm)%nat then INR mm * (x / u) * plm l mm
       else 1 / u * (INR l * x * plm l mm - flm l mm * plm (l - 1)%nat mm)) else 0).
(** the second array is not truncated to MMAX+1 columns (line 311) *)
Definition plm_mohlenkamp (LMAX : nat) (xs : list R) (MMAX : option nat) : res (arr R * arr R) :=
  let MM := upto_order MMAX LMAX in
  Ok (table (fun x => fst (mohl_tab LMAX MM x)) LMAX (MM + 1) xs, table (fun x => snd (mohl_tab LMAX MM x)) LMAX (LMAX + 1) xs).

(** associated_legendre.py 25-66: dispatch on the method name, already lower case *)
Open Scope string_scope.
Definition associated_legendre (LMAX : nat) (xs : list R) (method : string) (MMAX : option nat) : res (arr R * arr R) :=
  if String.eqb method "colombo" then plm_colombo LMAX xs MMAX
  else if String.eqb method "holmes" then plm_holmes LMAX xs MMAX
  else if String.eqb method "mohlenkamp" then plm_mohlenkamp LMAX xs MMAX
  else Err ValueError.
