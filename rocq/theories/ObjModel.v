(** Model of the small methods of the harmonics and spatial objects: harmonics.__str__, __len__, ilm (harmonics.py 1877-1899) and spatial.spacing, extent, __str__, __len__
    (spatial.py 1665-1713).  The decimal text of numbers is not modelled: the lines of the text are constructors with the numbers in them. *)
From Coq Require Import Reals.
From Verif Require Import Base Arr TimeModel HarmModel.
Close Scope Z_scope.
Close Scope R_scope.
Open Scope nat_scope.

(** harmonics.py 1899, spatial.py 1713: len(self.month) if np.any(self.month) else 0 *)
Definition nonzero (z : Z) : bool := negb (z =? 0)%Z.
Definition len (m : tval Z) : res nat :=
  match m with
  | TNone => Ok 0
  | TScalar z => if nonzero z then Err TypeError else Ok 0            (* len() of a number *)
  | TArr l => if existsb nonzero l then Ok (List.length l) else Ok 0
  end.
(** the truth value of an object with a length and without __bool__ *)
Definition truth (m : tval Z) : res bool := do n <- len m; Ok (0 <? n).

(** harmonics.py 1891, spatial.py 1705: the truth value of a number or an array *)
Definition truth_months (m : tval Z) : res bool :=
  match m with
  | TNone => Ok false
  | TScalar z => Ok (nonzero z)
  | TArr [] => Ok false
  | TArr [z] => Ok (nonzero z)
  | TArr _ => Err ValueError                                          (* ambiguous *)
  end.
Definition zmin_ (l : list Z) : Z := match l with [] => 0%Z | x :: t => fold_left Z.min t x end.
Definition zmax_ (l : list Z) : Z := match l with [] => 0%Z | x :: t => fold_left Z.max t x end.
Inductive text_line := HarmonicsTitle | SpatialTitle | MaxDegree (l : option nat) | MaxOrder (m : nat) | StartMonth (z : Z) | EndMonth (z : Z) | Extent (e : list R) | Shape (s : list nat).
Definition month_lines (m : tval Z) : res (list text_line) :=
  do b <- truth_months m;
  if b then match m with TArr l => Ok [StartMonth (zmin_ l); EndMonth (zmax_ l)] | _ => Err TypeError end   (* min() of a number *)
  else Ok [].
(** harmonics.py 1884-1894; lmax and mmax can be None *)
Definition order_lines (l m : option nat) : list text_line :=
  match m with
  | Some m => if (negb (m =? 0) && negb (match l with Some l => m =? l | None => false end))%bool then [MaxOrder m] else []
  | None => []
  end.
Definition harmonics_str (l m : option nat) (month : tval Z) : res (list text_line) :=
  do ms <- month_lines month; Ok (HarmonicsTitle :: MaxDegree l :: order_lines l m ++ ms).

(** spatial.py 1666-1671, 1674-1683 *)
Definition rmin_ (l : list R) : res R := match l with [] => Err ValueError | x :: t => Ok (fold_left Rmin t x) end.
Definition rmax_ (l : list R) : res R := match l with [] => Err ValueError | x :: t => Ok (fold_left Rmax t x) end.
Definition step_ (l : list R) : res R := do a <- py_get l 1; do b <- py_get l 0; Ok (Rabs (a - b)%R).
Definition spacing (lon lat : list R) : res (R * R) := do dlat <- step_ lat; do dlon <- step_ lon; Ok (dlon, dlat).
Definition extent (lon lat : list R) : res (list R) := do a <- rmin_ lon; do b <- rmax_ lon; do c <- rmin_ lat; do d <- rmax_ lat; Ok [a; b; c; d].
(** 1697-1708 *)
Definition spatial_str (lon lat : list R) (shape : list nat) (month : tval Z) : res (list text_line) :=
  do e <- extent lon lat; do ms <- month_lines month; Ok (SpatialTitle :: Extent e :: Shape shape :: ms).

(** harmonics.py 1877-1882 [ilm], a complex number as (real part, imaginary part) *)
Definition complex := (R * R)%type.
Definition ilm_now (h : harm) (l m t : nat) : complex := (get (clm h) l m t, (- get (slm h) l m t)%R).
(** the reify decorator (utilities.py 156-169): the first value is stored in the object *)
Record lazy := mklazy { z_obj : harm; z_ilm : option (nat -> nat -> nat -> complex) }.
Definition read_ilm (o : lazy) : (nat -> nat -> nat -> complex) * lazy :=
  match z_ilm o with
  | Some v => (v, o)
  | None => let v := ilm_now (z_obj o) in (v, mklazy (z_obj o) (Some v))
  end.
(** a change of the coefficients; a copy (1315-1334) *)
Definition change_ilm (f : harm -> harm) (o : lazy) : lazy := mklazy (f (z_obj o)) (z_ilm o).
Definition copy_ilm (o : lazy) : lazy := mklazy (z_obj o) None.
