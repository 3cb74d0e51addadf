(** Aliasing model for [harmonics.copy]: attributes hold references to NumPy
    arrays in a store; methods either write through a reference ([a[...] op= b])
    or bind the attribute to a fresh array. *)
From Coq Require Import Reals.
From Verif Require Import Base Arr HarmModel.
Close Scope Z_scope.
Open Scope nat_scope.

Inductive cell := CA (a : arr R) | CT (t : tval R) | CM (m : tval Z).
Definition store := list cell.
(** an object: sizes by value, the four array attributes by reference *)
Record hrefs := mkhrefs { r_lmax : nat; r_mmax : nat; r_clm : nat; r_slm : nat; r_time : nat; r_month : nat }.

Definition junk : arr R := full 0 0 None 0%R.
Definition asA (c : cell) : arr R := match c with CA a => a | _ => junk end.
Definition asT (c : cell) : tval R := match c with CT t => t | _ => TNone end.
Definition asM (c : cell) : tval Z := match c with CM m => m | _ => TNone end.

(** what a user sees when reading the attributes *)
Definition obs (s : store) (o : hrefs) : harm :=
  mkharm (r_lmax o) (r_mmax o)
    (asA (nth (r_clm o) s (CM TNone))) (asA (nth (r_slm o) s (CM TNone)))
    (asT (nth (r_time o) s (CM TNone))) (asM (nth (r_month o) s (CM TNone))).

(** harmonics.py:1315-1334 [copy]: [copy.copy(val)] of each attribute allocates *)
Definition copy (s : store) (o : hrefs) : store * hrefs :=
  let n := length s in
  (s ++ [CA (clm (obs s o)); CA (slm (obs s o)); CT (time (obs s o)); CM (month (obs s o))],
   mkhrefs (r_lmax o) (r_mmax o) n (n + 1) (n + 2) (n + 3)).

(** how a method updates each attribute: in place (true) or by rebinding (false) *)
Record mode := mkmode { in_clm : bool; in_slm : bool; in_time : bool; in_month : bool }.

(** store [c] in attribute with current reference [r] *)
Definition put (inplace : bool) (s : store) (r : nat) (c : cell) : store * nat :=
  if inplace then (upd s r c, r) else (s ++ [c], length s).

(** one method call on object [o] that turns its visible value into [v].
    Examples: add/subtract/multiply/divide (1206-1313), mean(apply=True)
    (1655-1664), convolve (1769-1791): clm, slm in place;
    truncate (1597-1637), expand_dims, squeeze (1377-1425): rebinding. *)
Definition assign (md : mode) (s : store) (o : hrefs) (v : harm) : store * hrefs :=
  let (s1, rc) := put (in_clm md) s (r_clm o) (CA (clm v)) in
  let (s2, rs) := put (in_slm md) s1 (r_slm o) (CA (slm v)) in
  let (s3, rt) := put (in_time md) s2 (r_time o) (CT (time v)) in
  let (s4, rm) := put (in_month md) s3 (r_month o) (CM (month v)) in
  (s4, mkhrefs (lmax v) (mmax v) rc rs rt rm).

(** a program works on the original [x] and the copy [y]; each call may read
    both visible values *)
Inductive who := X | Y.
Record call := mkcall { target : who; cmode : mode; effect : harm -> harm -> harm }.

Record state := mkstate { st : store; ox : hrefs; oy : hrefs }.
Definition step (z : state) (c : call) : state :=
  let vx := obs (st z) (ox z) in let vy := obs (st z) (oy z) in
  match target c with
  | X => let (s', o') := assign (cmode c) (st z) (ox z) (effect c vx vy) in mkstate s' o' (oy z)
  | Y => let (s', o') := assign (cmode c) (st z) (oy z) (effect c vy vx) in mkstate s' (ox z) o'
  end.
Definition run (z : state) (p : list call) : state := fold_left step p z.

(** reference semantics: two independent values *)
Definition pstep (v : harm * harm) (c : call) : harm * harm :=
  match target c with
  | X => (effect c (fst v) (snd v), snd v)
  | Y => (fst v, effect c (snd v) (fst v))
  end.
Definition prun (v : harm * harm) (p : list call) : harm * harm := fold_left pstep p v.

(** the class invariant: the four attributes are different allocated arrays *)
Definition refs (o : hrefs) : list nat := [r_clm o; r_slm o; r_time o; r_month o].
Definition owns (s : store) (o : hrefs) : Prop := NoDup (refs o) /\ forall r, In r (refs o) -> r < length s.
