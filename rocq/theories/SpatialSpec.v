(** The vocabulary of the statements about [spatial] objects (Prop files). *)
From Coq Require Import Reals.
From Verif Require Import Base TimeModel Arr HarmModel SpatialModel.
Close Scope Z_scope.
Open Scope nat_scope.

(** what a user sees in a cell: a number, or nothing (masked or NaN) *)
Definition seen (s : sp) (i j t : nat) : option R := if get (smask s) i j t then None else get (sdata s) i j t.
Definition seen_err (s : sp) (e : arr val) (i j t : nat) : option R := if get (smask s) i j t then None else get e i j t.
Definition has (s : sp) (i j t : nat) : Prop := inb (sdata s) i j t.
(** a number that coincides with the fill value cannot be told from a missing cell *)
Definition hide (f : option val) (v : option R) : option R :=
  match v, f with Some y, Some (Some x) => if Req_EM_T y x then None else v | _, _ => v end.
(** masked cells hold the fill value, others neither the fill value nor NaN *)
Definition clean (s : sp) : Prop := forall f, sfill s = Some f -> forall i j t, has s i j t ->
  (get (smask s) i j t = true -> get (sdata s) i j t = f /\ forall e, serr s = Some e -> get e i j t = f) /\
  (get (smask s) i j t = false -> isnan (get (sdata s) i j t) = false /\ veqb (get (sdata s) i j t) f = false).
Definition sheq (a b : sp) : Prop :=
  aeq (sdata a) (sdata b) /\ aeq (smask a) (smask b) /\
  match serr a, serr b with None, None => True | Some x, Some y => aeq x y | _, _ => False end /\
  slon a = slon b /\ slat a = slat b /\ stime a = stime b /\ smonth a = smonth b /\ sfill a = sfill b.
(** * offset and scale *)
Definition arg_at (v : svarg) (i j t : nat) : option R :=
  match v with
  | VScalar x => Some x
  | VSeries xs => Some (nth t xs 0%R)
  | VArr a => get a i j (match depth a with None => 0 | Some _ => t end)
  end.
(** argument kinds for which a branch exists *)
Definition arg_fits (s : sp) (v : svarg) : Prop :=
  match v, depth (sdata s) with
  | VScalar _, _ => True
  | VSeries xs, None => serr s = None \/ sfill s = None
  | VSeries xs, Some n => length xs = n
  | VArr a, None => rows a = rows (sdata s) /\ cols a = cols (sdata s) /\ depth a = None
  | VArr a, Some n => rows a = rows (sdata s) /\ cols a = cols (sdata s) /\ (depth a = None \/ depth a = Some n)
  end.
Definition out_depth (s : sp) (v : svarg) : option nat :=
  match v, depth (sdata s) with VSeries xs, None => Some (length xs) | _, d => d end.
Definition src (s : sp) (t : nat) : nat := match depth (sdata s) with None => 0 | Some _ => t end.
(** * replace_invalid *)
Definition extra_at (s : sp) (x : arr bool) (i j t : nat) : bool := get x i j (match depth x with None => 0 | Some _ => t end).
Definition extra_fits (s : sp) (x : arr bool) : Prop :=
  rows x = rows (sdata s) /\ cols x = cols (sdata s) /\ (depth x = None \/ depth x = depth (sdata s)).
(** the values of cell (i,j) at the epochs [idx] are the numbers [xs] (none missing) *)
Definition values (s : sp) (i j : nat) (idx : list nat) (xs : list R) : Prop := map (seen s i j) idx = map Some xs.
(** * index and iteration *)
Definition slice_sp (s : sp) (k : nat) (ts : list R) (ms : list Z) : sp :=
  mksp (slice (sdata s) k) (slice (smask s) k) (match serr s with None => None | Some e => Some (slice e k) end)
    (slon s) (slat s) (TScalar (nth k ts 0%R)) (TScalar (nth k ms 0%Z)) (sfill s).
Definition sdummy : sp := mksp (full 1 1 None (Some 0%R)) (full 1 1 None false) None [0%R] [0%R] (TScalar 0%R) (TScalar 0%Z) None.
Definition stime_of (o : sp) : R := match stime o with TScalar t => t | _ => 0%R end.
Definition smonth_of (o : sp) : Z := match smonth o with TScalar t => t | _ => 0%Z end.
Definition err_at (o : sp) (i j t : nat) : val := match serr o with Some e => get e i j t | None => Some 0%R end.
(** a single-epoch object on the grid r x c, with ([e]=true) or without errors *)
Definition single_grid (r c : nat) (e : bool) (o : sp) : Prop :=
  swf o /\ rows (sdata o) = r /\ cols (sdata o) = c /\ depth (sdata o) = None /\
  (exists t mo, stime o = TScalar t /\ smonth o = TScalar mo) /\
  (if e then serr o <> None else serr o = None).
(** the coordinates of a regular grid that the reader can index: column j is at
    (j + a) dlon, row i at 90 - (i + b) dlat with 0 <= a, b < 1 (a = b = 1/2: cell
    centres; a = b = 0: grid nodes) *)
Definition global_grid (dlon dlat a b : R) (lon lat : list R) : Prop :=
  (0 < dlon)%R /\ (0 < dlat)%R /\ (0 <= a < 1)%R /\ (0 <= b < 1)%R /\
  (forall j, j < length lon -> nth j lon 0%R = ((INR j + a) * dlon)%R) /\
  (forall i, i < length lat -> nth i lat 0%R = (90 - (INR i + b) * dlat)%R).
Definition dot (xs ys : list R) : R := Rsum (map (fun p => (fst p * snd p)%R) (combine xs ys)).
(** sum of squared residuals of ys against k*xs *)
Definition rss (k : R) (xs ys : list R) : R := Rsum (map (fun p => ((k * fst p - snd p) ^ 2)%R) (combine xs ys)).
