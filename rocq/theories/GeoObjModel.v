(** Model of gravity_toolkit/geocenter.py as objects: __init__ 86-109, from_dict 806-827, to_dict 883-907, __iter__ 1227-1231, __next__ 1233-1247, __str__ and __len__ 1213-1225
    (with the months as in ObjModel.v).  An attribute is absent (AttributeError), None, a numpy number or an array; months are numbers as well.  The file name is not represented. *)
From Coq Require Import Reals List Bool.
From Verif Require Import Base TimeModel HarmModel ObjModel.
Import ListNotations.
Close Scope Z_scope.
Close Scope R_scope.
Open Scope nat_scope.

Inductive name := Ntime | Nmonth | NC10 | NC11 | NS11 | NeC10 | NeC11 | NeS11 | NX | NY | NZ | NXs | NYs | NZs.
Definition name_eqb (a b : name) : bool :=
  match a, b with
  | Ntime, Ntime | Nmonth, Nmonth | NC10, NC10 | NC11, NC11 | NS11, NS11 | NeC10, NeC10 | NeC11, NeC11 | NeS11, NeS11 | NX, NX | NY, NY | NZ, NZ | NXs, NXs | NYs, NYs | NZs, NZs => true
  | _, _ => false end.
Record gobj := mkg { attr : name -> option (tval R); index : nat; rad : R }.
(** 86-109: errors are no attributes of a new object *)
Definition new_geocenter (r : R) : gobj :=
  mkg (fun k => match k with NeC10 | NeC11 | NeS11 | NXs | NYs | NZs => None | _ => Some TNone end) 0 r.
Definition set_attr (o : gobj) (k : name) (v : tval R) : gobj := mkg (fun j => if name_eqb j k then Some v else attr o j) (index o) (rad o).
(** 818-820, 895-897 *)
Definition dict_fields : list name := [Ntime; Nmonth; NC10; NC11; NS11; NeC10; NeC11; NeS11; NX; NY; NZ; NXs; NYs; NZs].
Definition dict := name -> option (tval R).
(** 899-907: attributes that are there, None included *)
Definition to_dict (fields : list name) (o : gobj) : dict := fun k => if existsb (name_eqb k) fields then attr o k else None.
(** 822-827: None has no copy(): the attribute stays what it is *)
Fixpoint from_dict (fields : list name) (d : dict) (o : gobj) : gobj :=
  match fields with
  | [] => o
  | k :: t => from_dict t d (match d k with Some (TScalar x) => set_attr o k (TScalar x) | Some (TArr l) => set_attr o k (TArr l) | _ => o end)
  end.
(** 1238: self.time[self.__index__].copy(); an index into a number is an IndexError *)
Definition item (o : gobj) (k : name) : res R :=
  match attr o k with
  | None => Err AttributeError
  | Some TNone => Err TypeError
  | Some (TScalar _) => Err IndexError
  | Some (TArr l) => match nth_error l (index o) with Some x => Ok x | None => Err IndexError end
  end.
(** 1233-1247: None: StopIteration *)
Definition next_fields : list name := [Ntime; Nmonth; NC10; NC11; NS11].
Definition epoch (default_radius : R) (o : gobj) : res gobj :=
  do t <- item o Ntime; do m <- item o Nmonth; do a <- item o NC10; do b <- item o NC11; do c <- item o NS11;
  Ok (set_attr (set_attr (set_attr (set_attr (set_attr (new_geocenter default_radius) Ntime (TScalar t)) Nmonth (TScalar m)) NC10 (TScalar a)) NC11 (TScalar b)) NS11 (TScalar c)).
Definition next (r : R) (o : gobj) : res (option (gobj * gobj)) :=
  match epoch r o with
  | Ok g => Ok (Some (g, mkg (attr o) (S (index o)) (rad o)))
  | Err IndexError => Ok None
  | Err e => Err e
  end.
(** 1227-1231 *)
Definition iter_start (o : gobj) : gobj := mkg (attr o) 0 (rad o).
(** for x in o: the objects given and the object afterwards; None: not finished after [fuel] steps *)
Fixpoint steps (fuel : nat) (r : R) (o : gobj) : res (option (list gobj * gobj)) :=
  match fuel with
  | 0 => Ok None
  | S f => do n <- next r o;
           match n with
           | None => Ok (Some ([], o))
           | Some (g, o') => do rest <- steps f r o'; Ok (match rest with Some (xs, o'') => Some (g :: xs, o'') | None => None end)
           end
  end.
Definition for_loop (fuel : nat) (r : R) (o : gobj) := steps fuel r (iter_start o).
(** for x in o: for y in o: ...: every x with the y of its inner loop *)
Fixpoint outer (fuel inner : nat) (r : R) (o : gobj) : res (option (list (gobj * list gobj))) :=
  match fuel with
  | 0 => Ok None
  | S f => do n <- next r o;
           match n with
           | None => Ok (Some [])
           | Some (g, o1) =>
               do i <- for_loop inner r o1;
               match i with
               | None => Ok None
               | Some (ys, o2) => do rest <- outer f inner r o2; Ok (option_map (cons (g, ys)) rest)
               end
           end
  end.
Definition nested (fuel inner : nat) (r : R) (o : gobj) := outer fuel inner r (iter_start o).
