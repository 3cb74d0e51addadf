(** Model of gravity_toolkit/read_love_numbers.py, class love_numbers 407-575, with the arrays as references: objects and dictionaries hold addresses, the store holds the arrays.
    __init__ 438-451, from_dict 453-468, to_dict 470-483, to_tuple 485-495, transform 497-539 (the arithmetic as in LoveModel.v, here written into the arrays one after the other),
    update_dimensions 541-547, __len__ 559-562, __iter__ 564-569.  Model name, citation and file name are not represented. *)
From Coq Require Import Reals List Bool String.
From Verif Require Import Base UnitsModel LoveModel.
Import ListNotations.
Close Scope Z_scope.
Open Scope nat_scope.

Definition store := nat -> list R.
(** the three entries of a dictionary (None: no such key, or None) and of an object *)
Record entries := mke { e_h : option nat; e_k : option nat; e_l : option nat }.
Record lobj := mkl { parts : entries; top : option nat; degrees : option (list nat); frame : option string }.
(** 541-547; [top] is lmax + 1 *)
Definition update_dimensions (o : lobj) : lobj := mkl (parts o) (top o) (option_map (seq 0) (top o)) (frame o).
(** 438-451: three new empty lists at the addresses a, a+1, a+2 *)
Definition new_love (a : nat) (lmax : option nat) : lobj :=
  mkl (mke (Some a) (Some (a + 1)) (Some (a + 2))) (option_map S lmax) (option_map (fun k => seq 0 (S k)) lmax) None.
(** 453-468: the arrays are not copied; without hl the length of None is asked for *)
Definition from_dict (s : store) (o : lobj) (d : entries) : lobj * option exn :=
  match e_h d with
  | None => (mkl d (top o) (degrees o) (frame o), Some TypeError)
  | Some a => (update_dimensions (mkl d (Some (List.length (s a))) (degrees o) (frame o)), None)
  end.
(** 470-483, 485-495, 564-569 *)
Definition to_dict (o : lobj) : entries := parts o.
Definition to_tuple (o : lobj) : list (option nat) := [e_h (parts o); e_k (parts o); e_l (parts o)].
Definition iterate (o : lobj) : list (option nat) := [e_h (parts o); e_k (parts o); e_l (parts o)].
(** 562 *)
Definition length_of (o : lobj) : res nat := match degrees o with Some l => Ok (List.length l) | None => Err TypeError end.
(** a[1] of an attribute *)
Definition first_degree (s : store) (a : option nat) : res R :=
  match a with None => Err TypeError | Some a => match nth_error (s a) 1 with Some x => Ok x | None => Err IndexError end end.
(** a[1] -= alpha *)
Definition shift (s : store) (a : option nat) (alpha : R) : store * option exn :=
  match a with
  | None => (s, Some TypeError)
  | Some a => match nth_error (s a) 1 with
              | Some x => ((fun b => if b =? a then upd (s a) 1 (x - alpha)%R else s b), None)
              | None => (s, Some IndexError)
              end
  end.
(** 516-532 *)
Definition alpha_of (s : store) (p : entries) (ref : string) : res R :=
  let r := upper ref in
  if String.eqb r "CF" then do h <- first_degree s (e_h p); do l <- first_degree s (e_l p); Ok ((h + 2 * l) / 3)%R
  else if String.eqb r "CL" then first_degree s (e_l p)
  else if String.eqb r "CH" then first_degree s (e_h p)
  else if String.eqb r "CM" then Ok 1%R
  else if String.eqb r "CE" then Ok 0%R
  else Err OtherExn.
(** 497-539: store and object as they are left, and the error *)
Definition transform_obj (s : store) (o : lobj) (ref : string) : store * lobj * option exn :=
  match alpha_of s (parts o) ref with
  | Err e => (s, o, Some e)
  | Ok al =>
      match shift s (e_h (parts o)) al with
      | (s, Some e) => (s, o, Some e)
      | (s, None) =>
          match shift s (e_k (parts o)) al with
          | (s, Some e) => (s, o, Some e)
          | (s, None) =>
              match shift s (e_l (parts o)) al with
              | (s, Some e) => (s, o, Some e)
              | (s, None) => (s, mkl (parts o) (top o) (degrees o) (Some ref), None)
              end
          end
      end
  end.
(** a program that transforms objects one after the other: (number of the object, frame) *)
Fixpoint run (s : store) (os : nat -> lobj) (prog : list (nat * string)) : store * (nat -> lobj) * option exn :=
  match prog with
  | [] => (s, os, None)
  | (i, ref) :: t =>
      match transform_obj s (os i) ref with
      | (s, o, Some e) => (s, (fun j => if j =? i then o else os j), Some e)
      | (s, o, None) => run s (fun j => if j =? i then o else os j) t
      end
  end.
