(** Model of time.py:279-325 [reduce_by_date].
    File names are an abstract type [F]; the two regular expressions of the code
    are the parameters [parse_dates] (time.py:174-204 [parse_grace_file]) and
    [parse_version] (lines 299-302, 315-320): [None] when the pattern does not
    match, in which case [.pop()] raises IndexError. *)
From Verif Require Import Base.
Open Scope Z_scope.

(** ((SY,SD),(EY,ED)): strings of fixed width (4 and 3 digits), for which the
    order of Python strings is the order of the numbers. *)
Definition period : Type := ((Z * Z) * (Z * Z))%type.

Definition pair_ltb (a b : Z * Z) : bool :=
  (fst a <? fst b) || ((fst a =? fst b) && (snd a <? snd b)).
Definition pair_eqb (a b : Z * Z) : bool := (fst a =? fst b) && (snd a =? snd b).
(** Python tuple comparison *)
Definition period_ltb (a b : period) : bool :=
  pair_ltb (fst a) (fst b) || (pair_eqb (fst a) (fst b) && pair_ltb (snd a) (snd b)).
Definition period_eqb (a b : period) : bool := pair_eqb (fst a) (fst b) && pair_eqb (snd a) (snd b).

(** line 304 [sorted(set(date_list))]: insertion into a strictly sorted list. *)
Fixpoint insert_period (d : period) (l : list period) : list period :=
  match l with
  | [] => [d]
  | x :: t => if period_ltb d x then d :: x :: t
              else if period_eqb d x then x :: t
              else x :: insert_period d t
  end.
Definition sorted_set (l : list period) : list period := fold_right insert_period [] l.

Section Reduce.
  Context {F : Type}.
  Variable parse_dates : F -> option period.
  Variable parse_version : F -> option Z.

  (** [rx.findall(...).pop()] *)
  Definition pop {A} (o : option A) : res A := match o with Some a => Ok a | None => Err IndexError end.

  (** line 310 / 305: the granules whose date is [d], in input order *)
  Definition with_date (d : period) (gs : list (period * F)) : list F :=
    map snd (filter (fun x => period_eqb (fst x) d) gs).

  (** line 322 [versions.index(max(versions))]: first element with the maximum;
      [best] starts as the first candidate. *)
  Fixpoint first_max (best : F * Z) (l : list (F * Z)) : F :=
    match l with
    | [] => fst best
    | x :: t => if snd best <? snd x then first_max x t else first_max best t
    end.

  (** lines 304-323, body of the loop for one date *)
  Definition pick (d : period) (gs : list (period * F)) : res F :=
    match with_date d gs with
    | [] => Err OtherExn           (* impossible: d comes from the list *)
    | [g] => Ok g                  (* lines 305-307 *)
    | g :: t =>                    (* lines 308-323 *)
        do vg <- pop (parse_version g);
        do vs <- mapM (fun f => do v <- pop (parse_version f); Ok (f, v)) t;
        Ok (first_max (g, vg) vs)
    end.

  Definition reduce_by_date (granules : list F) : res (list F) :=
    do dates <- mapM (fun f => pop (parse_dates f)) granules;
    let gs := combine dates granules in
    mapM (fun d => pick d gs) (sorted_set dates).
End Reduce.
