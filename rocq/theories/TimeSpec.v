(** Independent calendar specification (does not mention the model). *)
From Coq Require Import QArith.
From Verif Require Import Base.
Open Scope Z_scope.

(** Proleptic Gregorian leap years. *)
Definition greg_leap (y : Z) : bool :=
  ((y mod 4 =? 0) && negb (y mod 100 =? 0)) || (y mod 400 =? 0).

Definition month_len (leap : bool) (m : Z) : Z :=
  if m =? 2 then (if leap then 29 else 28)
  else if (m =? 4) || (m =? 6) || (m =? 9) || (m =? 11) then 30 else 31.

Record date := mkdate { dy : Z; dm : Z; dd : Z }.

Definition valid_greg (x : date) : Prop :=
  1 <= dm x <= 12 /\ 1 <= dd x <= month_len (greg_leap (dy x)) (dm x).

(** The calendar day after [x]. *)
Definition next_greg (x : date) : date :=
  if dd x <? month_len (greg_leap (dy x)) (dm x) then mkdate (dy x) (dm x) (dd x + 1)
  else if dm x <? 12 then mkdate (dy x) (dm x + 1) 1
  else mkdate (dy x + 1) 1 1.

(** A numbering of Gregorian dates by consecutive integers with
    2000-01-01 |-> 2451545 (the Julian day number of its noon).  [gday_ok] in
    TimeProofs shows that the numbering below is the one and only such function. *)
Definition is_julian_day_number (f : date -> Z) : Prop :=
  f (mkdate 2000 1 1) = 2451545 /\
  forall x, valid_greg x -> f (next_greg x) = f x + 1.

(** Days before month m in a year. *)
Definition before_month (leap : bool) (m : Z) : Z :=
  match m with
  | 1 => 0 | 2 => 31 | 3 => 59 | 4 => 90 | 5 => 120 | 6 => 151
  | 7 => 181 | 8 => 212 | 9 => 243 | 10 => 273 | 11 => 304 | 12 => 334
  | _ => 0 end + (if (2 <? m) && leap then 1 else 0).

(** Elapsed Gregorian days: years before y, months before m, day. *)
Definition gday (x : date) : Z :=
  365 * (dy x - 1) + (dy x - 1) / 4 - (dy x - 1) / 100 + (dy x - 1) / 400
  + before_month (greg_leap (dy x)) (dm x) + dd x + 1721425.

(** Julian calendar (used before 1582-10-15). *)
Definition jul_leap (y : Z) : bool := y mod 4 =? 0.
Definition valid_jul (x : date) : Prop :=
  1 <= dm x <= 12 /\ 1 <= dd x <= month_len (jul_leap (dy x)) (dm x).
Definition jday (x : date) : Z :=
  365 * (dy x - 1) + (dy x - 1) / 4 + before_month (jul_leap (dy x)) (dm x) + dd x + 1721423.

(** Lexicographic order on dates. *)
Definition date_lt (a b : date) : Prop :=
  dy a < dy b \/ dy a = dy b /\ (dm a < dm b \/ dm a = dm b /\ dd a < dd b).

(** A time of day. *)
Record tod := mktod { th : Z; tm : Z; ts : Q }.
Definition valid_tod (t : tod) : Prop :=
  0 <= th t <= 23 /\ 0 <= tm t <= 59 /\ (0 <= ts t)%Q /\ (ts t < 60)%Q.
Definition day_fraction (t : tod) : Q :=
  (inject_Z (th t) / 24 + inject_Z (tm t) / 1440 + ts t / 86400)%Q.
