(** Model of gravity_toolkit/time.py (calendar, GRACE months, Julian days).
    Python floats are modelled by exact rationals [Q]; [np.floor] by [Qfloor]. *)
From Coq Require Import QArith Qround.
From Verif Require Import Base.
Open Scope Z_scope.

(** time.py:460-461  module tables [_dpm_leap], [_dpm_stnd]. *)
Definition dpm_leap : list Z := [31; 29; 31; 30; 31; 30; 31; 31; 30; 31; 30; 31].
Definition dpm_stnd : list Z := [31; 28; 31; 30; 31; 30; 31; 31; 30; 31; 30; 31].

(** time.py:490 condition of the first branch (same expression at line 666). *)
Definition leap_branch (year : Z) : bool :=
  let m4 := year mod 4 in let m100 := year mod 100 in
  let m400 := year mod 400 in let m4000 := year mod 4000 in
  ((m4 =? 0) && negb (m100 =? 0)) || ((m400 =? 0) && negb (m4000 =? 0)).

(** time.py:492 condition of the second branch (same expression at line 667). *)
Definition stnd_branch (year : Z) : bool :=
  let m4 := year mod 4 in let m100 := year mod 100 in
  let m400 := year mod 400 in let m4000 := year mod 4000 in
  negb (m4 =? 0) || ((m100 =? 0) && negb (m400 =? 0)) || (m4000 =? 0).

(** time.py:464-493 [calendar_days]: [None] when neither branch is taken
    (Python falls off the end).  Integer years. *)
Definition calendar_days (year : Z) : option (list Z) :=
  if leap_branch year then Some dpm_leap
  else if stnd_branch year then Some dpm_stnd
  else None.

Definition sumZ (l : list Z) : Z := fold_right Z.add 0 l.

(** time.py:412-430 [grace_to_calendar] (Python // and np.mod are floor division). *)
Definition grace_to_calendar (g : Z) : Z * Z :=
  (2002 + (g - 1) / 12, (g - 1) mod 12 + 1).

(** time.py:390-409 [calendar_to_grace] with [around=np.floor]; the year may be
    a decimal year.  [np.array(..., dtype=int)] of an integral value. *)
Definition calendar_to_grace (year : Q) (month : Z) : Z :=
  Qfloor (12 * (year - 2002)) + month.

(** [np.round]: round half to even. *)
Definition Qround_even (x : Q) : Z :=
  let f := Qfloor x in
  match (x - inject_Z f ?= 1#2)%Q with
  | Lt => f | Gt => f + 1
  | Eq => if Z.even f then f else f + 1
  end.

(** the [around=np.round] form used by SLR/C20.py:279-280 and others. *)
Definition calendar_to_grace_round (year : Q) (month : Z) : Z :=
  Qround_even (12 * (year - 2002)) + month.

(** time.py:327-387 [adjust_months].  [gm] is the 1-d input array.
    [np.squeeze] of the result (0-d for one month) is not represented. *)
Section Adjust.
  Variable gm : list Z.
  Let n := length gm.
  (** numpy index j-1 with j=0 meaning the last element (line 367). *)
  Definition wrap_pred (n j : nat) : nat := match j with O => n - 1 | S k => k end.
  (** counts per element: [c[i]] of lines 358-363. *)
  Definition mult (x : Z) : nat := count_occ Z.eq_dec gm x.
  (** lines 356-361: zeros, then the months occurring once. *)
  Definition adjust_init : list Z :=
    map (fun x => if Nat.eqb (mult x) 1 then x else 0) gm.
  (** lines 367-385, loop body for one index j of case2. *)
  Definition adjust_step (m : list Z) (j : nat) : list Z :=
    let mm1 := nth (wrap_pred n j) gm 0 in
    let mon := nth j gm 0 in
    let mp1 := if (j <? n - 1)%nat then nth (j + 1) gm 0 else mon + 1 in
    let mp2 := if (j <? n - 2)%nat then nth (j + 2) gm 0 else mp1 + 1 in
    if mon =? mm1 + 1 then upd m j mon
    else if (mon =? mm1) && negb (mon =? nth (wrap_pred n j) m 0) then upd m j mon
    else if mon =? mm1 then upd m j (mon + 1)
    else if (mon =? mp1) && ((mon =? mm1 + 2) || (mp2 =? mp1 + 1)) then upd m j (mon - 1)
    else m.
  (** line 363: indices of months occurring exactly twice, ascending. *)
  Definition adjust_case2 : list nat :=
    filter (fun j => Nat.eqb (mult (nth j gm 0)) 2) (seq 0 n).
  Definition adjust_months : list Z := fold_left adjust_step adjust_case2 adjust_init.
End Adjust.

(** time.py:582-586 the MJD polynomial of [convert_calendar_dates]. *)
Definition mjd_formula (year month day hour minute second : Q) : Q :=
  (367 * year - inject_Z (Qfloor (7 * (year + inject_Z (Qfloor ((month + 9) / 12))) / 4))
   - inject_Z (Qfloor (3 * (inject_Z (Qfloor ((year + (month - 9) / 7) / 100)) + 1) / 4))
   + inject_Z (Qfloor (275 * month / 9)) + day + hour / 24 + minute / 1440
   + second / 86400 + (3442057 # 2) - (4800001 # 2))%Q.

(** time.py:552-596 [convert_calendar_dates].  [epoch_days] is the value of
    [(epoch - epoch1)/np.timedelta64(1,'D')] of line 594 (numpy datetime
    arithmetic: the day count from 1858-11-17 to the epoch). *)
Definition convert_calendar_dates (year month day hour minute second epoch_days scale : Q) : Q :=
  (scale * (mjd_formula year month day hour minute second - epoch_days))%Q.

(** time.py:521-548 [convert_delta_time] on one element; epochs are instants in
    seconds on the numpy datetime64 axis. *)
Definition convert_delta_time (delta_time epoch1 epoch2 scale : Q) : Q :=
  let delta_time_epochs := (epoch2 - epoch1)%Q in
  (scale * (delta_time - delta_time_epochs))%Q.

(** time.py:433-456 [calendar_to_julian]; [year_decimal % 1] is the fraction. *)
Definition calendar_to_julian (year_decimal : Q) : option Q :=
  let year := Qfloor year_decimal in
  match calendar_days year with
  | None => None
  | Some dpm =>
    let dpy := sumZ dpm in
    let DofY := (inject_Z dpy * (year_decimal - inject_Z year))%Q in
    Some (367 * inject_Z year - inject_Z (Qfloor (7 * inject_Z year / 4))
          - inject_Z (Qfloor (3 * (inject_Z (Qfloor ((7 * inject_Z year - 1) / 700)) + 1) / 4))
          + DofY + (3442117 # 2))%Q
  end.

(** time.py:794-816 [convert_julian] on one element, before type conversion.
    Result: (year, month, day, hour, minute, second). *)
Definition convert_julian (JD : Q) : Z * Z * Z * Z * Z * Q :=
  let JDO := Qfloor (JD + (1#2)) in
  let C := if JDO <? 2299161 then JDO + 1524
           else let B := Qfloor ((inject_Z JDO - (7468865 # 4)) / (146097 # 4)) in
                JDO + B - Qfloor (inject_Z B / 4) + 1525 in
  let D := Qfloor ((inject_Z C - (1221 # 10)) / (1461 # 4)) in
  let E := Qfloor (365 * inject_Z D + inject_Z (Qfloor (inject_Z D / 4))) in
  let F := Qfloor ((inject_Z C - inject_Z E) / (306001 # 10000)) in
  let day := Qfloor (inject_Z C - inject_Z E + (1#2)) - Qfloor ((306001 # 10000) * inject_Z F) in
  let month := F - 1 - 12 * Qfloor (inject_Z F / 14) in
  let year := D - 4715 - Qfloor ((7 + inject_Z month) / 10) in
  let frac := (JD + (1#2) - inject_Z JDO)%Q in
  let hour := Qfloor (24 * frac) in
  let G := (frac - inject_Z hour / 24)%Q in
  let minute := Qfloor (G * 1440) in
  let second := ((G - inject_Z minute / 1440) * 86400)%Q in
  (year, month, day, hour, minute, second).

(** time.py:599-739 [convert_calendar_decimal] for one date.
    [day], [hour], [minute], [second], [DofY] are the optional arguments
    (None = Python None).  [leap]/[stnd] are index sets computed from the same
    conditions as [calendar_days]; a date in neither keeps t_date = 0 (line 647),
    a date in both is overwritten by the [stnd] assignment (line 734). *)
Definition oz (o : option Q) : Q := match o with Some q => q | None => 0%Q end.

Definition cum_days (dpm : list Z) (month_m1 : nat) : Z := sumZ (firstn month_m1 dpm).

(** lines 670-711: 0-based day of year, using the tables selected by [leap].
    The month index [month-1] addresses a 12x12 matrix: months outside 1..12 and
    the numpy wrap of negative indices (month 0, -1, ...) are rejected/wrapped as
    in [py_get]; here the caller guarantees 1 <= month <= 12. *)
Definition day_of_year (dpm : list Z) (month : Z) (day DofY : option Q) : Q :=
  match DofY with
  | Some d => (d - 1)%Q
  | None =>
    let k := Z.to_nat (month - 1) in
    let dd := match day with
              | Some d => (d - 1)%Q
              | None => (inject_Z (nth k dpm 0%Z) / 2)%Q
              end in
    (dd + inject_Z (cum_days dpm k))%Q
  end.

Definition convert_calendar_decimal (year month : Z)
    (day hour minute second DofY : option Q) : Q :=
  let t dpm := (inject_Z year + (day_of_year dpm month day DofY + oz hour / 24
                + oz minute / 1440 + oz second / 86400) / inject_Z (sumZ dpm))%Q in
  if stnd_branch year then t dpm_stnd
  else if leap_branch year then t dpm_leap
  else 0%Q.
