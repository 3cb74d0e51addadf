(** Model of dates in texts: gravity_toolkit/time.py parse (83-104), parse_date_string (107-139), split_date_string (142-156), datetime_to_list (159-173),
    convert_datetime (496-518) and the epochs of convert_delta_time (521-548).  dateutil.parser.parse is a parameter: what it makes of a text, or its exception.
    Texts are ASCII. *)
From Coq Require Import QArith Ascii String.
From Verif Require Import Base TimeModel.
Open Scope Z_scope.
Definition text : Type := list ascii.
(** datetime.datetime: the fields, microseconds, and the offset from UTC in seconds (tzinfo), less than a day *)
Record stamp := mkstamp { s_y : Z; s_mo : Z; s_d : Z; s_h : Z; s_mi : Z; s_s : Z; s_us : Z; s_off : option Z }.
Definition days_in_month (y m : Z) : Z :=
  if m =? 2 then (if ((y mod 4 =? 0) && (negb (y mod 100 =? 0) || (y mod 400 =? 0)))%bool then 29 else 28) else nth (Z.to_nat (m - 1)) dpm_stnd 0.
(** the calendar of datetime: one day on, one day back; OverflowError outside of the years 1 to 9999 *)
Definition day_on (y m d : Z) : res (Z * Z * Z) :=
  if d <? days_in_month y m then Ok (y, m, d + 1) else if m <? 12 then Ok (y, m + 1, 1) else if y <? 9999 then Ok (y + 1, 1, 1) else Err OtherExn.
Definition day_back (y m d : Z) : res (Z * Z * Z) :=
  if 1 <? d then Ok (y, m, d - 1) else if 1 <? m then Ok (y, m - 1, days_in_month y (m - 1)) else if 1 <? y then Ok (y - 1, 12, 31) else Err OtherExn.
(** 101-102: astimezone(UTC).replace(tzinfo=None) *)
Definition to_utc (t : stamp) : res stamp :=
  match s_off t with
  | None => Ok t
  | Some off =>
      let sec := 3600 * s_h t + 60 * s_mi t + s_s t - off in
      do r <- (if sec <? 0 then day_back (s_y t) (s_mo t) (s_d t) else if sec <? 86400 then Ok (s_y t, s_mo t, s_d t) else day_on (s_y t) (s_mo t) (s_d t));
      let '(y, m, d) := r in let q := sec mod 86400 in
      Ok (mkstamp y m d (q / 3600) (q / 60 mod 60) (q mod 60) (s_us t) None)
  end.
Section Parser.
  Variable dateutil_parse : text -> res stamp.
  (** 83-104 *)
  Definition parse (s : text) : res stamp := do t <- dateutil_parse s; to_utc t.
  (** 173 *)
  Definition datetime_to_list (t : stamp) : list Z := [s_y t; s_mo t; s_d t; s_h t; s_mi t; s_s t].
  (** 54-73 *)
  Definition to_sec : list (string * Q) := [("microseconds", 1 # 1000000); ("microsecond", 1 # 1000000); ("microsec", 1 # 1000000); ("microsecs", 1 # 1000000);
    ("milliseconds", 1 # 1000); ("millisecond", 1 # 1000); ("millisec", 1 # 1000); ("millisecs", 1 # 1000); ("msec", 1 # 1000); ("msecs", 1 # 1000); ("ms", 1 # 1000);
    ("seconds", 1); ("second", 1); ("sec", 1); ("secs", 1); ("s", 1); ("minutes", 60); ("minute", 60); ("min", 60); ("mins", 60);
    ("hours", 3600); ("hour", 3600); ("hr", 3600); ("hrs", 3600); ("h", 3600); ("day", 86400); ("days", 86400); ("d", 86400);
    ("mon", 30 * 86400); ("month", 30 * 86400); ("months", 30 * 86400); ("common_year", 365 * 86400); ("common_years", 365 * 86400);
    ("year", (36525 # 100) * 86400); ("years", (36525 # 100) * 86400)]%string%Q.
  Fixpoint look (k : string) (l : list (string * Q)) : option Q := match l with [] => None | (a, v) :: l => if String.eqb k a then Some v else look k l end.
  (** str.split(None, 2): words between white space, at most two cuts; the rest keeps what is at its end *)
  Definition blank (c : ascii) : bool := let n := nat_of_ascii c in (((9 <=? n) && (n <=? 13)) || ((28 <=? n) && (n <=? 32)))%nat%bool.
  Fixpoint strip_left (s : text) : text := match s with c :: r => if blank c then strip_left r else s | [] => [] end.
  Fixpoint word (s : text) : text * text := match s with c :: r => if blank c then ([], s) else let '(w, t) := word r in (c :: w, t) | [] => ([], []) end.
  Fixpoint split_none (cuts : nat) (s : text) : list text :=
    match strip_left s with
    | [] => []
    | s' => match cuts with O => [s'] | Datatypes.S k => let '(w, t) := word s' in w :: split_none k t end
    end.
  Definition lower (c : ascii) : ascii := let n := nat_of_ascii c in if ((65 <=? n) && (n <=? 90))%nat then ascii_of_nat (n + 32) else c.
  (** 151-156: the units and the epoch; what is between them is not looked at *)
  Definition split_date_string (s : text) : res (text * stamp) :=
    match split_none 2 s with
    | [units; _; epoch] => do t <- parse epoch; Ok (map lower units, t)
    | _ => Err ValueError
    end.
  (** 127-139 *)
  Definition parse_date_string (s : text) : res (list Z * Q) :=
    match parse s with
    | Ok t => Ok (datetime_to_list t, 0%Q)
    | Err ValueError =>
        do (units, t) <- split_date_string s;
        match look (string_of_list_ascii units) to_sec with None => Err ValueError | Some v => Ok (datetime_to_list t, v) end
    | Err e => Err e
    end.

  (** datetime.datetime( *l ): TypeError for too few or too many values, ValueError for values out of range *)
  Definition make_datetime (l : list Z) : res stamp :=
    let go y m d h mi s us := if ((1 <=? y) && (y <=? 9999) && (1 <=? m) && (m <=? 12) && (1 <=? d) && (d <=? days_in_month y m) && (0 <=? h) && (h <=? 23) && (0 <=? mi) && (mi <=? 59) && (0 <=? s) && (s <=? 59) && (0 <=? us) && (us <=? 999999))%bool
      then Ok (mkstamp y m d h mi s us None) else Err ValueError in
    match l with
    | [y; m; d] => go y m d 0 0 0 0 | [y; m; d; h] => go y m d h 0 0 0 | [y; m; d; h; mi] => go y m d h mi 0 0
    | [y; m; d; h; mi; s] => go y m d h mi s 0 | [y; m; d; h; mi; s; us] => go y m d h mi s us | _ => Err TypeError
    end.
  (** np.datetime64 of a date without time zone: microseconds since 1970; toordinal of datetime: the days of the years, of the months and of the month *)
  Definition ordinal (y m d : Z) : Z := let k := y - 1 in 365 * k + k / 4 - k / 100 + k / 400 + sumZ (map (fun i => days_in_month y (Z.of_nat i)) (seq 1 (Z.to_nat (m - 1)))) + d.
  Definition datetime64 (t : stamp) : Z := ((ordinal (s_y t) (s_mo t) (s_d t) - 719163) * 86400 + 3600 * s_h t + 60 * s_mi t + s_s t) * 1000000 + s_us t.
  (** an epoch: a tuple or list of fields, a text, a np.datetime64, or None *)
  Inductive epoch := Fields (l : list Z) | Written (s : text) | Moment (us : Z) | NoEpoch.
  Definition moment (e : epoch) : res Z :=
    match e with Fields l => do t <- make_datetime l; Ok (datetime64 t) | Written s => do t <- parse s; Ok (datetime64 t) | Moment us => Ok us | NoEpoch => Err TypeError end.
  (** 513-518; [date]: a np.datetime64 *)
  Definition convert_datetime (date : Z) (e : epoch) : res Q := do u <- moment e; Ok (inject_Z (date - u) / 1000000)%Q.
  (** 537-548: the first epoch is converted first; None is left until the difference *)
  Definition convert_delta_time (delta : Q) (e1 e2 : epoch) (scale : Q) : res Q :=
    let late e := match e with NoEpoch => Ok 0 | _ => moment e end in
    do _ <- late e1; do _ <- late e2; do u1 <- moment e1; do u2 <- moment e2;
    Ok (scale * (delta - inject_Z (u2 - u1) / 1000000))%Q.
End Parser.
