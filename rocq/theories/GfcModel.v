(** Model of gravity_toolkit/read_gfc_harmonics.py: the dates given to an ICGEM file.  The coefficients are those of
    geoid_toolkit.read_ICGEM_harmonics (another package): an arbitrary value.  The file name is given by the pattern it matches
    first (157, 168, 178) and the fields of that pattern; dateutil parsing of the Swarm dates is not modelled. *)
From Coq Require Import QArith List Bool.
From Verif Require Import Base TimeModel GraceModel.
Import ListNotations.
Open Scope Z_scope.

Inductive gname :=
  | NItsg (year month : Z)                    (** prefix_product_n_YYYY-MM.gfc, the digits are natural numbers *)
  | NSwarm (a b : stamp) (zip : bool)         (** SW_..._EGF_SHA_2__start_end_release *)
  | NModel (year month : Z) (sw : bool)       (** GAA_Swarm_nn_MM_YYYY; [sw]: the Swarm data pattern is found in the name as well *)
  | NOther.
(** the dictionary: what read_ICGEM_harmonics returns, with three items added *)
Record gfc (A : Type) := mkgfc { g_data : A; g_time : Q; g_start : Q; g_end : Q }.
Arguments mkgfc {A}. Arguments g_data {A}. Arguments g_time {A}. Arguments g_start {A}. Arguments g_end {A}.

(** python slice l[:k] *)
Definition upto (l : list Z) (k : Z) : list Z := if k <? 0 then firstn (Z.to_nat (Z.of_nat (length l) + k)) l else firstn (Z.to_nat k) l.
(** 196-199 *)
Definition day_of (dpm : list Z) (x : stamp) : Q :=
  (inject_Z (sumZ (upto dpm (s_m x - 1))) + s_d x + s_h x / 24 + s_mi x / 1440 + s_s x / 86400)%Q.
Definition days_in (y : Z) : res (list Z) := match calendar_days y with Some l => Ok l | None => Err UnboundLocalError end.
(** 164-167, 185-188: first and last second of a month *)
Definition month_stamps (y m : Z) : res (list Z * stamp * stamp) :=
  do dpm <- days_in y; do n <- py_get dpm (m - 1);
  Ok (dpm, mkstamp y m 1 0 0 0, mkstamp y m (inject_Z n) 23 59 59).
(** 157-189: days per month of the start year, first and last date, zip file *)
Definition gfc_dates (n : gname) : res (list Z * stamp * stamp * bool) :=
  match n with
  | NItsg y m => do d <- month_stamps y m; Ok (d, false)
  | NSwarm a b zip => do dpm <- days_in (s_y a); Ok (dpm, a, b, zip)
  | NModel _ _ sw => if sw then Err ValueError else Err IndexError   (* 181-183: the pattern of the data files, seven groups *)
  | NOther => Err UnboundLocalError                                   (* 191 *)
  end.
(** 207-214; the epoch is the modified Julian day 0 *)
Definition julian (x : stamp) : Q :=
  ((4800001 # 2) + convert_calendar_dates (inject_Z (s_y x)) (inject_Z (s_m x)) (s_d x) (s_h x) (s_mi x) (s_s x) 0 1)%Q.
(** 81-217; [read] is read_ICGEM_harmonics with TIDE and FLAG, its argument is ZIP *)
Definition read_gfc_harmonics {A} (read : bool -> res A) (n : gname) : res (gfc A) :=
  do d <- gfc_dates n;
  let '(dpm, a, b, zip) := d in
  do x <- read zip;
  let cyc := (inject_Z ((s_y b - s_y a) * sumZ dpm) + day_of dpm b)%Q in
  let mid := ((day_of dpm a + cyc) / 2)%Q in
  Ok (mkgfc x (inject_Z (s_y a) + mid / inject_Z (sumZ dpm))%Q (julian a) (julian b)).
