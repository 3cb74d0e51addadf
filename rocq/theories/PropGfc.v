(** C86 read_gfc_harmonics. *)
From Coq Require Import QArith Qround Lqa Lia ZArith.
From Verif Require Import Base TimeModel TimeSpec TimeProofs DecimalProofs GraceModel PropGraceDate GfcModel.
Open Scope Z_scope.

(** Julian day of a date and time, from the day numbers of the calendar (TimeSpec) *)
Definition true_jd (x : date) (t : tod) : Q := (inject_Z (gday x) - (1 # 2) + day_fraction t)%Q.
(** dates for which the code's Julian day is right (C07) *)
Definition plain (x : date) : Prop :=
  ~ ((dy x mod 100 = 0 /\ dy x mod 400 <> 0 /\ 3 <= dm x <= 8) \/ ((dy x - 1) mod 100 = 0 /\ (dy x - 1) mod 400 <> 0 /\ dm x = 1)).
Definition stamp_of (x : date) (t : tod) : stamp := mkstamp (dy x) (dm x) (inject_Z (dd x)) (inject_Z (th t)) (inject_Z (tm t)) (ts t).
Definition last_second : tod := mktod 23 59 59.
Definition midnight : tod := mktod 0 0 0.

Lemma julian_ok x t : valid_greg x -> plain x -> (julian (stamp_of x t) == true_jd x t)%Q.
Proof.
  intros V P. unfold julian, stamp_of, true_jd. cbn [s_y s_m s_d s_h s_mi s_s].
  destruct (calendar_dates_value (dy x) (dm x) (dd x) (th t) (tm t) (ts t) (proj1 V)) as [H _]. cbv zeta in H.
  rewrite H.
  - destruct t as [h m s]. destruct x as [y mo d]. cbn [th tm ts dy dm dd]. unfold Z.sub. rewrite inject_Z_plus. change (inject_Z (- (2400001))) with (-2400001 # 1)%Q. set (a := inject_Z (gday _)). set (b := day_fraction _). clearbody a b. lra.
  - intros B. apply P. destruct B as [[[A1 A2] A3]|[[A1 A2] A3]]; [left|right]; auto.
Qed.
Definition months12 : list Z := [1;2;3;4;5;6;7;8;9;10;11;12].
Lemma days_ok y : y mod 4000 <> 0 -> days_in y = Ok (map (month_len (greg_leap y)) months12).
Proof. intros H. unfold days_in. rewrite calendar_days_spec. destruct (Z.eqb_spec (y mod 4000) 0); [contradiction|]. rewrite andb_true_r. reflexivity. Qed.
Lemma sum_ok y : sumZ (map (month_len (greg_leap y)) months12) = year_len y.
Proof. rewrite year_len_eq. destruct (greg_leap y); reflexivity. Qed.
Lemma month_case m : 1 <= m <= 12 -> In m months12.
Proof. intros H. cbn [In months12]. lia. Qed.
Lemma day_of_ok lp m d t y : 1 <= m <= 12 ->
  (day_of (map (month_len lp) months12) (mkstamp y m d (inject_Z (th t)) (inject_Z (tm t)) (ts t)) == inject_Z (before_month lp m) + d + day_fraction t)%Q.
Proof.
  intros H. unfold day_of, day_fraction. cbn [s_m s_d s_h s_mi s_s].
  assert (E : sumZ (upto (map (month_len lp) months12) (m - 1)) = before_month lp m).
  { apply month_case in H. cbn [In months12] in H. destruct lp; repeat (destruct H as [<-|H]; [reflexivity|]); destruct H. }
  rewrite E. ring.
Qed.
Lemma get_ok lp m : 1 <= m <= 12 -> py_get (map (month_len lp) months12) (m - 1) = Ok (month_len lp m).
Proof. intros H. apply month_case in H. cbn [In months12] in H. destruct lp; repeat (destruct H as [<-|H]; [reflexivity|]); destruct H. Qed.

(** *** ITSG products: one calendar month.  [start] and [end] are the Julian days of its first and last second, the coefficients
    are those of the file, and the decimal date is the middle of the month counted with the first of January as day one *)
Theorem C86_month : forall (A : Type) (read : bool -> res A) (x : A) y m, read false = Ok x -> y mod 4000 <> 0 -> 1 <= m <= 12 ->
  let first := mkdate y m 1 in let last := mkdate y m (month_len (greg_leap y) m) in
  exists g, read_gfc_harmonics read (NItsg y m) = Ok g /\ g_data g = x /\
  (plain first -> (g_start g == true_jd first midnight)%Q) /\ (plain first -> (g_end g == true_jd last last_second)%Q) /\
  let jan1 := true_jd (mkdate y 1 1) midnight in
  (g_time g == inject_Z y + ((true_jd first midnight + true_jd last last_second) / 2 - jan1 + 1) / inject_Z (year_len y))%Q.
Proof.
  intros A read x y m R Y M first last. unfold read_gfc_harmonics, gfc_dates, month_stamps. rewrite days_ok by auto. cbn [bind]. rewrite get_ok by auto. cbn [bind].
  rewrite R. cbn [bind]. eexists. split; [reflexivity|]. cbn [g_data g_time g_start g_end]. split; [reflexivity|].
  assert (V1 : valid_greg first). { split; cbn [dm dd dy first]; [auto|]. pose proof (month_len (greg_leap y) m). unfold month_len. destruct (m =? 2), (greg_leap y), ((m =? 4) || (m =? 6) || (m =? 9) || (m =? 11)); lia. }
  assert (V2 : valid_greg last). { split; cbn [dm dd dy last]; [auto|]. unfold month_len. destruct (m =? 2), (greg_leap y), ((m =? 4) || (m =? 6) || (m =? 9) || (m =? 11)); lia. }
  split; [intros P; apply (julian_ok first midnight V1 P)|]. split; [intros P; apply (julian_ok last last_second V2); exact P|]. cbv zeta.
  cbn [s_y]. rewrite Z.sub_diag, Z.mul_0_l. rewrite sum_ok.
  pose proof (day_of_ok (greg_leap y) m 1 midnight y M) as E1. pose proof (day_of_ok (greg_leap y) m (inject_Z (month_len (greg_leap y) m)) last_second y M) as E2.
  cbn [midnight last_second th tm ts] in E1, E2. change (inject_Z 0) with 0%Q in *. change (inject_Z 23) with 23%Q in E2. change (inject_Z 59) with 59%Q in E2. rewrite E1, E2.
  unfold true_jd. assert (G : forall d, gday (mkdate y m d) = gday (mkdate y 1 1) + before_month (greg_leap y) m + d - 1).
  { intros d. unfold gday. cbn [dy dm dd]. change (before_month (greg_leap y) 1) with 0. lia. }
  unfold first, last. rewrite !G. unfold Z.sub. rewrite !inject_Z_plus. change (inject_Z (- (1))) with (-1 # 1)%Q. change (inject_Z 1) with 1%Q.
  set (a := inject_Z (gday _)). set (b := inject_Z (before_month _ _)). set (c := inject_Z (month_len _ _)). set (f0 := day_fraction (mktod 0 0 0)). set (f1 := day_fraction (mktod 23 59 59)).
  assert (F : (f0 == 0)%Q) by (unfold f0; vm_compute; reflexivity).
  assert (NZ : ~ (inject_Z (year_len y) == 0)%Q). { change 0%Q with (inject_Z 0). intros X. apply -> inject_Z_injective in X. pose proof (year_len_pos y). lia. }
  change (day_fraction midnight) with f0. change (day_fraction last_second) with f1. rewrite F. clearbody a b c f1. field. exact NZ.
Qed.
(** the calendar month of the decimal date (its twelfth of the year) is the month of the file *)
Theorem C86_month_of_date : forall (A : Type) (read : bool -> res A) y m g, y mod 4000 <> 0 -> 1 <= m <= 12 -> read_gfc_harmonics read (NItsg y m) = Ok g ->
  Qfloor (g_time g) = y /\ Qfloor (12 * (g_time g - inject_Z y)) + 1 = m.
Proof.
  intros A read y m g Y M H. destruct (read false) as [x|e] eqn:R.
  2:{ exfalso. unfold read_gfc_harmonics, gfc_dates, month_stamps in H. rewrite days_ok in H by auto. cbn [bind] in H. rewrite get_ok in H by auto. cbn [bind] in H. rewrite R in H. discriminate. }
  unfold read_gfc_harmonics, gfc_dates, month_stamps in H. rewrite days_ok in H by auto. cbn [bind] in H. rewrite get_ok in H by auto. cbn [bind] in H. rewrite R in H. cbn [bind] in H.
  apply (f_equal (fun r => match r with Ok z => g_time z | Err _ => 0%Q end)) in H. cbn [g_time s_y] in H. rewrite Z.sub_diag, Z.mul_0_l, sum_ok in H.
  assert (T : (g_time g == inject_Z y + (inject_Z (before_month (greg_leap y) m) + (1 + inject_Z (month_len (greg_leap y) m) + (86399 # 86400)) / 2) / inject_Z (year_len y))%Q).
  { rewrite <- H. pose proof (day_of_ok (greg_leap y) m 1 midnight y M) as E1. pose proof (day_of_ok (greg_leap y) m (inject_Z (month_len (greg_leap y) m)) last_second y M) as E2.
    cbn [midnight last_second th tm ts] in E1, E2. change (inject_Z 0) with 0%Q in *. change (inject_Z 23) with 23%Q in E2. change (inject_Z 59) with 59%Q in E2. rewrite E1, E2.
    assert (NZ : ~ (inject_Z (year_len y) == 0)%Q). { change 0%Q with (inject_Z 0). intros X. apply -> inject_Z_injective in X. pose proof (year_len_pos y). lia. }
    assert (F0 : (day_fraction midnight == 0)%Q) by (vm_compute; reflexivity). assert (F1 : (day_fraction last_second == 86399 # 86400)%Q) by (vm_compute; reflexivity).
    unfold midnight, last_second in F0, F1. rewrite F0, F1. field. exact NZ. }
  clear H. set (q := (_ / inject_Z (year_len y))%Q) in T.
  assert (B : (0 <= q < 1 /\ (inject_Z (m - 1) <= 12 * q < inject_Z m))%Q).
  { unfold q. rewrite year_len_eq. clear T q. apply month_case in M. cbn [In months12] in M. destruct (greg_leap y); repeat (destruct M as [<-|M]; [vm_compute; repeat split; congruence|]); destruct M. }
  destruct B as [[B1 B2] [B3 B4]]. clearbody q.
  assert (FL : forall (a : Z) (r : Q), (inject_Z a <= r)%Q -> (r < inject_Z (a + 1))%Q -> Qfloor r = a).
  { intros a r L1 L2. pose proof (Qfloor_le r) as F1. pose proof (Qlt_floor r) as F2.
    assert (inject_Z a < inject_Z (Qfloor r + 1))%Q by lra. assert (inject_Z (Qfloor r) < inject_Z (a + 1))%Q by lra. rewrite <- Zlt_Qlt in *. lia. }
  split.
  - rewrite T. apply FL; [lra|]. rewrite inject_Z_plus. change (inject_Z 1) with 1%Q. lra.
  - rewrite (FL (m - 1)); [lia| |]; setoid_replace (12 * (g_time g - inject_Z y))%Q with (12 * q)%Q by (rewrite T; ring); [exact B3|].
    replace (m - 1 + 1) with m by lia. exact B4.
Qed.
(** Refuted: the decimal date is not the one of convert_calendar_decimal and of the middle of the month: it is one day (less half a
    second) late.  C64 is the same kind of slip in the other direction *)
Theorem C86_one_day_late_refuted : exists g, read_gfc_harmonics (fun _ => Ok tt) (NItsg 2010 1) = Ok g /\
  (* noon of 16 January is the middle of January *)
  let middle := convert_calendar_decimal 2010 1 (Some 16%Q) (Some 12%Q) None None None in
  (g_time g - middle == (1 - (1 # 172800)) / 365)%Q.
Proof. eexists. split; [reflexivity|]. vm_compute. reflexivity. Qed.

(** *** Swarm data: from date and time [s] on day [a] to [t] on day [b] of the same year or of the first two months of the next *)
Theorem C86_swarm : forall (A : Type) (read : bool -> res A) (x : A) zip a s b t, read zip = Ok x -> valid_greg a -> valid_greg b -> dy a mod 4000 <> 0 ->
  (dy b = dy a \/ (dy b = dy a + 1 /\ dm b <= 2)) ->
  exists g, read_gfc_harmonics read (NSwarm (stamp_of a s) (stamp_of b t) zip) = Ok g /\ g_data g = x /\
  (plain a -> (g_start g == true_jd a s)%Q) /\ (plain b -> (g_end g == true_jd b t)%Q) /\
  let jan1 := true_jd (mkdate (dy a) 1 1) midnight in
  (g_time g == inject_Z (dy a) + ((true_jd a s + true_jd b t) / 2 - jan1 + 1) / inject_Z (year_len (dy a)))%Q.
Proof.
  intros A read x zip a s b t R Va Vb Y D. unfold read_gfc_harmonics, gfc_dates. cbn [s_y stamp_of]. rewrite days_ok by auto. cbn [bind]. rewrite R. cbn [bind].
  eexists. split; [reflexivity|]. cbn [g_data g_time g_start g_end]. split; [reflexivity|]. split; [apply julian_ok; auto|]. split; [apply julian_ok; auto|]. cbv zeta.
  rewrite sum_ok. unfold stamp_of. rewrite (day_of_ok _ _ _ s _ (proj1 Va)), (day_of_ok _ _ _ t _ (proj1 Vb)).
  assert (NZ : ~ (inject_Z (year_len (dy a)) == 0)%Q). { change 0%Q with (inject_Z 0). intros X. apply -> inject_Z_injective in X. pose proof (year_len_pos (dy a)). lia. }
  assert (GA : gday a = gday (mkdate (dy a) 1 1) + before_month (greg_leap (dy a)) (dm a) + dd a - 1).
  { unfold gday. cbn [dy dm dd]. change (before_month (greg_leap (dy a)) 1) with 0. lia. }
  assert (GB : gday b = gday (mkdate (dy a) 1 1) + (dy b - dy a) * year_len (dy a) + before_month (greg_leap (dy a)) (dm b) + dd b - 1).
  { assert (E : gday (mkdate (dy b) 1 1) = gday (mkdate (dy a) 1 1) + (dy b - dy a) * year_len (dy a)).
    { destruct D as [->|[-> _]]; [lia|]. unfold year_len, year_start. replace (dy a + 1 - dy a) with 1 by lia. lia. }
    rewrite <- E. assert (E2 : before_month (greg_leap (dy a)) (dm b) = before_month (greg_leap (dy b)) (dm b)).
    { destruct D as [->|[_ D]]; [reflexivity|]. pose proof (proj1 Vb). unfold before_month. destruct (Z.ltb_spec 2 (dm b)); [lia|reflexivity]. }
    rewrite E2. unfold gday. cbn [dy dm dd]. change (before_month (greg_leap (dy b)) 1) with 0. lia. }
  unfold true_jd. rewrite GA, GB. assert (F0 : (day_fraction midnight == 0)%Q) by (vm_compute; reflexivity). rewrite F0.
  unfold Z.sub. rewrite !inject_Z_plus, !inject_Z_mult, !inject_Z_plus, !inject_Z_opp. change (inject_Z 1) with 1%Q. set (u := day_fraction s). set (v := day_fraction t). clearbody u v.
  cbn [s_y]. field. exact NZ.
Qed.
(** the same date as the one of grace_date for the file (C12), so the two agree on every Swarm file *)
Theorem C86_as_grace_date : forall (A : Type) (read : bool -> res A) zip a b g p, 1 <= s_m a <= 12 -> 1 <= s_m b <= 12 ->
  read_gfc_harmonics read (NSwarm a b zip) = Ok g -> gfc_period a b = Some p -> exists n, dpy (s_y a) = Some n /\ (g_time g == tdec n p)%Q.
Proof.
  intros A read zip a b g p Ma Mb H P. unfold gfc_period in P. unfold read_gfc_harmonics, gfc_dates, days_in in H. unfold dpy.
  destruct (calendar_days (s_y a)) as [dpm|]; [|discriminate]. assert (EP : p = mkper (s_y a) (doy dpm a) (s_y b) (doy dpm b)) by congruence.
  cbn [bind] in H. destruct (read zip) as [x|]; [|discriminate]. cbn [bind] in H. exists (sumZ dpm). split; [reflexivity|].
  apply (f_equal (fun r => match r with Ok z => g_time z | Err _ => 0%Q end)) in H. cbn [g_time] in H. rewrite <- H, EP. unfold tdec, mid_day. cbn [p_sy p_sd p_ey p_ed].
  assert (E : forall z, 1 <= s_m z -> day_of dpm z = doy dpm z). { intros z Hz. unfold day_of, doy, upto. destruct (Z.ltb_spec (s_m z - 1) 0); [lia|reflexivity]. }
  rewrite !E by lia. reflexivity.
Qed.
(** *** failures *)
Theorem C86_errors : forall (A : Type) (read : bool -> res A),
  read_gfc_harmonics read NOther = Err UnboundLocalError /\
  (forall y m, y mod 4000 <> 0 -> 12 < m -> read_gfc_harmonics read (NItsg y m) = Err IndexError) /\
  (forall n e, gfc_dates n = Err e -> read_gfc_harmonics read n = Err e) /\
  (forall y m e, y mod 4000 <> 0 -> 1 <= m <= 12 -> read false = Err e -> read_gfc_harmonics read (NItsg y m) = Err e).
Proof.
  intros A read. split; [reflexivity|]. split; [|split].
  - intros y m Y M. unfold read_gfc_harmonics, gfc_dates, month_stamps. rewrite days_ok by auto. cbn [bind]. unfold py_get.
    assert (L : length (map (month_len (greg_leap y)) months12) = 12%nat) by reflexivity.
    set (l := map _ _) in *. clearbody l. destruct (Z.ltb_spec (m - 1) 0); [lia|].
    rewrite L. destruct (Z.ltb_spec (m - 1) (Z.of_nat 12)); [lia|]. rewrite andb_false_r. reflexivity.
  - intros n e H. unfold read_gfc_harmonics. rewrite H. reflexivity.
  - intros y m e Y M R. unfold read_gfc_harmonics, gfc_dates, month_stamps. rewrite days_ok by auto. cbn [bind]. rewrite get_ok by auto. cbn [bind]. rewrite R. reflexivity.
Qed.
(** Refuted: the Swarm background models (GAA to GAD), announced in the documentation, can never be read *)
Theorem C86_swarm_models_refuted : forall (A : Type) (read : bool -> res A) y m sw, exists e, read_gfc_harmonics read (NModel y m sw) = Err e.
Proof. intros A read y m [|]; [exists ValueError|exists IndexError]; reflexivity. Qed.
(** Refuted: month 0 is accepted and dated like December of the same year *)
Theorem C86_month_zero_refuted : exists g h, read_gfc_harmonics (fun _ => Ok tt) (NItsg 2010 0) = Ok g /\ read_gfc_harmonics (fun _ => Ok tt) (NItsg 2010 12) = Ok h /\ g_time g = g_time h.
Proof. do 2 eexists. split; [reflexivity|]. split; [reflexivity|]. reflexivity. Qed.
Example C86_nonvacuous : plain (mkdate 2010 1 1) /\ plain (mkdate 2010 12 31) /\ valid_greg (mkdate 2013 12 1) /\ valid_greg (mkdate 2014 1 3) /\
  (forall A (read : bool -> res A) x, read false = Ok x -> exists g, read_gfc_harmonics read (NItsg 2010 7) = Ok g).
Proof.
  repeat split; try (cbn; lia); try (unfold plain; cbn; lia).
  intros A read x R. destruct (C86_month A read x 2010 7 R ltac:(cbn; lia) ltac:(lia)) as (g & E & _). exists g. exact E.
Qed.
Print Assumptions C86_month. Print Assumptions C86_month_of_date. Print Assumptions C86_swarm. Print Assumptions C86_as_grace_date.
