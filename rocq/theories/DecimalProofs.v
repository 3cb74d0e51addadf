(** Lemmas about convert_calendar_decimal and calendar_to_julian. *)
From Coq Require Import QArith Qround ZifyBool ZifyNat Lqa.
From Verif Require Import Base TimeModel TimeSpec TimeProofs TimeProofs2.
Open Scope Z_scope.
Ltac Zify.zify_post_hook ::= Z.to_euclidean_division_equations.

Definition year_start (y : Z) : date := mkdate y 1 1.
Definition year_len (y : Z) : Z := gday (year_start (y + 1)) - gday (year_start y).

Lemma year_len_eq y : year_len y = if greg_leap y then 366 else 365.
Proof.
  unfold year_len, year_start, gday, before_month; cbn [dy dm dd]. cbn -[Z.add Z.sub Z.mul Z.div greg_leap].
  unfold greg_leap. ifs; lia.
Qed.

Lemma year_len_pos y : 365 <= year_len y <= 366.
Proof. rewrite year_len_eq. destruct (greg_leap y); lia. Qed.

Lemma doy_range x : valid_greg x -> 0 <= gday x - gday (year_start (dy x)) <= year_len (dy x) - 1.
Proof.
  rewrite year_len_eq. destruct x as [y m d]. unfold valid_greg, gday, year_start; cbn [dy dm dd].
  intros [Hm Hd]. set (k := 365 * (y - 1) + (y - 1) / 4 - (y - 1) / 100 + (y - 1) / 400). clearbody k.
  unfold before_month. month_cases m H; cbn -[Z.add Z.sub Z.mul greg_leap] in *; destruct (greg_leap y); cbn -[Z.add Z.sub Z.mul] in *; lia.
Qed.

Lemma cum_before (b : bool) m : 1 <= m <= 12 ->
  cum_days (if b then dpm_leap else dpm_stnd) (Z.to_nat (m - 1)) = before_month b m.
Proof. intros H. month_cases m H1; destruct b; reflexivity. Qed.

Lemma decimal_exact x t : valid_greg x -> dy x mod 4000 <> 0 ->
  (convert_calendar_decimal (dy x) (dm x) (Some (inject_Z (dd x))) (Some (inject_Z (th t)))
     (Some (inject_Z (tm t))) (Some (ts t)) None
   == inject_Z (dy x) + (inject_Z (gday x - gday (year_start (dy x))) + day_fraction t)
        / inject_Z (year_len (dy x)))%Q.
Proof.
  intros Hv H4. rewrite year_len_eq. unfold convert_calendar_decimal.
  pose proof (branches_exclusive (dy x)) as B. rewrite (leap_branch_greg (dy x)) in *.
  replace (dy x mod 4000 =? 0) with false in * by lia. cbn [negb] in *. rewrite andb_true_r in *.
  destruct x as [y m d]; cbn [dy dm dd] in *. destruct Hv as [Hm Hd]; cbn [dy dm dd] in *.
  assert (G : gday (mkdate y m d) - gday (year_start y) = d - 1 + before_month (greg_leap y) m).
  { unfold gday, year_start; cbn [dy dm dd]. change (before_month (greg_leap y) 1) with 0. lia. }
  rewrite G. unfold day_of_year, day_fraction, oz. rewrite B.
  destruct (stnd_branch y) eqn:E; cbn [negb] in *.
  - pose proof (cum_before false m Hm) as C. cbn iota in C. rewrite C.
    change (sumZ dpm_stnd) with 365. unfold Z.sub. rewrite !inject_Z_plus.
    change (inject_Z (-(1))) with (-(1))%Q. change (inject_Z 365) with (365 # 1)%Q. field.
  - pose proof (cum_before true m Hm) as C. cbn iota in C. rewrite C.
    change (sumZ dpm_leap) with 366. unfold Z.sub. rewrite !inject_Z_plus.
    change (inject_Z (-(1))) with (-(1))%Q. change (inject_Z 366) with (366 # 1)%Q. field.
Qed.

(** day-of-year form (1-based DofY) *)
Lemma decimal_doy y m d h mi s : y mod 4000 <> 0 -> forall n, n = gday (mkdate y m d) - gday (year_start y) + 1 ->
  valid_greg (mkdate y m d) ->
  (convert_calendar_decimal y m None h mi s (Some (inject_Z n)) ==
   convert_calendar_decimal y m (Some (inject_Z d)) h mi s None)%Q.
Proof.
  intros H4 n -> Hv. unfold convert_calendar_decimal.
  pose proof (branches_exclusive y) as B. rewrite (leap_branch_greg y) in *.
  replace (y mod 4000 =? 0) with false in * by lia. cbn [negb] in *. rewrite andb_true_r in *.
  destruct Hv as [Hm Hd]; cbn [dy dm dd] in *.
  assert (G : gday (mkdate y m d) - gday (year_start y) = d - 1 + before_month (greg_leap y) m).
  { unfold gday, year_start; cbn [dy dm dd]. change (before_month (greg_leap y) 1) with 0. lia. }
  rewrite G. unfold day_of_year, oz. rewrite B.
  destruct (stnd_branch y) eqn:E; cbn [negb] in *.
  - pose proof (cum_before false m Hm) as C. cbn iota in C. rewrite C.
    unfold Z.sub. rewrite !inject_Z_plus. 
    change (inject_Z 1) with 1%Q. change (inject_Z (-(1))) with (-(1))%Q. change (inject_Z (sumZ dpm_stnd)) with (365#1)%Q. field.
  - pose proof (cum_before true m Hm) as C. cbn iota in C. rewrite C.
    unfold Z.sub. rewrite !inject_Z_plus.
    change (inject_Z 1) with 1%Q. change (inject_Z (-(1))) with (-(1))%Q. change (inject_Z (sumZ dpm_leap)) with (366#1)%Q. field.
Qed.

Definition decimal (x : date) (t : tod) : Q :=
  convert_calendar_decimal (dy x) (dm x) (Some (inject_Z (dd x))) (Some (inject_Z (th t)))
     (Some (inject_Z (tm t))) (Some (ts t)) None.

Lemma frac_lt (a b : Q) (l : Z) : 0 < l -> (a < b)%Q -> (a / inject_Z l < b / inject_Z l)%Q.
Proof.
  intros Hl H. unfold Qdiv. apply Qmult_lt_compat_r; [|exact H].
  apply Qinv_lt_0_compat. change 0%Q with (inject_Z 0). rewrite <- Zlt_Qlt. exact Hl.
Qed.

Lemma decimal_bounds x t : valid_greg x -> valid_tod t -> dy x mod 4000 <> 0 ->
  (inject_Z (dy x) <= decimal x t)%Q /\ (decimal x t < inject_Z (dy x + 1))%Q.
Proof.
  intros Hv Ht H4. unfold decimal. rewrite (decimal_exact x t Hv H4).
  destruct (day_fraction_range t Ht) as [F0 F1].
  pose proof (doy_range x Hv) as D. pose proof (year_len_pos (dy x)) as L.
  set (k := gday x - gday (year_start (dy x))) in *. set (l := year_len (dy x)) in *.
  assert (Hl : (0 < inject_Z l)%Q) by (change 0%Q with (inject_Z 0); rewrite <- Zlt_Qlt; lia).
  assert (K0 : (0 <= inject_Z k)%Q) by (change 0%Q with (inject_Z 0); rewrite <- Zle_Qle; lia).
  assert (K1 : (inject_Z k + 1 <= inject_Z l)%Q).
  { change 1%Q with (inject_Z 1). rewrite <- inject_Z_plus, <- Zle_Qle. lia. }
  rewrite inject_Z_plus. split.
  - assert (0 <= (inject_Z k + day_fraction t) / inject_Z l)%Q.
    { apply Qle_shift_div_l; [exact Hl|]. lra. }
    lra.
  - assert ((inject_Z k + day_fraction t) / inject_Z l < 1)%Q.
    { apply Qlt_shift_div_r; [exact Hl|]. lra. }
    change (inject_Z 1) with 1%Q. lra.
Qed.

(** order of instants *)
Definition instant_lt (x1 : date) (t1 : tod) (x2 : date) (t2 : tod) : Prop :=
  (inject_Z (gday x1) + day_fraction t1 < inject_Z (gday x2) + day_fraction t2)%Q.

Lemma decimal_monotone x1 t1 x2 t2 :
  valid_greg x1 -> valid_greg x2 -> valid_tod t1 -> valid_tod t2 ->
  dy x1 mod 4000 <> 0 -> dy x2 mod 4000 <> 0 ->
  instant_lt x1 t1 x2 t2 -> (decimal x1 t1 < decimal x2 t2)%Q.
Proof.
  intros V1 V2 T1 T2 M1 M2 Hlt. unfold instant_lt in Hlt.
  destruct (Z.eq_dec (dy x1) (dy x2)) as [E|N].
  - unfold decimal. rewrite (decimal_exact x1 t1 V1 M1), (decimal_exact x2 t2 V2 M2).
    rewrite <- E. pose proof (year_len_pos (dy x1)) as L.
    apply Qplus_lt_r. apply frac_lt; [lia|].
    unfold Z.sub. rewrite !inject_Z_plus, !inject_Z_opp. lra.
  - assert (dy x1 < dy x2).
    { destruct (Z.lt_trichotomy (dy x1) (dy x2)) as [A|[A|A]]; [exact A|congruence|exfalso].
      pose proof (doy_range x1 V1) as D1. pose proof (doy_range x2 V2) as D2.
      assert (gday (year_start (dy x2 + 1)) <= gday (year_start (dy x1))).
      { clear - A. unfold gday, year_start; cbn [dy dm dd]. change (before_month (greg_leap (dy x2 + 1)) 1) with 0. change (before_month (greg_leap (dy x1)) 1) with 0. lia. }
      unfold year_len in D2.
      assert (gday x2 + 1 <= gday x1) as B by lia. rewrite Zle_Qle in B. rewrite inject_Z_plus in B.
      destruct (day_fraction_range t1 T1), (day_fraction_range t2 T2). change (inject_Z 1) with 1%Q in B. lra. }
    destruct (decimal_bounds x1 t1 V1 T1 M1) as [_ U]. destruct (decimal_bounds x2 t2 V2 T2 M2) as [L _].
    assert ((inject_Z (dy x1 + 1) <= inject_Z (dy x2))%Q) by (rewrite <- Zle_Qle; lia). lra.
Qed.

Lemma date_lt_instant x1 t1 x2 t2 : valid_greg x1 -> valid_greg x2 -> valid_tod t1 -> valid_tod t2 ->
  gday x1 < gday x2 -> instant_lt x1 t1 x2 t2.
Proof.
  intros V1 V2 T1 T2 H. unfold instant_lt.
  assert (gday x1 + 1 <= gday x2) as B by lia. rewrite Zle_Qle in B. rewrite inject_Z_plus in B.
  destruct (day_fraction_range t1 T1), (day_fraction_range t2 T2). change (inject_Z 1) with 1%Q in B. lra.
Qed.

(** * calendar_to_julian *)
Lemma jan1_formula y : 367 * y - 7 * y / 4 - (3 * ((7 * y - 1) / 700 + 1)) / 4 + 1721059 = gday (year_start y) - 1.
Proof.
  unfold gday, year_start; cbn [dy dm dd]. change (before_month (greg_leap y) 1) with 0.
  destruct (year_split y) as (k & s & r & Hy & Hs & Hr). lia.
Qed.

Lemma calendar_to_julian_comp a b : (a == b)%Q ->
  match calendar_to_julian a, calendar_to_julian b with
  | Some p, Some q => (p == q)%Q | None, None => True | _, _ => False end.
Proof.
  intros E. unfold calendar_to_julian. rewrite (Qfloor_comp _ _ E).
  destruct (calendar_days (Qfloor b)); [|exact I]. rewrite E. reflexivity.
Qed.

Lemma calendar_to_julian_floor y (f : Q) : (0 <= f)%Q -> (f < 1)%Q -> y mod 4000 <> 0 ->
  exists J, calendar_to_julian (inject_Z y + f) = Some J /\
  (J == inject_Z (gday (year_start y)) - (1#2) - 1 + inject_Z (year_len y) * f)%Q.
Proof.
  intros F0 F1 M. unfold calendar_to_julian.
  assert (Fl : Qfloor (inject_Z y + f) = y) by (rewrite Qfloor_plus_Z, (Qfloor_unit f F0 F1); lia).
  rewrite Fl. destruct (calendar_days_total y) as [l El]. rewrite El.
  destruct (calendar_days_sum y l El) as [_ Sl].
  replace (y mod 4000 =? 0) with false in Sl by lia. rewrite andb_true_r in Sl.
  eexists; split; [reflexivity|]. rewrite Sl, year_len_eq.
  assert (E1 : Qfloor (7 * inject_Z y / 4) = 7 * y / 4) by qfl (7 * y) 4%positive.
  assert (E2 : Qfloor ((7 * inject_Z y - 1) / 700) = (7 * y - 1) / 700) by qfl (7 * y - 1) 700%positive.
  rewrite E1, E2. set (c := (7 * y - 1) / 700).
  assert (E3 : Qfloor (3 * (inject_Z c + 1) / 4) = (3 * (c + 1)) / 4) by qfl (3 * (c + 1)) 4%positive.
  rewrite E3. pose proof (jan1_formula y) as J. fold c in J.
  assert (J' : (inject_Z (gday (year_start y)) == 367 * inject_Z y - inject_Z (7 * y / 4) - inject_Z (3 * (c + 1) / 4) + 1721060)%Q).
  { replace (gday (year_start y)) with (367 * y - 7 * y / 4 - 3 * (c + 1) / 4 + 1721060) by lia.
    unfold Z.sub. rewrite !inject_Z_plus, !inject_Z_opp, inject_Z_mult. ring. }
  rewrite J'. set (D := inject_Z (if greg_leap y then 366 else 365)). ring.
Qed.

(** composition with the decimal-year conversion: always one day early *)
Lemma calendar_to_julian_decimal x t : valid_greg x -> valid_tod t -> dy x mod 4000 <> 0 ->
  exists J, calendar_to_julian (decimal x t) = Some J /\
  (J == inject_Z (gday x) - (1#2) + day_fraction t - 1)%Q.
Proof.
  intros V T M. pose proof (decimal_exact x t V M) as E. fold (decimal x t) in E.
  set (f := ((inject_Z (gday x - gday (year_start (dy x))) + day_fraction t) / inject_Z (year_len (dy x)))%Q) in *.
  destruct (decimal_bounds x t V T M) as [B0 B1].
  rewrite inject_Z_plus in B1. change (inject_Z 1) with 1%Q in B1.
  destruct (calendar_to_julian_floor (dy x) f) as (J & EJ & VJ); [lra|lra|exact M|].
  pose proof (calendar_to_julian_comp _ _ E) as C. rewrite EJ in C.
  destruct (calendar_to_julian (decimal x t)) as [J'|]; [|contradiction].
  exists J'; split; [reflexivity|]. rewrite C, VJ. unfold f.
  pose proof (year_len_pos (dy x)) as L.
  assert (Hl : ~ (inject_Z (year_len (dy x)) == 0)%Q).
  { change 0%Q with (inject_Z 0). intros X; apply -> inject_Z_injective in X; lia. }
  rewrite Qmult_div_r by exact Hl. unfold Z.sub. rewrite inject_Z_plus, inject_Z_opp. ring.
Qed.

(** * convert_calendar_dates, packaged *)
Lemma calendar_dates_value y m d h mi s : 1 <= m <= 12 ->
  let century y := y mod 100 = 0 /\ y mod 400 <> 0 in
  let bad := (century y /\ 3 <= m <= 8) \/ (century (y - 1) /\ m = 1) in
  let mjd := convert_calendar_dates (inject_Z y) (inject_Z m) (inject_Z d) (inject_Z h) (inject_Z mi) s 0 1 in
  let true_mjd := (inject_Z (gday (mkdate y m d) - 2400001) + day_fraction (mktod h mi s))%Q in
  (~ bad -> (mjd == true_mjd)%Q) /\ (bad -> (mjd == true_mjd + 1)%Q).
Proof.
  intros Hm century bad mjd true_mjd.
  assert (E : (mjd == true_mjd + inject_Z (slip y m))%Q).
  { unfold mjd, true_mjd, convert_calendar_dates. rewrite mjd_tod.
    pose proof (mjd_julian y m d Hm) as J. rewrite inject_Z_plus in J.
    unfold Z.sub. rewrite inject_Z_plus. change (inject_Z (- (2400001))) with (- 2400001)%Q.
    set (a := mjd_formula _ _ _ 0 0 0) in *. set (b := inject_Z (gday _)) in *. set (f := day_fraction _).
    set (c := inject_Z (slip y m)) in *. clearbody a b c f. lra. }
  split; intros B; rewrite E.
  - assert (slip y m = 0) as ->; [|change (inject_Z 0) with 0%Q; ring].
    unfold bad, century in B; cbv beta in B; clear E; clearbody true_mjd mjd; clear bad; unfold slip; ifs; lia.
  - assert (slip y m = 1) as ->; [|reflexivity].
    unfold bad, century in B; cbv beta in B; clear E; clearbody true_mjd mjd; clear bad; unfold slip; ifs; lia.
Qed.

Lemma calendar_roundtrip' x t :
  valid_greg x -> 2299161 <= gday x -> valid_tod t -> slip (dy x) (dm x) = 0 ->
  forall JD, (JD == convert_calendar_dates (inject_Z (dy x)) (inject_Z (dm x)) (inject_Z (dd x))
                      (inject_Z (th t)) (inject_Z (tm t)) (ts t) 0 1 + (4800001 # 2))%Q ->
  exists s, convert_julian JD = (dy x, dm x, dd x, th t, tm t, s) /\ (s == ts t)%Q.
Proof.
  intros V G T S JD E. apply calendar_roundtrip; auto. rewrite E. unfold convert_calendar_dates. ring.
Qed.
