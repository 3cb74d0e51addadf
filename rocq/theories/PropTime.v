(** Property theorems for gravity_toolkit/time.py: C01-C10, C64.
    Specification vocabulary: TimeSpec.v (calendar), AdjustProofs.increasing,
    ReduceProofs.period_lt. *)
From Coq Require Import QArith Sorted.
From Verif Require Import Base TimeModel TimeSpec TimeProofs TimeProofs2 DecimalProofs
  AdjustProofs ReduceModel ReduceProofs.
Open Scope Z_scope.

(** ** C01 calendar_days *)
Theorem C01_calendar_days : forall y,
  calendar_days y = Some (map (month_len (greg_leap y && negb (y mod 4000 =? 0))) [1;2;3;4;5;6;7;8;9;10;11;12]).
Proof. exact calendar_days_spec. Qed.
Print Assumptions C01_calendar_days.

Theorem C01_calendar_days_sum : forall y l, calendar_days y = Some l ->
  length l = 12%nat /\ fold_right Z.add 0 l = (if greg_leap y && negb (y mod 4000 =? 0) then 366 else 365).
Proof. exact calendar_days_sum. Qed.
Print Assumptions C01_calendar_days_sum.

Example C01_example : calendar_days 2000 = Some [31;29;31;30;31;30;31;31;30;31;30;31]
  /\ calendar_days 1900 = Some [31;28;31;30;31;30;31;31;30;31;30;31].
Proof. split; reflexivity. Qed.

(** full agreement with the Gregorian calendar fails *)
Theorem C01_gregorian_refuted : exists y,
  calendar_days y <> Some (map (month_len (greg_leap y)) [1;2;3;4;5;6;7;8;9;10;11;12]).
Proof. exists 4000. vm_compute. discriminate. Qed.
Print Assumptions C01_gregorian_refuted.

(** ** C02 GRACE months *)
Theorem C02_grace_month_bijection :
  (forall g y m, grace_to_calendar g = (y, m) -> 1 <= m <= 12 /\ calendar_to_grace (inject_Z y) m = g) /\
  (forall y m, 1 <= m <= 12 -> grace_to_calendar (calendar_to_grace (inject_Z y) m) = (y, m)) /\
  grace_to_calendar 1 = (2002, 1) /\
  (forall y m, calendar_to_grace (inject_Z y) (m + 1) = calendar_to_grace (inject_Z y) m + 1) /\
  (forall y, calendar_to_grace (inject_Z (y + 1)) 1 = calendar_to_grace (inject_Z y) 12 + 1).
Proof.
  repeat split.
  - eapply grace_to_calendar_range; eassumption.
  - eapply grace_to_calendar_range; eassumption.
  - pose proof (grace_roundtrip1 g) as R. rewrite H in R. exact R.
  - exact grace_roundtrip2.
  - intros y m. rewrite !calendar_to_grace_Z. lia.
  - intros y. rewrite !calendar_to_grace_Z. lia.
Qed.
Print Assumptions C02_grace_month_bijection.

(** decimal years (default month argument 1): the month containing the date,
    twelve equal months *)
Theorem C02_grace_month_decimal : forall y (f : Q), (0 <= f)%Q -> (f < 1)%Q ->
  exists k, 0 <= k <= 11 /\ calendar_to_grace (inject_Z y + f) 1 = 12 * (y - 2002) + k + 1
    /\ (inject_Z k <= 12 * f)%Q /\ (12 * f < inject_Z (k + 1))%Q.
Proof. exact calendar_to_grace_decimal. Qed.
Print Assumptions C02_grace_month_decimal.

Example C02_example : grace_to_calendar 185 = (2017, 5) /\ grace_to_calendar (-3) = (2001, 9)
  /\ calendar_to_grace (2003 + (1#2)) 1 = 19.
Proof. repeat split; reflexivity. Qed.

(** ** C03 adjust_months keeps clean entries *)
Theorem C03_adjust_length : forall gm, length (adjust_months gm) = length gm.
Proof. exact adjust_months_length. Qed.
Print Assumptions C03_adjust_length.

Theorem C03_adjust_unique_kept : forall gm i, (i < length gm)%nat ->
  count_occ Z.eq_dec gm (nth i gm 0) = 1%nat -> nth i (adjust_months gm) 0 = nth i gm 0.
Proof. exact adjust_single. Qed.
Print Assumptions C03_adjust_unique_kept.

Theorem C03_adjust_nodup : forall gm, NoDup gm -> adjust_months gm = gm.
Proof. exact adjust_nodup. Qed.
Print Assumptions C03_adjust_nodup.

Example C03_example : adjust_months [116;117;119;121] = [116;117;119;121].
Proof. reflexivity. Qed.

(** ** C04 repair of one doublet: exactly when it works *)
Theorem C04_repair_slipped_back : forall t j,
  increasing t -> positive_months t -> (S (S j) < length t)%nat ->
  nth (S (S j)) t 0 = nth (S j) t 0 + 1 ->
  (adjust_months (upd t (S (S j)) (nth (S j) t 0)) = t <-> nth j t 0 = nth (S j) t 0 - 1).
Proof. exact repair_slipped_back. Qed.
Print Assumptions C04_repair_slipped_back.

Theorem C04_repair_slipped_forward : forall t j,
  increasing t -> positive_months t -> (S (S j) < length t)%nat ->
  nth (S (S j)) t 0 = nth (S j) t 0 + 1 ->
  (adjust_months (upd t (S j) (nth (S (S j)) t 0)) = t <->
   nth j t 0 = nth (S j) t 0 - 1 \/ S (S (S j)) = length t \/
   (S (S (S j)) < length t)%nat /\ nth (S (S (S j))) t 0 = nth (S (S j)) t 0 + 1).
Proof. exact repair_slipped_forward. Qed.
Print Assumptions C04_repair_slipped_forward.

Theorem C04_repair_at_start : forall t, increasing t -> positive_months t -> (2 < length t)%nat ->
  nth 1 t 0 = nth 0 t 0 + 1 ->
  (adjust_months (upd t 0 (nth 1 t 0)) = t <-> nth 2 t 0 = nth 1 t 0 + 1) /\
  adjust_months (upd t 1 (nth 0 t 0)) <> t.
Proof. intros t I P L A. split; [now apply repair_forward_start|now apply repair_back_start]. Qed.
Print Assumptions C04_repair_at_start.

(** the three outcomes for any doublet strictly inside a list *)
Theorem C04_doublet_outcomes : forall gm j a, let p := nth j gm 0 in
  (S (S j) < length gm)%nat ->
  nth (S j) gm 0 = a -> nth (S (S j)) gm 0 = a -> count_occ Z.eq_dec gm a = 2%nat ->
  a <> 0 -> p <> a ->
  let first  := nth (S j) (adjust_months gm) 0 in
  let second := nth (S (S j)) (adjust_months gm) 0 in
  let next_follows := S (S (S j)) = length gm \/
                      (S (S (S j)) < length gm)%nat /\ nth (S (S (S j))) gm 0 = a + 1 in
  (p = a - 1 -> first = a /\ second = a + 1) /\
  (p <> a - 1 -> (p = a - 2 \/ next_follows) -> first = a - 1 /\ second = a) /\
  (p <> a - 1 -> p <> a - 2 -> ~ next_follows -> first = 0 /\ second = a).
Proof. exact adjust_doublet. Qed.
Print Assumptions C04_doublet_outcomes.

Example C04_example :
  adjust_months [117; 118; 118; 120] = [117; 118; 119; 120] /\     (* repaired *)
  adjust_months [117; 119; 121; 121; 123] = [117; 119; 120; 121; 123] /\ (* repaired *)
  adjust_months [100; 118; 118; 120] = [100; 0; 118; 120].             (* lost *)
Proof. repeat split; reflexivity. Qed.
Example C04_hypotheses : increasing [117; 118; 119; 120] /\ positive_months [117; 118; 119; 120].
Proof.
  split.
  - intros i k H. cbn [length] in H.
    destruct i as [|[|[|[|i]]]], k as [|[|[|[|k]]]]; cbn; lia.
  - intros i H. cbn [length] in H. destruct i as [|[|[|[|i]]]]; cbn; lia.
Qed.

(** ** C05 output always near the input: false *)
Theorem C05_adjust_usable_refuted : exists gm i, (i < length gm)%nat /\
  (forall k, (k < length gm)%nat -> 0 < nth k gm 0) /\
  ~ (nth i gm 0 - 1 <= nth i (adjust_months gm) 0 <= nth i gm 0 + 1).
Proof.
  exists [100; 118; 118; 120], 1%nat. split; [cbn; lia|]. split.
  - intros k H. cbn [length] in H. destruct k as [|[|[|[|k]]]]; cbn; lia.
  - vm_compute. intros [H _]. apply H. reflexivity.
Qed.
Print Assumptions C05_adjust_usable_refuted.

Theorem C05_many_copies_become_zero : forall gm i, (i < length gm)%nat ->
  (3 <= count_occ Z.eq_dec gm (nth i gm 0%Z))%nat -> nth i (adjust_months gm) 0 = 0.
Proof. exact adjust_many. Qed.
Print Assumptions C05_many_copies_become_zero.
Example C05_example : adjust_months [5; 7; 7; 7] = [5; 0; 0; 0].
Proof. reflexivity. Qed.

(** ** C06 decimal years *)
Theorem C06_decimal_exact : forall x t, valid_greg x -> dy x mod 4000 <> 0 ->
  (convert_calendar_decimal (dy x) (dm x) (Some (inject_Z (dd x))) (Some (inject_Z (th t)))
     (Some (inject_Z (tm t))) (Some (ts t)) None
   == inject_Z (dy x) + (inject_Z (gday x - gday (mkdate (dy x) 1 1)) + day_fraction t)
        / inject_Z (gday (mkdate (dy x + 1) 1 1) - gday (mkdate (dy x) 1 1)))%Q.
Proof. exact decimal_exact. Qed.
Print Assumptions C06_decimal_exact.

Theorem C06_decimal_in_year : forall x t, valid_greg x -> valid_tod t -> dy x mod 4000 <> 0 ->
  (inject_Z (dy x) <= decimal x t)%Q /\ (decimal x t < inject_Z (dy x + 1))%Q.
Proof. exact decimal_bounds. Qed.
Print Assumptions C06_decimal_in_year.

Theorem C06_decimal_monotone : forall x1 t1 x2 t2,
  valid_greg x1 -> valid_greg x2 -> valid_tod t1 -> valid_tod t2 ->
  dy x1 mod 4000 <> 0 -> dy x2 mod 4000 <> 0 ->
  (inject_Z (gday x1) + day_fraction t1 < inject_Z (gday x2) + day_fraction t2)%Q ->
  (decimal x1 t1 < decimal x2 t2)%Q.
Proof. exact decimal_monotone. Qed.
Print Assumptions C06_decimal_monotone.

Theorem C06_day_of_year_form : forall y m d h mi s, y mod 4000 <> 0 ->
  forall n, n = gday (mkdate y m d) - gday (mkdate y 1 1) + 1 -> valid_greg (mkdate y m d) ->
  (convert_calendar_decimal y m None h mi s (Some (inject_Z n)) ==
   convert_calendar_decimal y m (Some (inject_Z d)) h mi s None)%Q.
Proof. exact decimal_doy. Qed.
Print Assumptions C06_day_of_year_form.

Example C06_example : (decimal (mkdate 2004 3 1) (mktod 12 0 0) == 2004 + ((60 + (1#2)) / 366))%Q
  /\ valid_greg (mkdate 2004 2 29) /\ valid_tod (mktod 23 59 (119#2)).
Proof.
  split; [vm_compute; reflexivity|]. split; [unfold valid_greg; cbn; lia|].
  unfold valid_tod; cbn. repeat split; try lia; vm_compute; try discriminate; reflexivity.
Qed.

(** ** C07 Julian days of calendar dates *)
(** the specification numbering exists and is unique *)
Theorem C07_julian_day_number_unique :
  is_julian_day_number gday /\ forall f, is_julian_day_number f -> forall x, valid_greg x -> f x = gday x.
Proof. split; [exact gday_ok|exact gday_unique]. Qed.
Print Assumptions C07_julian_day_number_unique.

(** the JD of the code is the true one plus a slip, which is 0 except in
    March-August of the centuries that are not leap years and in the January
    after them *)
Theorem C07_calendar_dates_value : forall y m d h mi s, 1 <= m <= 12 ->
  let century y := y mod 100 = 0 /\ y mod 400 <> 0 in
  let bad := (century y /\ 3 <= m <= 8) \/ (century (y - 1) /\ m = 1) in
  let mjd := convert_calendar_dates (inject_Z y) (inject_Z m) (inject_Z d) (inject_Z h) (inject_Z mi) s 0 1 in
  let true_mjd := (inject_Z (gday (mkdate y m d) - 2400001) + day_fraction (mktod h mi s))%Q in
  (~ bad -> (mjd == true_mjd)%Q) /\ (bad -> (mjd == true_mjd + 1)%Q).
Proof. exact calendar_dates_value. Qed.
Print Assumptions C07_calendar_dates_value.

Theorem C07_epoch_and_scale : forall y m d h mi s e k,
  (convert_calendar_dates y m d h mi s e k == k * (convert_calendar_dates y m d h mi s 0 1 - e))%Q.
Proof. intros. unfold convert_calendar_dates. ring. Qed.
Print Assumptions C07_epoch_and_scale.

(** "advances by exactly one day" fails: two different days share a number *)
Theorem C07_no_gap_refuted : exists x, valid_greg x /\
  let mjd x := convert_calendar_dates (inject_Z (dy x)) (inject_Z (dm x)) (inject_Z (dd x)) 0 0 0 0 1 in
  (mjd (next_greg x) == mjd x)%Q.
Proof. exists (mkdate 1900 8 31). split; [unfold valid_greg; cbn; lia|vm_compute; reflexivity]. Qed.
Print Assumptions C07_no_gap_refuted.

Example C07_example :
  (convert_calendar_dates 1858 11 17 0 0 0 0 1 == 0)%Q /\
  (convert_calendar_dates 1992 1 1 0 0 0 0 1 == 48622)%Q.
Proof. split; vm_compute; reflexivity. Qed.

(** ** C08 convert_julian *)
Theorem C08_convert_julian_gregorian : forall x t, valid_greg x -> 2299161 <= gday x -> valid_tod t ->
  forall JD, (JD == inject_Z (gday x) - (1#2) + day_fraction t)%Q ->
  exists s, convert_julian JD = (dy x, dm x, dd x, th t, tm t, s) /\ (s == ts t)%Q.
Proof. exact convert_julian_greg. Qed.
Print Assumptions C08_convert_julian_gregorian.

Theorem C08_convert_julian_julian : forall x t, valid_jul x -> jday x < 2299161 -> valid_tod t ->
  forall JD, (JD == inject_Z (jday x) - (1#2) + day_fraction t)%Q ->
  exists s, convert_julian JD = (dy x, dm x, dd x, th t, tm t, s) /\ (s == ts t)%Q.
Proof. exact convert_julian_jul. Qed.
Print Assumptions C08_convert_julian_julian.

(** round trip through convert_calendar_dates, outside the slip *)
Theorem C08_roundtrip : forall x t,
  valid_greg x -> 2299161 <= gday x -> valid_tod t -> slip (dy x) (dm x) = 0 ->
  forall JD, (JD == convert_calendar_dates (inject_Z (dy x)) (inject_Z (dm x)) (inject_Z (dd x))
                      (inject_Z (th t)) (inject_Z (tm t)) (ts t) 0 1 + (4800001 # 2))%Q ->
  exists s, convert_julian JD = (dy x, dm x, dd x, th t, tm t, s) /\ (s == ts t)%Q.
Proof. exact calendar_roundtrip'. Qed.
Print Assumptions C08_roundtrip.

Theorem C08_roundtrip_refuted : exists x, valid_greg x /\ 2299161 <= gday x /\
  forall s, convert_julian (convert_calendar_dates (inject_Z (dy x)) (inject_Z (dm x)) (inject_Z (dd x)) 0 0 0 0 1
            + (4800001 # 2)) <> (dy x, dm x, dd x, 0, 0, s).
Proof.
  exists (mkdate 1900 5 10). split; [unfold valid_greg; cbn; lia|]. split; [vm_compute; discriminate|].
  intros s. vm_compute. intros H. congruence.
Qed.
Print Assumptions C08_roundtrip_refuted.

Example C08_example : convert_julian (2451545 # 1) = (2000, 1, 1, 12, 0, snd (convert_julian (2451545 # 1)))
  /\ slip 2016 4 = 0 /\ 2299161 <= gday (mkdate 2016 4 30).
Proof. split; [vm_compute; reflexivity|]. split; [reflexivity|vm_compute; discriminate]. Qed.

(** ** C09 convert_delta_time *)
Theorem C09_delta_time : forall dt e1 e2 e3 k k1 k2,
  (convert_delta_time dt e1 e1 k == k * dt)%Q /\
  (convert_delta_time (convert_delta_time dt e1 e2 1) e2 e1 1 == dt)%Q /\
  (convert_delta_time (convert_delta_time dt e1 e2 1) e2 e3 k == convert_delta_time dt e1 e3 k)%Q /\
  (convert_delta_time dt e1 e2 (k1 * k2) == k1 * convert_delta_time dt e1 e2 k2)%Q /\
  (e1 + dt == e2 + convert_delta_time dt e1 e2 1)%Q.
Proof. intros. unfold convert_delta_time. repeat split; ring. Qed.
Print Assumptions C09_delta_time.
Example C09_example : (convert_delta_time 100 0 40 (1#60) == 1)%Q.
Proof. reflexivity. Qed.

(** ** C10 reduce_by_date *)
Theorem C10_reduce_by_date : forall (F : Type) (pd : F -> option period) (pv : F -> option Z) gs out,
  reduce_by_date pd pv gs = Ok out ->
  exists ds, StronglySorted period_lt ds /\
    (forall d, In d ds <-> exists f, In f gs /\ pd f = Some d) /\
    Forall2 (fun d g => In g gs /\ pd g = Some d /\
       forall f, In f gs -> pd f = Some d -> f = g \/
         exists vf vg, pv f = Some vf /\ pv g = Some vg /\ vf <= vg) ds out.
Proof. exact @reduce_spec. Qed.
Print Assumptions C10_reduce_by_date.

Theorem C10_reduce_total : forall (F : Type) (pd : F -> option period) (pv : F -> option Z) gs,
  (forall f, In f gs -> pd f <> None /\ pv f <> None) -> exists out, reduce_by_date pd pv gs = Ok out.
Proof. exact @reduce_total. Qed.
Print Assumptions C10_reduce_total.

Example C10_example :
  let f s v := ((((2002, s), (2002, s + 30)), v) : period * Z) in
  reduce_by_date (F := period * Z) (fun x => Some (fst x)) (fun x => Some (snd x))
    [f 95 1; f 4 2; f 95 3; f 95 2] = Ok [f 4 2; f 95 3].
Proof. vm_compute. reflexivity. Qed.

(** ** C64 calendar_to_julian and convert_calendar_decimal *)
Theorem C64_calendar_to_julian_one_day_early : forall x t,
  valid_greg x -> valid_tod t -> dy x mod 4000 <> 0 ->
  exists J, calendar_to_julian (decimal x t) = Some J /\
  (J == inject_Z (gday x) - (1#2) + day_fraction t - 1)%Q.
Proof. exact calendar_to_julian_decimal. Qed.
Print Assumptions C64_calendar_to_julian_one_day_early.

Theorem C64_consistent_refuted : exists x t, valid_greg x /\ valid_tod t /\
  forall J, calendar_to_julian (decimal x t) = Some J ->
  ~ (J == inject_Z (gday x) - (1#2) + day_fraction t)%Q.
Proof.
  exists (mkdate 2000 1 1), (mktod 0 0 0).
  assert (V : valid_greg (mkdate 2000 1 1)) by (unfold valid_greg; cbn; lia).
  assert (T : valid_tod (mktod 0 0 0)) by (unfold valid_tod; cbn; repeat split; try lia; discriminate).
  split; [exact V|]. split; [exact T|]. intros J. vm_compute. intros [= <-]. discriminate.
Qed.
Print Assumptions C64_consistent_refuted.
