(** Proofs about the time model. *)
From Coq Require Import QArith Qround Lqa ZifyBool ZifyNat.
From Verif Require Import Base TimeModel TimeSpec.
Open Scope Z_scope.
Ltac Zify.zify_post_hook ::= Z.to_euclidean_division_equations.

Ltac qlia := unfold Qeq, Qdiv, Qinv, Qminus, Qplus, Qmult, Qopp, inject_Z;
  cbn [Qnum Qden]; lia.

Ltac ifs := repeat match goal with |- context [if ?b then _ else _] => destruct b eqn:? end.

(** * calendar_days *)
Lemma branches_exclusive y : leap_branch y = negb (stnd_branch y).
Proof. unfold leap_branch, stnd_branch. lia. Qed.

Lemma calendar_days_total y : exists l, calendar_days y = Some l.
Proof.
  unfold calendar_days. pose proof (branches_exclusive y) as H.
  destruct (leap_branch y); [eauto|]. destruct (stnd_branch y); [eauto|discriminate].
Qed.

Lemma leap_branch_greg y : leap_branch y = greg_leap y && negb (y mod 4000 =? 0).
Proof. unfold leap_branch, greg_leap. lia. Qed.

Lemma calendar_days_spec y :
  calendar_days y =
  Some (map (month_len (greg_leap y && negb (y mod 4000 =? 0))) [1;2;3;4;5;6;7;8;9;10;11;12]).
Proof.
  unfold calendar_days. rewrite <- leap_branch_greg.
  pose proof (branches_exclusive y) as H.
  destruct (leap_branch y); [reflexivity|].
  destruct (stnd_branch y); [reflexivity|discriminate].
Qed.

Lemma calendar_days_sum y l : calendar_days y = Some l ->
  length l = 12%nat /\
  sumZ l = (if greg_leap y && negb (y mod 4000 =? 0) then 366 else 365).
Proof.
  rewrite calendar_days_spec. intros [= <-].
  destruct (greg_leap y && negb (y mod 4000 =? 0)); split; reflexivity.
Qed.

(** * GRACE months *)
Lemma grace_to_calendar_range g y m : grace_to_calendar g = (y, m) -> 1 <= m <= 12.
Proof. unfold grace_to_calendar. intros [= <- <-]. lia. Qed.

Lemma Qfloor_frac a b : Qfloor (a # b) = a / Zpos b.
Proof. reflexivity. Qed.

Lemma calendar_to_grace_Z y m : calendar_to_grace (inject_Z y) m = 12 * (y - 2002) + m.
Proof.
  unfold calendar_to_grace. f_equal.
  rewrite <- (Qfloor_Z (12 * (y - 2002))). apply Qfloor_comp.
  qlia.
Qed.

Lemma grace_roundtrip1 g :
  let '(y, m) := grace_to_calendar g in calendar_to_grace (inject_Z y) m = g.
Proof. unfold grace_to_calendar. rewrite calendar_to_grace_Z. lia. Qed.

Lemma grace_roundtrip2 y m : 1 <= m <= 12 ->
  grace_to_calendar (calendar_to_grace (inject_Z y) m) = (y, m).
Proof.
  intros H. rewrite calendar_to_grace_Z. unfold grace_to_calendar.
  f_equal; lia.
Qed.

(** decimal years: the GRACE month of year y + f, 0 <= f < 1, is the month
    containing the twelfth f*12 of the year *)
Lemma calendar_to_grace_decimal y (f : Q) : (0 <= f)%Q -> (f < 1)%Q ->
  exists k, 0 <= k <= 11 /\ calendar_to_grace (inject_Z y + f) 1 = 12 * (y - 2002) + k + 1
    /\ (inject_Z k <= 12 * f)%Q /\ (12 * f < inject_Z (k + 1))%Q.
Proof.
  intros H0 H1. exists (Qfloor (12 * f)).
  pose proof (Qfloor_le (12 * f)) as L. pose proof (Qlt_floor (12 * f)) as U.
  assert (B0 : 0 <= Qfloor (12 * f)).
  { change 0 with (Qfloor (inject_Z 0)). apply Qfloor_resp_le.
    change (inject_Z 0) with 0%Q. lra. }
  assert (B1 : Qfloor (12 * f) < 12).
  { rewrite Zlt_Qlt. change (inject_Z 12) with 12%Q. lra. }
  repeat split; try assumption; try lia.
  unfold calendar_to_grace.
  assert (E : (12 * (inject_Z y + f - 2002) == inject_Z (12 * (y - 2002)) + 12 * f)%Q).
  { rewrite inject_Z_mult. unfold Z.sub. rewrite inject_Z_plus.
    change (inject_Z 12) with 12%Q. change (inject_Z (- (2002))) with (-2002)%Q. ring. }
  rewrite (Qfloor_comp _ _ E).
  enough (Qfloor (inject_Z (12 * (y - 2002)) + 12 * f) = 12 * (y - 2002) + Qfloor (12 * f)) by lia.
  set (a := 12 * (y - 2002)). set (g := (12 * f)%Q) in *.
  assert (A : a + Qfloor g <= Qfloor (inject_Z a + g)).
  { rewrite <- (Qfloor_Z (a + Qfloor g)). apply Qfloor_resp_le.
    rewrite inject_Z_plus. lra. }
  assert (Bq : Qfloor (inject_Z a + g) < a + Qfloor g + 1).
  { rewrite Zlt_Qlt. rewrite !inject_Z_plus. pose proof (Qfloor_le (inject_Z a + g)).
    rewrite inject_Z_plus in U. lra. }
  lia.
Qed.

(** * Julian days *)
(** dates for which the floating-point (m-9)/7 of line 584 is not the integer
    quotient the formula needs *)
Definition slip (y m : Z) : Z :=
  if ((3 <=? m) && (m <=? 8) && (y mod 100 =? 0) && negb (y mod 400 =? 0))
     || ((m =? 1) && (y mod 100 =? 1) && negb ((y - 1) mod 400 =? 0)) then 1 else 0.

Ltac qfl a b :=
  transitivity (Qfloor (a # b)); [apply Qfloor_comp; qlia | reflexivity].

Lemma mjd_formula_Z y m d :
  (mjd_formula (inject_Z y) (inject_Z m) (inject_Z d) 0 0 0 + (4800001 # 2) + (1 # 2)
   == inject_Z (367 * y - (7 * (y + (m + 9) / 12)) / 4
        - (3 * ((7 * y + m - 9) / 700 + 1)) / 4 + (275 * m) / 9 + d + 1721029))%Q.
Proof.
  unfold mjd_formula.
  assert (E1 : Qfloor ((inject_Z m + 9) / 12) = (m + 9) / 12) by qfl (m + 9) 12%positive.
  assert (E2 : Qfloor (7 * (inject_Z y + inject_Z ((m + 9) / 12)) / 4)
               = (7 * (y + (m + 9) / 12)) / 4).
  { generalize ((m + 9) / 12). intros k. qfl (7 * (y + k)) 4%positive. }
  assert (E3 : Qfloor ((inject_Z y + (inject_Z m - 9) / 7) / 100) = (7 * y + m - 9) / 700)
    by qfl (7 * y + m - 9) 700%positive.
  assert (E4 : Qfloor (3 * (inject_Z ((7 * y + m - 9) / 700) + 1) / 4)
               = (3 * ((7 * y + m - 9) / 700 + 1)) / 4).
  { generalize ((7 * y + m - 9) / 700). intros k. qfl (3 * (k + 1)) 4%positive. }
  assert (E5 : Qfloor (275 * inject_Z m / 9) = (275 * m) / 9) by qfl (275 * m) 9%positive.
  rewrite E1, E2, E3, E4, E5.
  unfold Z.sub. rewrite !inject_Z_plus, !inject_Z_opp, inject_Z_mult.
  change (inject_Z 367) with 367%Q. change (inject_Z 1721029) with 1721029%Q.
  field.
Qed.

Ltac month_cases m H :=
  assert (m = 1 \/ m = 2 \/ m = 3 \/ m = 4 \/ m = 5 \/ m = 6 \/ m = 7 \/ m = 8 \/ m = 9
          \/ m = 10 \/ m = 11 \/ m = 12) as H by lia;
  repeat (destruct H as [H|H]); subst m.

Lemma year_split y : exists k s r, y = 400 * k + 100 * s + r + 1 /\ 0 <= s < 4 /\ 0 <= r < 100.
Proof.
  exists ((y - 1) / 400), (((y - 1) mod 400) / 100), ((y - 1) mod 100). lia.
Qed.

Lemma jdn_formula_greg y m d : 1 <= m <= 12 ->
  367 * y - (7 * (y + (m + 9) / 12)) / 4 - (3 * ((7 * y + m - 9) / 700 + 1)) / 4
  + (275 * m) / 9 + d + 1721029 = gday (mkdate y m d) + slip y m.
Proof.
  intros Hm. unfold gday, slip, before_month, greg_leap; cbn [dy dm dd].
  destruct (year_split y) as (k & s & r & Hy & Hs & Hr).
  month_cases m H; cbn -[Z.div Z.modulo Z.mul Z.add Z.sub];
  assert (s = 0 \/ s = 1 \/ s = 2 \/ s = 3) as [->|[->|[->| ->]]] by lia; ifs; lia.
Qed.

Lemma mjd_julian y m d : 1 <= m <= 12 ->
  (mjd_formula (inject_Z y) (inject_Z m) (inject_Z d) 0 0 0 + (4800001 # 2) + (1 # 2)
   == inject_Z (gday (mkdate y m d) + slip y m))%Q.
Proof. intros H. rewrite mjd_formula_Z, jdn_formula_greg by assumption. reflexivity. Qed.

(** the specification numbering really counts days *)
Lemma gday_next x : valid_greg x -> gday (next_greg x) = gday x + 1.
Proof.
  destruct x as [y m d]. unfold valid_greg, next_greg; cbn [dy dm dd].
  intros [Hm Hd]. destruct (Z.ltb_spec d (month_len (greg_leap y) m)) as [L|L].
  - unfold gday; cbn [dy dm dd]. lia.
  - assert (d = month_len (greg_leap y) m) by lia. subst d. clear L Hd.
    month_cases m H; cbn -[Z.div Z.modulo Z.mul Z.add Z.sub greg_leap gday];
    repeat match goal with |- context [Zpos ?p + 1] =>
      let r := eval vm_compute in (Zpos p + 1) in change (Zpos p + 1) with r end;
    unfold gday, before_month; cbn -[Z.div Z.modulo Z.mul Z.add Z.sub greg_leap];
    unfold greg_leap; ifs; lia.
Qed.

Lemma gday_ok : is_julian_day_number gday.
Proof. split; [reflexivity | exact gday_next]. Qed.
