(** convert_julian inverts the day numbering. *)
From Coq Require Import QArith Qround Lqa ZifyBool ZifyNat.
From Verif Require Import Base TimeModel TimeSpec TimeProofs.
Open Scope Z_scope.
Ltac Zify.zify_post_hook ::= Z.to_euclidean_division_equations.

(** March-based year and 0-based day of that year *)
Definition my (x : date) : Z := if dm x <=? 2 then dy x - 1 else dy x.
Definition ma (leap : bool) (x : date) : Z :=
  if dm x <=? 2 then before_month false (dm x) + dd x + 305
  else before_month false (dm x) + dd x - 60.

Lemma gday_march x : valid_greg x ->
  gday x = 365 * my x + my x / 4 - my x / 100 + my x / 400 + ma true x + 1721120.
Proof.
  destruct x as [y m d]. unfold valid_greg; cbn [dy dm dd]. intros [Hm Hd].
  unfold gday, my, ma, before_month; cbn [dy dm dd]. clear Hd.
  month_cases m H; cbn -[Z.div Z.modulo Z.mul Z.add Z.sub greg_leap];
  unfold greg_leap; ifs; lia.
Qed.

Lemma jday_march x : valid_jul x ->
  jday x = 365 * my x + my x / 4 + ma true x + 1721118.
Proof.
  destruct x as [y m d]. unfold valid_jul; cbn [dy dm dd]. intros [Hm Hd].
  unfold jday, my, ma, before_month; cbn [dy dm dd]. clear Hd.
  month_cases m H; cbn -[Z.div Z.modulo Z.mul Z.add Z.sub jul_leap];
  unfold jul_leap; ifs; lia.
Qed.

Lemma ma_range (lf : Z -> bool) x :
  1 <= dm x <= 12 -> 1 <= dd x <= month_len (lf (dy x)) (dm x) ->
  0 <= ma true x <= 364 + (if lf (dy x) then 1 else 0)
  /\ (dm x <> 2 -> ma true x <= 364).
Proof.
  destruct x as [y m d]; cbn [dy dm dd]. intros Hm Hd.
  unfold ma, before_month; cbn [dy dm dd].
  destruct (lf y); month_cases m H;
  cbn -[Z.div Z.modulo Z.mul Z.add Z.sub] in *; lia.
Qed.

(** the integer core of convert_julian, time.py:800-811 *)
Definition conv_core (C : Z) : Z * Z * Z :=
  let D := (20 * C - 2442) / 7305 in
  let E := 365 * D + D / 4 in
  let F := ((C - E) * 10000) / 306001 in
  let day := C - E - (306001 * F) / 10000 in
  let month := F - 1 - 12 * (F / 14) in
  let year := D - 4715 - (7 + month) / 10 in
  (year, month, day).

Definition conv_C (JDO : Z) : Z :=
  if JDO <? 2299161 then JDO + 1524
  else let B := (4 * JDO - 7468865) / 146097 in JDO + B - B / 4 + 1525.

Lemma conv_core_march Y a : 0 <= a <= 365 -> (a = 365 -> (Y + 1) mod 4 = 0) ->
  let C := 365 * Y + Y / 4 + a + 1722642 in
  let D := (20 * C - 2442) / 7305 in
  D = Y + 4716 /\ C - (365 * D + D / 4) = a + 123.
Proof. intros Ha Hl C D. unfold D, C. split; lia. Qed.

Lemma conv_core_date (lf : Z -> bool) x C :
  (forall y, lf y = true -> y mod 4 = 0) ->
  1 <= dm x <= 12 -> 1 <= dd x <= month_len (lf (dy x)) (dm x) ->
  C = 365 * my x + my x / 4 + ma true x + 1722642 ->
  conv_core C = (dy x, dm x, dd x).
Proof.
  intros Hlf Hm Hd HC.
  destruct (ma_range lf x Hm Hd) as [Ha Hn].
  destruct (@conv_core_march (my x) (ma true x)) as [HD HE].
  { destruct (lf (dy x)); lia. }
  { intros E365. assert (dm x = 2) as Em by lia.
    assert (my x = dy x - 1) as -> by (unfold my; rewrite Em; reflexivity).
    destruct (lf (dy x)) eqn:El; [|lia]. apply Hlf in El. lia. }
  rewrite <- HC in HD, HE. cbv zeta in HD, HE.
  unfold conv_core. cbv zeta. rewrite HE, HD. clear HC HD HE C.
  destruct x as [y m d]; cbn [dy dm dd] in *.
  unfold ma, my, before_month in *; cbn [dy dm dd] in *.
  assert (Hd' : 1 <= d <= 31 /\ (m = 2 -> d <= 29) /\
     (m = 4 \/ m = 6 \/ m = 9 \/ m = 11 -> d <= 30)).
  { destruct (lf y); month_cases m H; cbn in Hd; lia. }
  clear Hd Ha Hn Hlf.
  month_cases m H; cbn -[Z.div Z.modulo Z.mul Z.add Z.sub] in *;
  repeat match goal with |- (_, _) = (_, _) => f_equal end; lia.
Qed.

Lemma conv_C_greg x : valid_greg x -> 2299161 <= gday x ->
  conv_C (gday x) = 365 * my x + my x / 4 + ma true x + 1722642.
Proof.
  intros Hv Hge. pose proof (gday_march _ Hv) as G.
  destruct Hv as [Hm Hd].
  destruct (ma_range greg_leap x Hm Hd) as [Ha Hn].
  assert (Hb : ma true x = 365 -> (my x + 1) mod 4 = 0 /\
     ((my x + 1) mod 100 <> 0 \/ (my x + 1) mod 400 = 0)).
  { intros E. assert (dm x = 2) as Em by (destruct (greg_leap (dy x)); lia).
    assert (my x = dy x - 1) as -> by (unfold my; rewrite Em; reflexivity).
    destruct (greg_leap (dy x)) eqn:El; [unfold greg_leap in El; lia | lia]. }
  unfold conv_C. destruct (Z.ltb_spec (gday x) 2299161) as [L|L]; [lia|]. clear L.
  assert (HB : (4 * gday x - 7468865) / 146097 = my x / 100 - 4).
  { rewrite G. generalize dependent (ma true x). generalize dependent (my x). clear.
    intros Y a. intros. clear G Hn.
    assert (0 <= a <= 365) as Ha' by (destruct (greg_leap _); lia). clear Ha.
    assert (exists k s r, Y = 400 * k + 100 * s + r /\ 0 <= s < 4 /\ 0 <= r < 100) as (k&s&r&->&Hs&Hr).
    { exists (Y / 400), ((Y mod 400) / 100), (Y mod 100). lia. }
    assert (s = 0 \/ s = 1 \/ s = 2 \/ s = 3) as [->|[->|[->| ->]]] by lia; lia. }
  cbv zeta. rewrite HB, G. generalize (my x) (ma true x). intros; lia.
Qed.

Lemma conv_C_jul x : valid_jul x -> jday x < 2299161 ->
  conv_C (jday x) = 365 * my x + my x / 4 + ma true x + 1722642.
Proof.
  intros Hv Hlt. pose proof (jday_march _ Hv) as G. unfold conv_C.
  destruct (Z.ltb_spec (jday x) 2299161) as [L|L]; lia.
Qed.

(** connection with the rational model *)
Lemma Qfloor_plus_Z (k : Z) (q : Q) : Qfloor (inject_Z k + q) = k + Qfloor q.
Proof.
  destruct q as [a b].
  transitivity (Qfloor ((k * Zpos b + a) # b)).
  - apply Qfloor_comp. unfold Qeq, Qplus, inject_Z; cbn [Qnum Qden]. lia.
  - cbn [Qfloor]. rewrite Z.div_add_l by lia. reflexivity.
Qed.

Lemma Qfloor_unit (q : Q) : (0 <= q)%Q -> (q < 1)%Q -> Qfloor q = 0.
Proof.
  intros H0 H1.
  assert (0 <= Qfloor q).
  { change 0 with (Qfloor (inject_Z 0)). apply Qfloor_resp_le. exact H0. }
  assert (Qfloor q < 1).
  { rewrite Zlt_Qlt. pose proof (Qfloor_le q). change (inject_Z 1) with 1%Q. lra. }
  lia.
Qed.

Lemma convert_julian_day (JD : Q) (N : Z) (f : Q) : (0 <= f)%Q -> (f < 1)%Q ->
  (JD == inject_Z N - (1#2) + f)%Q ->
  forall Y M D h mi s,
  convert_julian JD = (Y, M, D, h, mi, s) ->
  (Y, M, D) = conv_core (conv_C N).
Proof.
  intros H0 H1 EJ Y M D h mi s. unfold convert_julian.
  assert (E0 : Qfloor (JD + (1 # 2)) = N).
  { transitivity (Qfloor (inject_Z N + f)).
    - apply Qfloor_comp. rewrite EJ. ring.
    - rewrite Qfloor_plus_Z, (Qfloor_unit _ H0 H1). lia. }
  rewrite E0. cbv zeta.
  assert (EB : Qfloor ((inject_Z N - (7468865 # 4)) / (146097 # 4)) = (4 * N - 7468865) / 146097)
    by qfl (4 * N - 7468865) 146097%positive.
  rewrite EB.
  assert (EB4 : forall b, Qfloor (inject_Z b / 4) = b / 4) by (intros b; qfl b 4%positive).
  rewrite EB4.
  fold (conv_C N). set (C := conv_C N).
  assert (ED : Qfloor ((inject_Z C - (1221 # 10)) / (1461 # 4)) = (20 * C - 2442) / 7305)
    by qfl (20 * C - 2442) 7305%positive.
  rewrite ED. set (d := (20 * C - 2442) / 7305). rewrite EB4.
  assert (EE : Qfloor (365 * inject_Z d + inject_Z (d / 4)) = 365 * d + d / 4).
  { generalize (d / 4). intros k. transitivity (Qfloor (inject_Z (365 * d + k))); [|apply Qfloor_Z]. apply Qfloor_comp. qlia. }
  rewrite EE. set (e := 365 * d + d / 4).
  assert (EF : Qfloor ((inject_Z C - inject_Z e) / (306001 # 10000)) = ((C - e) * 10000) / 306001)
    by qfl ((C - e) * 10000) 306001%positive.
  rewrite EF. set (F := ((C - e) * 10000) / 306001).
  assert (E5 : Qfloor (inject_Z C - inject_Z e + (1 # 2)) = C - e).
  { transitivity (Qfloor (inject_Z (C - e) + (1#2))).
    - apply Qfloor_comp. unfold Z.sub. rewrite inject_Z_plus, inject_Z_opp. ring.
    - rewrite Qfloor_plus_Z. change (Qfloor (1#2)) with 0. lia. }
  assert (E6 : Qfloor ((306001 # 10000) * inject_Z F) = (306001 * F) / 10000)
    by qfl (306001 * F) 10000%positive.
  assert (E7 : Qfloor (inject_Z F / 14) = F / 14) by qfl F 14%positive.
  rewrite E5, E6, E7. set (mo := F - 1 - 12 * (F / 14)).
  assert (E8 : Qfloor ((7 + inject_Z mo) / 10) = (7 + mo) / 10) by qfl (7 + mo) 10%positive.
  rewrite E8. intros H. inversion H; subst. reflexivity.
Qed.

(** time of day *)
Lemma inject_Z_bounds k a b : a <= k <= b -> (inject_Z a <= inject_Z k)%Q /\ (inject_Z k <= inject_Z b)%Q.
Proof. intros H. split; rewrite <- Zle_Qle; lia. Qed.

Lemma day_fraction_eq t : (day_fraction t ==
  (1#24) * inject_Z (th t) + (1#1440) * inject_Z (tm t) + (1#86400) * ts t)%Q.
Proof. unfold day_fraction. field. Qed.

Lemma day_fraction_range t : valid_tod t -> (0 <= day_fraction t)%Q /\ (day_fraction t < 1)%Q.
Proof.
  intros (Hh & Hmi & Hs0 & Hs1). rewrite !day_fraction_eq.
  destruct (inject_Z_bounds _ _ _ Hh) as [A1 A2]. destruct (inject_Z_bounds _ _ _ Hmi) as [A3 A4].
  change (inject_Z 0) with 0%Q in *. change (inject_Z 23) with 23%Q in *.
  change (inject_Z 59) with 59%Q in *. split; lra.
Qed.

Lemma convert_julian_tod (JD : Q) (N : Z) (t : tod) : valid_tod t ->
  (JD == inject_Z N - (1#2) + day_fraction t)%Q ->
  forall Y M D h mi s,
  convert_julian JD = (Y, M, D, h, mi, s) ->
  h = th t /\ mi = tm t /\ (s == ts t)%Q.
Proof.
  intros (Hh & Hmi & Hs0 & Hs1) EJ Y M D h mi s. unfold convert_julian.
  assert (Ht : valid_tod t) by (repeat split; assumption || lia).
  pose proof (day_fraction_range t Ht) as F0.
  destruct F0 as [F0 F1].
  assert (E0 : Qfloor (JD + (1 # 2)) = N).
  { transitivity (Qfloor (inject_Z N + day_fraction t)).
    - apply Qfloor_comp. rewrite EJ. ring.
    - rewrite Qfloor_plus_Z, (Qfloor_unit _ F0 F1). lia. }
  rewrite E0. cbv zeta.
  set (fr := (JD + (1 # 2) - inject_Z N)%Q).
  assert (Efr : (fr == day_fraction t)%Q) by (unfold fr; rewrite EJ; ring).
  assert (Tm : (0 <= inject_Z (tm t) /\ inject_Z (tm t) <= 59)%Q)
      by (split; [change 0%Q with (inject_Z 0)|change 59%Q with (inject_Z 59)]; rewrite <- Zle_Qle; lia).
  assert (Eh : Qfloor (24 * fr) = th t).
  { transitivity (Qfloor (inject_Z (th t) + ((1#60) * inject_Z (tm t) + (1#3600) * ts t))).
    - apply Qfloor_comp. rewrite Efr. rewrite day_fraction_eq. ring.
    - rewrite Qfloor_plus_Z, Qfloor_unit; [lia| |]; lra. }
  rewrite Eh.
  set (g := (fr - inject_Z (th t) / 24)%Q).
  assert (Eg : (g == (1#1440) * inject_Z (tm t) + (1#86400) * ts t)%Q).
  { unfold g. rewrite Efr, day_fraction_eq. field. }
  assert (Em : Qfloor (g * 1440) = tm t).
  { transitivity (Qfloor (inject_Z (tm t) + (1#60) * ts t)).
    - apply Qfloor_comp. rewrite Eg. field.
    - rewrite Qfloor_plus_Z, Qfloor_unit; [lia| |]; lra. }
  rewrite Em. intros H. inversion H. split; [reflexivity|]. split; [reflexivity|].
  rewrite Eg. field.
Qed.

Lemma convert_julian_greg x t : valid_greg x -> 2299161 <= gday x -> valid_tod t ->
  forall JD, (JD == inject_Z (gday x) - (1#2) + day_fraction t)%Q ->
  exists s, convert_julian JD = (dy x, dm x, dd x, th t, tm t, s) /\ (s == ts t)%Q.
Proof.
  intros Hv Hg Ht JD EJ.
  destruct (convert_julian JD) as [[[[[Y M] D] h] mi] s] eqn:E.
  pose proof (day_fraction_range t Ht) as F0.
  destruct F0 as [F0 F1].
  pose proof (convert_julian_day _ _ _ F0 F1 EJ _ _ _ _ _ _ E) as Ed.
  rewrite (conv_C_greg _ Hv Hg) in Ed.
  destruct (convert_julian_tod _ _ _ Ht EJ _ _ _ _ _ _ E) as (-> & -> & Es).
  assert (Hl : forall y, greg_leap y = true -> y mod 4 = 0) by (intros y; unfold greg_leap; lia).
  destruct Hv as [Hm Hd].
  rewrite (conv_core_date _ _ _ Hl Hm Hd eq_refl) in Ed. injection Ed as -> -> ->.
  eauto.
Qed.

Lemma convert_julian_jul x t : valid_jul x -> jday x < 2299161 -> valid_tod t ->
  forall JD, (JD == inject_Z (jday x) - (1#2) + day_fraction t)%Q ->
  exists s, convert_julian JD = (dy x, dm x, dd x, th t, tm t, s) /\ (s == ts t)%Q.
Proof.
  intros Hv Hg Ht JD EJ.
  destruct (convert_julian JD) as [[[[[Y M] D] h] mi] s] eqn:E.
  pose proof (day_fraction_range t Ht) as F0.
  destruct F0 as [F0 F1].
  pose proof (convert_julian_day _ _ _ F0 F1 EJ _ _ _ _ _ _ E) as Ed.
  rewrite (conv_C_jul _ Hv Hg) in Ed.
  destruct (convert_julian_tod _ _ _ Ht EJ _ _ _ _ _ _ E) as (-> & -> & Es).
  assert (Hl : forall y, jul_leap y = true -> y mod 4 = 0) by (intros y; unfold jul_leap; lia).
  destruct Hv as [Hm Hd].
  rewrite (conv_core_date _ _ _ Hl Hm Hd eq_refl) in Ed. injection Ed as -> -> ->.
  eauto.
Qed.

(** the calendar -> Julian date formula followed by its inverse *)
Lemma mjd_tod y m d h mi s :
  (mjd_formula (inject_Z y) (inject_Z m) (inject_Z d) (inject_Z h) (inject_Z mi) s
   == mjd_formula (inject_Z y) (inject_Z m) (inject_Z d) 0 0 0 + day_fraction (mktod h mi s))%Q.
Proof. unfold mjd_formula, day_fraction; cbn [th tm ts]. field. Qed.

Lemma calendar_roundtrip x t :
  valid_greg x -> 2299161 <= gday x -> valid_tod t -> slip (dy x) (dm x) = 0 ->
  forall JD, (JD == mjd_formula (inject_Z (dy x)) (inject_Z (dm x)) (inject_Z (dd x))
                 (inject_Z (th t)) (inject_Z (tm t)) (ts t) + (4800001 # 2))%Q ->
  exists s, convert_julian JD = (dy x, dm x, dd x, th t, tm t, s) /\ (s == ts t)%Q.
Proof.
  intros Hv Hg Ht Hs JD EJ. apply (convert_julian_greg x t Hv Hg Ht). rewrite EJ.
  rewrite mjd_tod.
  pose proof (mjd_julian (dy x) (dm x) (dd x) (proj1 Hv)) as E. rewrite Hs, Z.add_0_r in E.
  destruct x as [y m d], t as [h mi s]; cbn [dy dm dd th tm ts] in *. lra.
Qed.

(** uniqueness of the specification numbering *)
Definition prev_greg (x : date) : date :=
  if 1 <? dd x then mkdate (dy x) (dm x) (dd x - 1)
  else if 1 <? dm x then mkdate (dy x) (dm x - 1) (month_len (greg_leap (dy x)) (dm x - 1))
  else mkdate (dy x - 1) 12 31.

Lemma month_len_pos b m : 28 <= month_len b m <= 31.
Proof. unfold month_len. ifs; lia. Qed.

Lemma next_valid x : valid_greg x -> valid_greg (next_greg x).
Proof.
  destruct x as [y m d]. unfold valid_greg, next_greg; cbn [dy dm dd]. intros [Hm Hd].
  destruct (Z.ltb_spec d (month_len (greg_leap y) m)); cbn [dy dm dd]; [lia|].
  destruct (Z.ltb_spec m 12); cbn [dy dm dd].
  - pose proof (month_len_pos (greg_leap y) (m + 1)). lia.
  - pose proof (month_len_pos (greg_leap (y + 1)) 1). lia.
Qed.

Lemma prev_valid x : valid_greg x -> valid_greg (prev_greg x) /\ next_greg (prev_greg x) = x.
Proof.
  destruct x as [y m d]. unfold valid_greg, prev_greg; cbn [dy dm dd]. intros [Hm Hd].
  destruct (Z.ltb_spec 1 d); cbn [dy dm dd].
  - split; [lia|]. unfold next_greg; cbn [dy dm dd].
    destruct (Z.ltb_spec (d - 1) (month_len (greg_leap y) m)); [|lia]. f_equal; lia.
  - assert (d = 1) as -> by lia. destruct (Z.ltb_spec 1 m); cbn [dy dm dd].
    + pose proof (month_len_pos (greg_leap y) (m - 1)). split; [lia|].
      unfold next_greg; cbn [dy dm dd]. rewrite Z.ltb_irrefl.
      destruct (Z.ltb_spec (m - 1) 12); [|lia]. f_equal; lia.
    + assert (m = 1) as -> by lia. split; [cbn; lia|].
      unfold next_greg; cbn [dy dm dd]. cbn -[Z.add Z.sub]. f_equal; lia.
Qed.

Lemma gday_2000 x : valid_greg x -> gday x = 2451545 -> x = mkdate 2000 1 1.
Proof.
  destruct x as [y m d]. unfold valid_greg, gday, before_month; cbn [dy dm dd]. intros [Hm Hd] E.
  assert (Hb : before_month (greg_leap y) m + d <= 365 + (if greg_leap y then 1 else 0) /\ 1 <= before_month (greg_leap y) m + d).
  { clear E. unfold before_month. month_cases m H1; cbn -[Z.add greg_leap] in Hd |- *; destruct (greg_leap y); cbn -[Z.add] in Hd |- *; lia. }
  fold (before_month (greg_leap y) m) in E.
  assert (y = 2000) as ->.
  { destruct (greg_leap y) eqn:G.
    - generalize dependent (before_month true m); intros b E Hb.
      unfold greg_leap in G.
      destruct (Z.le_gt_cases y 1996); [exfalso; lia|].
      destruct (Z.le_gt_cases 2001 y); [exfalso; lia|]. lia.
    - generalize dependent (before_month false m); intros b E Hb.
      destruct (Z.le_gt_cases y 1999); [exfalso; lia|].
      destruct (Z.le_gt_cases 2001 y); [exfalso; lia|]. lia. }
  clear Hb. change (greg_leap 2000) with true in *.
  unfold before_month in E. month_cases m H1; cbn -[Z.add Z.mul Z.sub] in *; f_equal; lia.
Qed.

Lemma gday_unique f : is_julian_day_number f -> forall x, valid_greg x -> f x = gday x.
Proof.
  intros [H0 Hn].
  assert (Up : forall n x, valid_greg x -> gday x = 2451545 + Z.of_nat n -> f x = gday x).
  { induction n as [|n IH]; intros x Hv E.
    - assert (x = mkdate 2000 1 1) as -> by (apply gday_2000; [assumption|lia]).
      rewrite H0. reflexivity.
    - destruct (prev_valid x Hv) as [Hp Ep].
      pose proof (gday_next _ Hp) as G. rewrite Ep in G.
      pose proof (Hn _ Hp) as F. rewrite Ep in F. rewrite F, G, (IH _ Hp); lia. }
  assert (Dn : forall n x, valid_greg x -> gday x = 2451545 - Z.of_nat n -> f x = gday x).
  { induction n as [|n IH]; intros x Hv E.
    - apply (Up O); [assumption|lia].
    - pose proof (gday_next _ Hv) as G. pose proof (Hn _ Hv) as F.
      rewrite (IH (next_greg x) (next_valid _ Hv)) in F; lia. }
  intros x Hv. destruct (Z.le_gt_cases 2451545 (gday x)) as [L|L].
  - apply (Up (Z.to_nat (gday x - 2451545))); [assumption|lia].
  - apply (Dn (Z.to_nat (2451545 - gday x))); [assumption|lia].
Qed.
