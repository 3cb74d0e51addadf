(** C13 grace_input_months, C76 read_GRACE_harmonics. *)
From Coq Require Import QArith Reals Lra Sorted Qreals.
From Verif Require Import Base TimeModel DestripeModel DestripeProofs LinAlg RegressModel RegressProofs GraceModel PropGraceDate.
Close Scope Q_scope.
Close Scope Z_scope.
Open Scope R_scope.

(** ** C76 *)
Definition coef_at (l m : nat) (x : line) : bool := match x with Coef l' m' _ _ _ _ => (Nat.eqb l' l && Nat.eqb m' m)%bool | _ => false end.
Definition dota_at (l m : nat) (x : line) : bool := match x with Dota l' m' _ _ => (Nat.eqb l' l && Nat.eqb m' m)%bool | _ => false end.
(** the last line for degree l and order m *)
Definition last_coef (ls : list line) (l m : nat) (v : R * R * R * R) : Prop :=
  exists before after, let '(c, s, ec, es) := v in ls = before ++ Coef l m c s ec es :: after /\ forall x, In x after -> coef_at l m x = false.
Definition no_coef (ls : list line) (l m : nat) : Prop := forall x, In x ls -> coef_at l m x = false.
Definition last_dota (ls : list line) (l m : nat) (v : R * R) : Prop :=
  exists before after, ls = before ++ Dota l m (fst v) (snd v) :: after /\ forall x, In x after -> dota_at l m x = false.
Definition no_dota (ls : list line) (l m : nat) : Prop := forall x, In x ls -> dota_at l m x = false.
(** the values of the file: cosine, sine and their errors; coefficients without a line are 0, except the degree 0 term which is 1 *)
Definition file_values (ls : list line) (l m : nat) (v : R * R * R * R) : Prop :=
  last_coef ls l m v \/ (no_coef ls l m /\ v = ((if (Nat.eqb l 0 && Nat.eqb m 0)%bool then 1 else 0), 0, 0, 0)).
(** the drift rates of the file *)
Definition file_rates (ls : list line) (l m : nat) (v : R * R) : Prop := last_dota ls l m v \/ (no_dota ls l m /\ v = (0, 0)).
Definition vals (y : ylms) (l m : nat) : R * R * R * R := (y_clm y l m, y_slm y l m, y_eclm y l m, y_eslm y l m).

Lemma set2_same f l m v : set2 f l m v l m = v.
Proof. unfold set2. rewrite !Nat.eqb_refl. reflexivity. Qed.
Lemma set2_other f l m v i j : (i, j) <> (l, m) -> set2 f l m v i j = f i j.
Proof. intros N. unfold set2. destruct (Nat.eqb_spec i l), (Nat.eqb_spec j m); cbn; auto. congruence. Qed.
Lemma coef_fold lmax mmax ls : forall y l m, (l <= lmax)%nat -> (m <= mmax)%nat ->
  (exists v, last_coef ls l m v /\ vals (fold_left (coef_step lmax mmax) ls y) l m = v) \/ (no_coef ls l m /\ vals (fold_left (coef_step lmax mmax) ls y) l m = vals y l m).
Proof.
  induction ls as [|x ls IH]; intros y l m L M; [right; split; [intros x []|reflexivity]|]. cbn [fold_left].
  destruct (IH (coef_step lmax mmax y x) l m L M) as [(v & H & E)|[H E]].
  - left. exists v. split; [|exact E]. destruct v as [[[c s] ec] es]. destruct H as (b & a & -> & N). exists (x :: b), a. split; auto.
  - rewrite E. destruct (coef_at l m x) eqn:Q.
    + left. destruct x as [l' m' c s ec es| |]; try discriminate. cbn in Q. apply andb_prop in Q. destruct Q as [Q1 Q2]. apply Nat.eqb_eq in Q1, Q2. subst l' m'.
      exists (c, s, ec, es). split; [exists [], ls; split; auto|]. unfold vals, coef_step. apply Nat.leb_le in L, M. rewrite L, M. cbn [andb y_clm y_slm y_eclm y_eslm]. rewrite !set2_same. reflexivity.
    + right. split; [intros z [<-|Hz]; auto|]. destruct x as [l' m' c s ec es| |]; try reflexivity. unfold vals, coef_step. destruct ((l' <=? lmax) && (m' <=? mmax))%nat%bool; auto.
      cbn [y_clm y_slm y_eclm y_eslm]. assert ((l, m) <> (l', m')). { intros H'. injection H' as -> ->. cbn in Q. rewrite !Nat.eqb_refl in Q. discriminate. }
      rewrite !set2_other by auto. reflexivity.
Qed.
Lemma coef_fold_time lmax mmax ls : forall y, y_time (fold_left (coef_step lmax mmax) ls y) = y_time y /\ y_start (fold_left (coef_step lmax mmax) ls y) = y_start y /\ y_end (fold_left (coef_step lmax mmax) ls y) = y_end y.
Proof.
  induction ls as [|x ls IH]; intros y; [auto|]. cbn [fold_left]. destruct (IH (coef_step lmax mmax y x)) as (-> & -> & ->).
  destruct x as [l' m' c s ec es| |]; cbn [coef_step]; auto. destruct (_ && _)%bool; auto.
Qed.
Lemma drift_fold lmax mmax ls : forall dc ds r, drifts lmax mmax (Some (dc, ds)) ls = Ok r -> exists dc' ds', r = Some (dc', ds') /\
  forall l m, (exists v, last_dota ls l m v /\ (dc' l m, ds' l m) = v) \/ (no_dota ls l m /\ dc' l m = dc l m /\ ds' l m = ds l m).
Proof.
  induction ls as [|x ls IH]; intros dc ds r H.
  - cbn in H. injection H as <-. exists dc, ds. split; auto. intros l m. right. split; auto. intros x [].
  - assert (CONS : forall (b : list line) l m v, last_dota ls l m v -> last_dota (x :: ls) l m v).
    { intros _ l m v (b & a & -> & N). exists (x :: b), a. split; auto. }
    destruct x as [l' m' c s ec es|l' m' c s|]; cbn [drifts] in H.
    + destruct (IH dc ds r H) as (dc' & ds' & -> & G). exists dc', ds'. split; auto. intros l m. destruct (G l m) as [(v & A & B)|(A & B)]; [left; exists v; split; auto; apply (CONS []); auto|].
      right. split; auto. intros z [<-|Hz]; auto.
    + destruct ((l' <=? lmax) && (m' <=? mmax))%nat%bool; [|discriminate]. destruct (IH _ _ r H) as (dc' & ds' & -> & G). exists dc', ds'. split; auto.
      intros l m. destruct (G l m) as [(v & A & B)|(A & B & C)]; [left; exists v; split; auto; apply (CONS []); auto|].
      destruct (dota_at l m (Dota l' m' c s)) eqn:Q.
      * cbn in Q. apply andb_prop in Q. destruct Q as [Q1 Q2]. apply Nat.eqb_eq in Q1, Q2. subst l' m'. left. exists (c, s). split; [exists [], ls; split; auto|].
        rewrite B, C, !set2_same. reflexivity.
      * right. split; [intros z [<-|Hz]; auto|]. assert ((l, m) <> (l', m')). { intros H'. injection H' as -> ->. cbn in Q. rewrite !Nat.eqb_refl in Q. discriminate. }
        rewrite B, C, !set2_other by auto. auto.
    + destruct (IH dc ds r H) as (dc' & ds' & -> & G). exists dc', ds'. split; auto. intros l m. destruct (G l m) as [(v & A & B)|(A & B)]; [left; exists v; split; auto; apply (CONS []); auto|].
      right. split; auto. intros z [<-|Hz]; auto.
Qed.
Lemma drift_none lmax mmax ls r : drifts lmax mmax None ls = Ok r -> r = None /\ forall l m, no_dota ls l m.
Proof.
  induction ls as [|x ls IH]; cbn; intros H; [injection H as <-; split; auto; intros l m x []|].
  destruct x; try discriminate; destruct (IH H) as [A B]; split; auto; intros l' m' z [<-|Hz]; auto; apply (B l' m' z Hz).
Qed.
(** the amount removed from a coefficient by the pole tide option *)
Definition pole_part (pt gsm : bool) (ctr : centre) (time : R) (l m : nat) : R * R :=
  if (pt && gsm && Nat.eqb l 2 && Nat.eqb m 1)%bool then match pole_tide ctr time with Some v => v | None => (0, 0) end else (0, 0).
(** every coefficient up to LMAX and MMAX: value of the last line of that degree and order, plus the rate times the years since
    2003.3 for RL04 gravity fields, minus the pole tide in C21 and S21 *)
Theorem C76_coefficients : forall n p rl04 gsm pt ctr lmax mmax ls y, read_grace n p rl04 gsm pt ctr lmax mmax ls = Ok y ->
  forall l m, (l <= lmax)%nat -> (m <= mmax)%nat -> exists c s ec es rc rs, file_values ls l m (c, s, ec, es) /\
  (if (rl04 && gsm)%bool then file_rates ls l m (rc, rs) else (rc, rs) = (0, 0)) /\
  y_clm y l m = c + (y_time y - 20033 / 10) * rc - fst (pole_part pt gsm ctr (y_time y) l m) /\
  y_slm y l m = s + (y_time y - 20033 / 10) * rs - snd (pole_part pt gsm ctr (y_time y) l m) /\
  y_eclm y l m = ec /\ y_eslm y l m = es.
Proof.
  intros n p rl04 gsm pt ctr lmax mmax ls y H l m L M. unfold read_grace in H. set (time := Q2R (tdec n p)) in *. set (z := fun _ _ : nat => 0) in *.
  set (y0 := mkylms _ _ _ _ _ _ _) in *. set (y1 := fold_left (coef_step lmax mmax) ls y0) in *.
  assert (T1 : y_time y1 = time) by (apply (coef_fold_time lmax mmax ls y0)).
  assert (FV : file_values ls l m (vals y1 l m)).
  { destruct (coef_fold lmax mmax ls y0 l m L M) as [(v & A & B)|(A & B)]; fold y1 in B; rewrite B; [left; exact A|right; split; [exact A|]].
    unfold vals, y0. cbn [y_clm y_slm y_eclm y_eslm]. unfold set2, z. reflexivity. }
  destruct (drifts lmax mmax (if (rl04 && gsm)%bool then Some (z, z) else None) ls) as [dr|] eqn:D; [|discriminate]. cbn [bind] in H.
  (* the drift applied *)
  set (y2 := match dr with Some (dc, ds) => _ | None => y1 end) in *.
  assert (D2 : exists rc rs, (if (rl04 && gsm)%bool then file_rates ls l m (rc, rs) else (rc, rs) = (0, 0)) /\
    y_clm y2 l m = y_clm y1 l m + (time - 20033 / 10) * rc /\ y_slm y2 l m = y_slm y1 l m + (time - 20033 / 10) * rs /\
    y_eclm y2 l m = y_eclm y1 l m /\ y_eslm y2 l m = y_eslm y1 l m /\ y_time y2 = time).
  { destruct (rl04 && gsm)%bool.
    - apply drift_fold in D. destruct D as (dc & ds & -> & G). exists (dc l m), (ds l m). unfold y2. cbn [y_clm y_slm y_eclm y_eslm y_time]. rewrite T1. repeat split; auto.
      destruct (G l m) as [(v & A & B)|(A & B & C)]; [left; rewrite B; exact A|right; split; auto]. rewrite B, C. reflexivity.
    - apply drift_none in D. destruct D as [-> _]. exists 0, 0. unfold y2. rewrite T1. repeat split; auto; ring. }
  destruct D2 as (rc & rs & FR & E1 & E2 & E3 & E4 & E5).
  exists (y_clm y1 l m), (y_slm y1 l m), (y_eclm y1 l m), (y_eslm y1 l m), rc, rs. split; [exact FV|]. split; [exact FR|].
  assert (INJ : forall a b : ylms, Ok a = Ok b -> b = a) by congruence. clearbody y2.
  unfold pole_part. destruct (pt && gsm)%bool eqn:PG; cbn [andb].
  - destruct (pole_tide ctr time) as [[c21 s21]|] eqn:PT.
    + destruct ((2 <=? lmax) && (1 <=? mmax))%nat%bool; [|discriminate]. apply INJ in H; rewrite H; clear H. cbn [y_clm y_slm y_eclm y_eslm y_time]. rewrite E5, PT.
      destruct (Nat.eqb_spec l 2) as [->|Nl]; [destruct (Nat.eqb_spec m 1) as [->|Nm]|]; cbn [andb fst snd].
      * rewrite !set2_same, E1, E2. repeat split; auto.
      * rewrite !set2_other by congruence. rewrite E1, E2. repeat split; auto; ring.
      * rewrite !set2_other by congruence. rewrite E1, E2. repeat split; auto; ring.
    + apply INJ in H; rewrite H; clear H. rewrite E5, PT. rewrite E1, E2. destruct ((l =? 2) && (m =? 1))%nat%bool; cbn [fst snd]; repeat split; auto; ring.
  - apply INJ in H; rewrite H; clear H. rewrite E5, E1, E2. cbn [fst snd]. repeat split; auto; ring.
Qed.
(** Refuted: a rate line above the requested degree or order makes the reader fail, and so does a rate line in any other release *)
Theorem C76_rate_lines_refuted : forall n p rl04 gsm pt ctr lmax mmax ls l m c s, In (Dota l m c s) ls -> (rl04 && gsm = false \/ (lmax < l)%nat \/ (mmax < m)%nat) ->
  exists e, read_grace n p rl04 gsm pt ctr lmax mmax ls = Err e.
Proof.
  intros n p rl04 gsm pt ctr lmax mmax ls l m c s I B. unfold read_grace. set (dr := if (rl04 && gsm)%bool then _ else None).
  assert (G : exists e, drifts lmax mmax dr ls = Err e); [|destruct G as [e ->]; exists e; reflexivity].
  destruct B as [B|B].
  - assert (dr = None) as -> by (unfold dr; rewrite B; reflexivity). exists UnboundLocalError. clear B. induction ls as [|x ls IH]; [destruct I|]. destruct I as [->|I]; [reflexivity|].
    destruct x; cbn; auto.
  - clearbody dr. revert dr. induction ls as [|x ls IH]; intros dr; [destruct I|]. destruct I as [->|I].
    + cbn. destruct dr as [[dc ds]|]; [|eauto]. destruct (Nat.leb_spec l lmax), (Nat.leb_spec m mmax); cbn; eauto. lia.
    + destruct x as [? ? ? ? ? ?|l' m' c' s'|]; cbn [drifts]; try (apply IH; auto). destruct dr as [[dc ds]|]; [|eauto]. destruct (_ && _)%bool; [apply IH; auto|eauto].
Qed.
(** the reader succeeds whenever there are no such lines and (with the pole tide) C21 is inside the requested range *)
Theorem C76_total : forall n p rl04 gsm pt ctr lmax mmax ls, (forall l m c s, In (Dota l m c s) ls -> (rl04 && gsm)%bool = true /\ (l <= lmax)%nat /\ (m <= mmax)%nat) ->
  (2 <= lmax)%nat -> (1 <= mmax)%nat -> exists y, read_grace n p rl04 gsm pt ctr lmax mmax ls = Ok y.
Proof.
  intros n p rl04 gsm pt ctr lmax mmax ls H L M. unfold read_grace. set (dr := if (rl04 && gsm)%bool then _ else None).
  assert (G : exists r, drifts lmax mmax dr ls = Ok r).
  { assert (DR : (rl04 && gsm)%bool = true -> dr <> None) by (intros E; unfold dr; rewrite E; discriminate). clearbody dr. revert dr DR.
    induction ls as [|x ls IH]; intros dr DR; [cbn; eauto|]. assert (H' : forall l m c s, In (Dota l m c s) ls -> (rl04 && gsm)%bool = true /\ (l <= lmax)%nat /\ (m <= mmax)%nat) by (intros; eapply H; right; eauto).
    destruct x as [? ? ? ? ? ?|l' m' c' s'|]; cbn [drifts]; try (apply IH; auto). destruct (H l' m' c' s' ltac:(left; auto)) as (A & B & C). specialize (DR A).
    destruct dr as [[dc ds]|]; [|congruence]. apply Nat.leb_le in B, C. rewrite B, C. apply IH; auto. discriminate. }
  destruct G as [r ->]. cbn [bind]. destruct (pt && gsm)%bool; eauto. destruct (pole_tide ctr _) as [[a b]|]; eauto. apply Nat.leb_le in L, M. rewrite L, M. cbn [andb]. eauto.
Qed.
(** the times: decimal date of the middle (C12), start and end as Julian days *)
Theorem C76_times : forall p x y ctr lmax mmax rl04 gsm pt ls r, covers p x y -> regular_year (TimeSpec.dy x) -> regular_year (TimeSpec.dy y) ->
  read_grace (DecimalProofs.year_len (TimeSpec.dy x)) p rl04 gsm pt ctr lmax mmax ls = Ok r ->
  y_start r = IZR (TimeSpec.gday x) - 1 / 2 /\ y_end r = IZR (TimeSpec.gday y) - 1 / 2 /\
  exists t d mon, date_row false 0%Q p = Some (t, d, mon) /\ y_time r = Q2R t.
Proof.
  intros p x y ctr lmax mmax rl04 gsm pt ls r C RX RY H.
  assert (NY : dpy (p_sy p) = Some (DecimalProofs.year_len (TimeSpec.dy x))). { pose proof C as (_ & _ & _ & _ & ->). cbn [p_sy]. apply dpy_ok, RX. }
  assert (TT : y_time r = Q2R (tdec (DecimalProofs.year_len (TimeSpec.dy x)) p) /\
     y_start r = Q2R (convert_calendar_dates (inject_Z (p_sy p)) 1 (p_sd p) 0 0 0 0 1 + (4800001 # 2))%Q /\
     y_end r = Q2R (convert_calendar_dates (inject_Z (p_ey p)) 1 (p_ed p) 0 0 0 0 1 + (4800001 # 2))%Q).
  { unfold read_grace in H. set (y0 := mkylms _ _ _ _ _ _ _) in *. pose proof (coef_fold_time lmax mmax ls y0) as (A & B & D). set (y1 := fold_left (coef_step lmax mmax) ls y0) in *.
    destruct (drifts _ _ _ _) as [dr|]; [|discriminate]. cbn [bind] in H.
    set (y2 := match dr with Some (dc, ds) => _ | None => y1 end) in *.
    assert (E2 : y_time y2 = y_time y1 /\ y_start y2 = y_start y1 /\ y_end y2 = y_end y1) by (unfold y2; destruct dr as [[? ?]|]; auto).
    assert (E3 : y_time r = y_time y2 /\ y_start r = y_start y2 /\ y_end r = y_end y2).
    { destruct (pt && gsm)%bool; [|injection H as <-; auto]. destruct (pole_tide _ _) as [[? ?]|]; [|injection H as <-; auto]. destruct (_ && _)%bool; [|discriminate]. injection H as <-. auto. }
    destruct E2 as (-> & -> & ->) in E3. rewrite A, B, D in E3. exact E3. }
  destruct TT as (T1 & T2 & T3).
  assert (JD : forall w, TimeSpec.valid_greg w -> regular_year (TimeSpec.dy w) ->
     Q2R (convert_calendar_dates (inject_Z (TimeSpec.dy w)) 1 (inject_Z (day_no w)) 0 0 0 0 1 + (4800001 # 2))%Q = IZR (TimeSpec.gday w) - 1 / 2).
  { intros w Vw Rw. pose proof (TimeProofs.mjd_julian (TimeSpec.dy w) 1 1 ltac:(lia)) as J. rewrite (slip_jan _ Rw), Z.add_0_r in J. change (inject_Z 1) with 1%Q in J.
    assert (Q : (convert_calendar_dates (inject_Z (TimeSpec.dy w)) 1 (inject_Z (day_no w)) 0 0 0 0 1 + (4800001 # 2) == inject_Z (TimeSpec.gday w) - (1 # 2))%Q).
    { unfold convert_calendar_dates. setoid_replace (mjd_formula (inject_Z (TimeSpec.dy w)) 1 (inject_Z (day_no w)) 0 0 0) with (mjd_formula (inject_Z (TimeSpec.dy w)) 1 1 0 0 0 + inject_Z (day_no w) - 1)%Q by (unfold mjd_formula; ring).
      unfold day_no, Z.sub. rewrite !inject_Z_plus, inject_Z_opp. change (inject_Z 1) with 1%Q. rewrite <- J. ring. }
    apply Qeq_eqR in Q. rewrite Q. unfold Qminus. rewrite Q2R_plus, Q2R_opp. unfold Q2R. cbn. lra. }
  pose proof C as (V1 & V2 & _ & _ & Ep). split; [|split].
  - rewrite T2, Ep. cbn [p_sy p_sd]. apply JD; auto.
  - rewrite T3, Ep. cbn [p_ey p_ed]. apply JD; auto.
  - unfold date_row. rewrite NY. destruct (mid_date _ p) as [yy mm]. do 3 eexists. split; [reflexivity|exact T1].
Qed.
(** the pole tide of the two IERS models: the mean pole used before and after 2010 agrees at 2010 up to a millionth of an arc second *)
Theorem C76_pole_tide_2010 : forall t c s, t = 2010 -> pole_tide CSRJPL t = Some (c, s) ->
  let m1 := 55974 / 10 ^ 6 + 18243 / 10 ^ 7 * 10 + 18413 / 10 ^ 8 * 10 ^ 2 + 7024 / 10 ^ 9 * 10 ^ 3 in
  let m2 := - (346346 / 10 ^ 6) - 17896 / 10 ^ 7 * 10 + 10729 / 10 ^ 8 * 10 ^ 2 + 908 / 10 ^ 9 * 10 ^ 3 in
  let cubic_c := (-1551 / 1000 * / 10 ^ 9) * (m1 - 62 / 10 ^ 5 * 10) - (12 / 1000 * / 10 ^ 9) * (m2 + 348 / 10 ^ 5 * 10) in
  let cubic_s := (21 / 1000 * / 10 ^ 9) * (m1 - 62 / 10 ^ 5 * 10) - (1505 / 1000 * / 10 ^ 9) * (m2 + 348 / 10 ^ 5 * 10) in
  Rabs (c - cubic_c) <= 2 / 10 ^ 15 /\ Rabs (s - cubic_s) <= 2 / 10 ^ 15.
Proof.
  intros t c s -> H. unfold pole_tide in H. destruct (Rlt_dec 2010 2010); [lra|]. injection H as <- <-. cbv zeta. split; apply Rabs_le; split; lra.
Qed.
Example C76_nonvacuous : exists y, read_grace 365 (mkper 2003 335 2003 365) true true true CSRJPL 4 4 [Other; Coef 2 0 1 2 3 4; Dota 2 0 1 0; Coef 9 0 1 1 1 1] = Ok y.
Proof. apply C76_total; [|lia|lia]. intros l m c s I. repeat (destruct I as [I|I]; [try discriminate I; injection I as <- <- _ _; repeat split; auto; lia|]). destruct I. Qed.
