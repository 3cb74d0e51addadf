(** C11 grace_find_months, C12 grace_date. *)
From Coq Require Import QArith Qround ZifyBool ZifyNat Lqa Sorted FinFun Reals Qreals.
From Verif Require Import Base TimeModel TimeSpec TimeProofs TimeProofs2 DecimalProofs AdjustProofs GraceModel.
Close Scope R_scope.
Open Scope Z_scope.
Ltac Zify.zify_post_hook ::= Z.to_euclidean_division_equations.

(** ** C11 *)
Lemma mem_in x l : mem x l = true <-> In x l.
Proof. unfold mem. rewrite existsb_exists. split; [intros (y & H & E); apply Z.eqb_eq in E; subst; auto|]. intros H. exists x. split; auto. apply Z.eqb_refl. Qed.
Lemma in_arange a b x : In x (arange a b) <-> a <= x < b.
Proof.
  unfold arange. rewrite in_map_iff. split.
  - intros (k & <- & H). apply in_seq in H. lia.
  - intros H. exists (Z.to_nat (x - a)). split; [lia|]. apply in_seq. lia.
Qed.
Lemma arange_sorted a b : StronglySorted Z.lt (arange a b).
Proof.
  unfold arange. set (n := Z.to_nat (b - a)). clearbody n. generalize 0%nat as s. induction n as [|n IH]; intros s; cbn; constructor; auto.
  rewrite Forall_forall. intros x Hx. apply in_map_iff in Hx. destruct Hx as (k & <- & Hk). apply in_seq in Hk. lia.
Qed.
Lemma filter_sorted (f : Z -> bool) l : StronglySorted Z.lt l -> StronglySorted Z.lt (filter f l).
Proof.
  induction 1 as [|x l H IH F]; cbn; [constructor|]. destruct (f x); auto. constructor; auto. rewrite Forall_forall in *. intros y Hy. apply filter_In in Hy. apply F. tauto.
Qed.
Lemma zmax_spec l : l <> [] -> In (zmax l) l /\ forall x, In x l -> x <= zmax l.
Proof.
  destruct l as [|x t]; [congruence|]. intros _. cbn [zmax]. revert x. induction t as [|y t IH]; intros x; cbn [fold_left].
  - split; [left; auto|]. intros z [->|[]]. lia.
  - destruct (IH (Z.max x y)) as [A B]. split.
    + destruct A as [A|A]; [|right; right; auto]. rewrite <- A. destruct (Z.max_spec x y) as [[_ ->]|[_ ->]]; [right; left; auto|left; auto].
    + intros z [->|[->|H]]; [| |apply B; right; auto]; (specialize (B (Z.max x y) ltac:(left; auto)) || specialize (B (Z.max z y) ltac:(left; auto)) || specialize (B (Z.max x z) ltac:(left; auto))); lia.
Qed.
Lemma zmin_spec l : l <> [] -> In (zmin l) l /\ forall x, In x l -> zmin l <= x.
Proof.
  destruct l as [|x t]; [congruence|]. intros _. cbn [zmin]. revert x. induction t as [|y t IH]; intros x; cbn [fold_left].
  - split; [left; auto|]. intros z [->|[]]. lia.
  - destruct (IH (Z.min x y)) as [A B]. split.
    + destruct A as [A|A]; [|right; right; auto]. rewrite <- A. destruct (Z.min_spec x y) as [[_ ->]|[_ ->]]; [left; auto|right; left; auto].
    + intros z [->|[->|H]]; [| |apply B; right; auto]; (specialize (B (Z.min x y) ltac:(left; auto)) || specialize (B (Z.min z y) ltac:(left; auto)) || specialize (B (Z.min x z) ltac:(left; auto))); lia.
Qed.
Lemma arange_split a m b : a <= m < b -> arange a b = arange a m ++ m :: arange (m + 1) b.
Proof.
  intros H. unfold arange. set (n1 := Z.to_nat (m - a)). set (n2 := Z.to_nat (b - (m + 1))). replace (Z.to_nat (b - a)) with (n1 + S n2)%nat by lia.
  rewrite seq_app, map_app. f_equal. cbn [seq map Nat.add]. f_equal; [lia|].
  assert (G : forall n s, map (fun k => a + Z.of_nat k) (seq (S n1 + s) n) = map (fun k => m + 1 + Z.of_nat k) (seq s n)).
  { induction n as [|n IH]; intros s; [reflexivity|]. cbn [seq map]. f_equal; [lia|]. rewrite <- (IH (S s)). do 2 f_equal. lia. }
  rewrite <- G. do 2 f_equal. lia.
Qed.
Lemma skip_sorted k : forall l, StronglySorted Z.lt l -> StronglySorted Z.lt (skipn k l).
Proof. induction k as [|k IH]; intros l H; auto. destruct l as [|x l]; auto. cbn. apply IH. inversion H; auto. Qed.
Lemma skip_in k : forall (l : list Z) m, In m (skipn k l) -> In m l.
Proof. induction k as [|k IH]; intros l m H; auto. destruct l as [|x l]; auto. right. apply IH. exact H. Qed.
(** every field but the missing months, and the missing months of CNES *)
Theorem C11_range : forall cnes mon, (2 <= length mon)%nat -> exists i, grace_find_months cnes mon = Ok i /\
  In (mi_start i) mon /\ In (mi_end i) mon /\ (forall m, In m mon -> mi_start i <= m <= mi_end i) /\
  StronglySorted Z.lt (mi_missing i) /\ (forall m, In m (mi_missing i) -> 1 <= m < mi_end i /\ ~ In m mon) /\
  (cnes = true -> forall m, 1 <= m < mi_end i -> ~ In m mon -> In m (mi_missing i)).
Proof.
  intros cnes [|a [|b mon]] L; cbn [length] in L; try lia. set (l := a :: b :: mon). unfold grace_find_months. fold l.
  change (match l with [] => Err ValueError | [_] => Err TypeError | _ :: _ :: _ => ?x end) with x.
  set (ms := filter (fun m => negb (mem m l)) (arange 1 (zmax l))). eexists. split; [reflexivity|]. cbn [mi_start mi_end mi_missing].
  destruct (zmin_spec l) as [A1 A2]; [discriminate|]. destruct (zmax_spec l) as [B1 B2]; [discriminate|].
  assert (SS : StronglySorted Z.lt ms) by (apply filter_sorted, arange_sorted).
  assert (IM : forall m, In m ms <-> 1 <= m < zmax l /\ ~ In m l).
  { intros m. unfold ms. rewrite filter_In, in_arange. rewrite negb_true_iff. split; intros [H1 H2]; split; auto.
    - intros H. apply mem_in in H. congruence.
    - destruct (mem m l) eqn:E; auto. apply mem_in in E. contradiction. }
  pose proof skip_sorted as SK. pose proof skip_in as SI.
  split; [exact A1|]. split; [exact B1|]. split; [intros m H; split; auto|].
  split; [destruct cnes; auto|]. split.
  - intros m H. apply IM. destruct cnes; auto. eapply SI; eauto.
  - intros -> m H1 H2. apply IM. auto.
Qed.
(** with no data in months 1 to 3: exactly the months without data from month 4 (2002-04) to the last month *)
Theorem C11_missing : forall mon, (2 <= length mon)%nat -> (forall m, In m mon -> 4 <= m) -> exists i, grace_find_months false mon = Ok i /\
  StronglySorted Z.lt (mi_missing i) /\ forall m, In m (mi_missing i) <-> 4 <= m <= mi_end i /\ ~ In m mon.
Proof.
  intros [|a [|b mon]] L G; cbn [length] in L; try lia. set (l := a :: b :: mon) in *. unfold grace_find_months. fold l.
  change (match l with [] => Err ValueError | [_] => Err TypeError | _ :: _ :: _ => ?x end) with x.
  eexists. split; [reflexivity|]. cbn [mi_end mi_missing].
  destruct (zmax_spec l) as [B1 B2]; [discriminate|]. assert (E4 : 4 <= zmax l) by auto.
  assert (SP : arange 1 (zmax l) = 1 :: 2 :: 3 :: arange 4 (zmax l)).
  { unfold arange. replace (Z.to_nat (zmax l - 1)) with (3 + Z.to_nat (zmax l - 4))%nat by lia. cbn [seq map Nat.add]. f_equal. f_equal. f_equal.
    rewrite <- 3 seq_shift, !map_map. apply map_ext. intros. lia. }
  rewrite SP. assert (N : forall m, m < 4 -> mem m l = false). { intros m H. destruct (mem m l) eqn:E; auto. apply mem_in, G in E. lia. }
  cbn [filter]. rewrite !N by lia. cbn [negb skipn]. split; [apply filter_sorted, arange_sorted|].
  intros m. rewrite filter_In, in_arange, negb_true_iff. split; intros [H1 H2]; split; auto; try lia.
  - intros H. apply mem_in in H. congruence.
  - assert (m <> zmax l) by (intros ->; contradiction). lia.
  - destruct (mem m l) eqn:E; auto. apply mem_in in E. contradiction.
Qed.
(** Refuted when one of the months 1 to 3 has data: the first months without data are lost from the list *)
Theorem C11_early_months_refuted : forall mon m0, (2 <= length mon)%nat -> In m0 mon -> 1 <= m0 <= 3 ->
  forall i m, grace_find_months false mon = Ok i -> 4 <= m <= mi_end i -> ~ In m mon ->
  (forall k, 4 <= k < m -> In k mon) -> ~ In m (mi_missing i).
Proof.
  intros [|a [|b mon]] m0 L I0 R i m E Hm Nm F; cbn [length] in L; try lia. set (l := a :: b :: mon) in *. unfold grace_find_months in E. fold l in E.
  change (match l with [] => Err ValueError | [_] => Err TypeError | _ :: _ :: _ => ?x end) with x in E.
  assert (E1 : mi_end i = zmax l) by (injection E as <-; reflexivity).
  assert (E2 : mi_missing i = skipn 3 (filter (fun m => negb (mem m l)) (arange 1 (zmax l)))) by (injection E as <-; reflexivity).
  rewrite E1 in Hm. rewrite E2. clear E E1 E2. clearbody l.
  assert (m <> zmax l) by (intros ->; apply Nm, zmax_spec; intros ->; destruct I0).
  assert (SP : exists r, arange 1 (zmax l) = arange 1 m ++ m :: r).
  { exists (arange (m + 1) (zmax l)). apply arange_split. lia. }
  destruct SP as [r SP]. rewrite SP, filter_app. set (f := fun x : Z => negb (mem x l)).
  assert (LE : (length (filter f (arange 1 m)) <= 2)%nat).
  { assert (INC : incl (filter f (arange 1 m)) (filter (fun x => negb (x =? m0)) [1; 2; 3])).
    { intros x Hx. apply filter_In in Hx. destruct Hx as [H1 H2]. apply in_arange in H1. unfold f in H2. rewrite negb_true_iff in H2.
      assert (NI : ~ In x l) by (intros H'; apply mem_in in H'; congruence).
      apply filter_In. split.
      - assert (x < 4) by (destruct (Z.lt_ge_cases x 4); auto; exfalso; apply NI, F; lia). cbn. lia.
      - destruct (Z.eqb_spec x m0); auto. subst. contradiction. }
    assert (ND : NoDup (filter f (arange 1 m))). { apply NoDup_filter. unfold arange. apply Injective_map_NoDup; [intros u v; lia|apply seq_NoDup]. }
    pose proof (NoDup_incl_length ND INC) as H'. etransitivity; [exact H'|]. clear - R. assert (C : m0 = 1 \/ m0 = 2 \/ m0 = 3) by lia. destruct C as [->|[->| ->]]; cbn; lia. }
  set (h := filter f (arange 1 m)) in *. assert (FM : f m = true). { unfold f. destruct (mem m l) eqn:E; auto. apply mem_in in E. contradiction. }
  cbn [filter]. rewrite FM. intros C.
  assert (GT : forall x, In x (filter f r) -> m < x).
  { intros x Hx. apply filter_In in Hx. destruct Hx as [Hx _]. pose proof (arange_sorted 1 (zmax l)) as S. rewrite SP in S.
    clear - S Hx. induction (arange 1 m) as [|y t IH]; cbn in S; inversion S as [|? ? S1 S2]; subst; auto. rewrite Forall_forall in S2. auto. }
  pose proof (fun k u => skip_in k u m) as SUB.
  destruct h as [|h1 [|h2 [|h3 h]]]; cbn in LE; try lia; cbn [app skipn] in C.
  - apply (SUB 2%nat) in C. apply GT in C. lia.
  - apply (SUB 1%nat) in C. apply GT in C. lia.
  - apply GT in C. lia.
Qed.
(** Refuted: a date file with a single month raises TypeError *)
Theorem C11_single_month_refuted : forall cnes m, grace_find_months cnes [m] = Err TypeError.
Proof. reflexivity. Qed.
Example C11_nonvacuous : grace_find_months false [4; 5; 8; 10] = Ok (mkinfo 4 10 [6; 7; 9]) /\ grace_find_months false [3; 5; 8; 10] = Ok (mkinfo 3 10 [6; 7; 9]).
Proof. split; reflexivity. Qed.

(** ** C12 *)
(** day of the year, 1 on January 1st *)
Definition day_no (x : date) : Z := gday x - gday (mkdate (dy x) 1 1) + 1.
(** a file whose name says: from day x to day y, not more than one year end in between *)
Definition covers (p : period) (x y : date) : Prop :=
  valid_greg x /\ valid_greg y /\ gday x <= gday y /\ (dy y = dy x \/ dy y = dy x + 1) /\
  p = mkper (dy x) (inject_Z (day_no x)) (dy y) (inject_Z (day_no y)).
(** years for which time.py has no calendar slips (C01, C07), after the calendar reform *)
Definition regular_year (y : Z) : Prop := y mod 4000 <> 0 /\ ~ ((y - 1) mod 100 = 0 /\ (y - 1) mod 400 <> 0) /\ 2299161 <= gday (mkdate y 1 1).
(** the middle of days x and y on the axis of day numbers *)
Definition middle (x y : date) : Q := (inject_Z (gday x + gday y) / 2)%Q.

Lemma dpy_ok y : y mod 4000 <> 0 -> dpy y = Some (year_len y).
Proof.
  intros H. unfold dpy. destruct (calendar_days_total y) as [l E]. rewrite E. destruct (calendar_days_sum y l E) as [_ S].
  apply f_equal. etransitivity; [exact S|]. rewrite year_len_eq. destruct (Z.eqb_spec (y mod 4000) 0); [contradiction|]. rewrite andb_true_r. reflexivity.
Qed.
Lemma mid_ok p x y : covers p x y -> (mid_day (year_len (dy x)) p == middle x y - inject_Z (gday (mkdate (dy x) 1 1)) + 1)%Q.
Proof.
  intros (V1 & V2 & G & Y & ->). unfold mid_day, middle. cbn [p_sy p_sd p_ey p_ed].
  assert (E : (dy y - dy x) * year_len (dy x) = gday (mkdate (dy y) 1 1) - gday (mkdate (dy x) 1 1)).
  { destruct Y as [->| ->]; unfold year_len, year_start; [lia|]. replace (dy x + 1 - dy x) with 1 by lia. lia. }
  rewrite E. unfold day_no. unfold Z.sub. rewrite !inject_Z_plus, !inject_Z_opp. change (inject_Z 1) with 1%Q. field.
Qed.
Lemma slip_jan y : regular_year y -> slip y 1 = 0.
Proof. intros (_ & S & _). unfold slip. ifs; lia. Qed.
Lemma mid_date_ok p x y z r : covers p x y -> regular_year (dy x) -> valid_greg z -> gday x <= gday z -> (r = 0 \/ r = 1) -> gday x + gday y = 2 * gday z + r ->
  mid_date (year_len (dy x)) p = (dy z, dm z).
Proof.
  intros C RY Vz Gz R E. pose proof C as (V1 & V2 & G & Y & Ep). unfold mid_date.
  set (JD := (convert_calendar_dates _ _ _ _ _ _ _ _ + _)%Q).
  assert (VT : valid_tod (mktod (12 * r) 0 0)). { unfold valid_tod. cbn [th tm ts]. repeat split; try lia; discriminate. }
  assert (EJ : (JD == inject_Z (gday z) - (1#2) + day_fraction (mktod (12 * r) 0 0))%Q).
  { unfold JD, convert_calendar_dates. pose proof (mid_ok p x y C) as M.
    assert (LIN : (mjd_formula (inject_Z (p_sy p)) 1 (mid_day (year_len (dy x)) p) 0 0 0 == mjd_formula (inject_Z (dy x)) 1 1 0 0 0 + mid_day (year_len (dy x)) p - 1)%Q).
    { rewrite Ep. cbn [p_sy]. unfold mjd_formula. ring. }
    rewrite LIN, M. pose proof (mjd_julian (dy x) 1 1 ltac:(lia)) as J. rewrite (slip_jan _ RY) in J. rewrite Z.add_0_r in J. change (inject_Z 1) with 1%Q in J.
    unfold middle. rewrite E. unfold day_fraction. cbn [th tm ts]. rewrite !inject_Z_plus, !inject_Z_mult. change (inject_Z 2) with 2%Q. change (inject_Z 12) with 12%Q. change (inject_Z 0) with 0%Q.
    set (a := mjd_formula _ 1 1 0 0 0) in *. set (b := inject_Z (gday (mkdate (dy x) 1 1))) in *. clearbody a b. set (c := inject_Z (gday z)). set (d := inject_Z r). clearbody c d. rewrite <- J. field. }
  assert (G2 : 2299161 <= gday z). { destruct RY as (_ & _ & L). pose proof (doy_range x V1) as D. unfold year_start in D. lia. }
  destruct (convert_julian_greg z _ Vz G2 VT JD EJ) as (s & -> & _). reflexivity.
Qed.
Lemma walk n : forall x, valid_greg x -> exists z, valid_greg z /\ gday z = gday x + Z.of_nat n.
Proof.
  induction n as [|n IH]; intros x V; [exists x; split; auto; lia|]. destruct (IH x V) as (z & Vz & Gz). exists (next_greg z). split; [apply next_valid; auto|]. rewrite gday_next by auto. lia.
Qed.
Lemma count_ok k : 2002 + Z.of_nat k <= 4000 -> count_days k = gday (mkdate (2002 + Z.of_nat k) 1 1) - gday (mkdate 2002 1 1).
Proof.
  induction k as [|k IH]; intros H; [cbn; lia|]. cbn [count_days]. rewrite dpy_ok by lia. rewrite IH by lia. unfold year_len, year_start.
  replace (2002 + Z.of_nat (S k)) with (2002 + Z.of_nat k + 1) by lia. lia.
Qed.
(** the month number belongs to the calendar day that contains the middle, which lies between the first and the last day; the
    decimal date and the day count are those of the middle *)
Theorem C12_middle : forall p x y first, covers p x y -> regular_year (dy x) ->
  exists t d mon z r, date_row false first p = Some (t, d, mon) /\ valid_greg z /\ gday x <= gday z <= gday y /\
   (r = 0 \/ r = (1#2))%Q /\ (inject_Z (gday z) + r == middle x y)%Q /\ mon = 12 * (dy z - 2002) + dm z /\
   (t == inject_Z (dy x) + (middle x y - inject_Z (gday (mkdate (dy x) 1 1)) + 1) / inject_Z (gday (mkdate (dy x + 1) 1 1) - gday (mkdate (dy x) 1 1)))%Q /\
   (2002 <= dy x < 4000 -> (d == middle x y - inject_Z (gday (mkdate 2001 12 31)))%Q).
Proof.
  intros p x y first C RY. pose proof C as (V1 & V2 & G & Y & Ep).
  destruct (walk (Z.to_nat ((gday y - gday x) / 2)) x V1) as (z & Vz & Gz).
  set (r := (gday y - gday x) mod 2). assert (R : r = 0 \/ r = 1) by (unfold r; lia).
  assert (E : gday x + gday y = 2 * gday z + r) by (unfold r; lia).
  assert (NY : dpy (p_sy p) = Some (year_len (dy x))). { rewrite Ep. cbn [p_sy]. apply dpy_ok, RY. }
  unfold date_row. rewrite NY. rewrite (mid_date_ok p x y z r) by (auto; lia).
  do 3 eexists. exists z, (if (r =? 0) then 0 else 1#2)%Q. split; [reflexivity|]. split; [exact Vz|]. split; [lia|].
  split; [destruct R as [->| ->]; [left|right]; reflexivity|].
  split. { unfold middle. rewrite E, inject_Z_plus, inject_Z_mult. change (inject_Z 2) with 2%Q. destruct R as [->| ->]; cbn [Z.eqb]; [change (inject_Z 0) with 0%Q|change (inject_Z 1) with 1%Q]; field. }
  split; [apply calendar_to_grace_Z|]. split.
  - unfold tdec. rewrite (mid_ok p x y C). rewrite Ep. cbn [p_sy]. reflexivity.
  - intros RG. unfold tot_days. pose proof (mid_ok p x y C) as M. unfold mid_day in M. rewrite Ep in M |- *. cbn [p_sy p_sd p_ey p_ed] in *.
    rewrite count_ok by lia. replace (2002 + Z.of_nat (Z.to_nat (dy x - 2002))) with (dy x) by lia.
    assert (J : gday (mkdate 2002 1 1) = gday (mkdate 2001 12 31) + 1) by reflexivity. rewrite J.
    unfold Z.sub. rewrite !inject_Z_plus, !inject_Z_opp, !inject_Z_plus. change (inject_Z 1) with 1%Q.
    set (a := inject_Z (day_no x)) in *. set (b := inject_Z ((dy y - dy x) * year_len (dy x))) in *. fold (Z.sub (dy y) (dy x)). fold b.
    set (c := inject_Z (day_no y)) in *. set (e := inject_Z (gday (mkdate (dy x) 1 1))) in *. set (f := inject_Z (gday (mkdate 2001 12 31))). set (g := middle x y) in *.
    clearbody a b c e f g. transitivity (e - (f + 1) + (a + (b + c)) / 2)%Q; [field|]. rewrite M. ring.
Qed.
(** a file inside one calendar month gets that month *)
Theorem C12_same_month : forall p x y first, covers p x y -> regular_year (dy x) -> dy x = dy y -> dm x = dm y ->
  exists t d, date_row false first p = Some (t, d, 12 * (dy x - 2002) + dm x).
Proof.
  intros p x y first C RY EY EM. pose proof C as (V1 & V2 & G & Y & Ep).
  assert (D : gday y - gday x = dd y - dd x). { unfold gday. rewrite EY, EM. lia. }
  set (q := (dd y - dd x) / 2). set (z := mkdate (dy x) (dm x) (dd x + q)). set (r := (dd y - dd x) mod 2).
  assert (Vz : valid_greg z). { unfold z, valid_greg in *. cbn [dy dm dd]. rewrite <- EY, <- EM in V2. unfold q. lia. }
  assert (Gz : gday z = gday x + q) by (unfold z, gday; cbn [dy dm dd]; lia).
  assert (NY : dpy (p_sy p) = Some (year_len (dy x))). { rewrite Ep. cbn [p_sy]. apply dpy_ok, RY. }
  unfold date_row. rewrite NY. rewrite (mid_date_ok p x y z r) by (auto; unfold r, q in *; lia).
  do 2 eexists. unfold z. cbn [dy dm]. rewrite calendar_to_grace_Z. reflexivity.
Qed.
(** Refuted: the covered time starts with day x at 0h and ends with day y at 24h; the decimal date given is half a day after its middle *)
Theorem C12_half_day_refuted : forall p x y first, covers p x y -> regular_year (dy x) -> exists t d mon, date_row false first p = Some (t, d, mon) /\
  let centre := ((inject_Z (gday x) + inject_Z (gday y + 1)) / 2)%Q in
  let len := inject_Z (gday (mkdate (dy x + 1) 1 1) - gday (mkdate (dy x) 1 1)) in
  (t == inject_Z (dy x) + (centre - inject_Z (gday (mkdate (dy x) 1 1))) / len + (1#2) / len)%Q.
Proof.
  intros p x y first C RY. destruct (C12_middle p x y first C RY) as (t & d & mon & z & r & E & _ & _ & _ & _ & _ & T & _).
  exists t, d, mon. split; auto. cbv zeta. rewrite T. unfold middle. rewrite !inject_Z_plus. change (inject_Z 1) with 1%Q.
  assert (N : ~ (inject_Z (gday (mkdate (dy x + 1) 1 1) - gday (mkdate (dy x) 1 1)) == 0)%Q).
  { change 0%Q with (inject_Z 0). intros X. apply -> inject_Z_injective in X. pose proof (year_len_pos (dy x)) as P. unfold year_len, year_start in P. lia. }
  field. exact N.
Qed.
Example C12_nonvacuous : covers (mkper 2002 95 2002 120) (mkdate 2002 4 5) (mkdate 2002 4 30) /\ covers (mkper 2003 340 2004 4) (mkdate 2003 12 6) (mkdate 2004 1 4) /\
  regular_year 2002 /\ regular_year 2003.
Proof. repeat split; try (cbn; lia); try (intros [H _]; cbn in H; lia); try reflexivity; try (vm_compute; congruence); left; reflexivity || right; reflexivity. Qed.
(** GRAZ and Swarm files: the day of the year of a date and time in the start year *)
Theorem C12_gfc_day : forall x t y dpm, valid_greg x -> y mod 4000 <> 0 -> calendar_days y = Some dpm -> dy x = y ->
  (doy dpm (mkstamp (dy x) (dm x) (inject_Z (dd x)) (inject_Z (th t)) (inject_Z (tm t)) (ts t)) == inject_Z (day_no x) + day_fraction t)%Q.
Proof.
  intros x t y dpm V M E EY. rewrite calendar_days_spec in E. assert (D : dpm = if greg_leap y then dpm_leap else dpm_stnd).
  { destruct (Z.eqb_spec (y mod 4000) 0) as [N|N]; [contradiction|]. rewrite andb_true_r in E. injection E as <-. destruct (greg_leap y); reflexivity. }
  unfold doy, day_fraction. cbn [s_m s_d s_h s_mi s_s]. pose proof (cum_before (greg_leap y) (dm x) (proj1 V)) as C. unfold cum_days in C. rewrite <- D in C. rewrite C.
  assert (DN : day_no x = before_month (greg_leap y) (dm x) + dd x).
  { unfold day_no, gday. cbn [dy dm dd]. rewrite EY. change (before_month (greg_leap y) 1) with (0 + (if false && greg_leap y then 1 else 0)). cbn [andb]. lia. }
  rewrite DN, inject_Z_plus. ring.
Qed.
(** Refuted when the file ends in a later year: the month lengths of the start year are used, so after February the day can be off by one *)
Theorem C12_gfc_year_end_refuted : exists a b p, gfc_period a b = Some p /\
  a = mkstamp 2003 12 1 0 0 0 /\ b = mkstamp 2004 3 15 0 0 0 /\ (p_ed p == inject_Z (day_no (mkdate 2004 3 15)) - 1)%Q.
Proof. do 3 eexists. split; [|split; [reflexivity|split; [reflexivity|]]]; [reflexivity|]. vm_compute. reflexivity. Qed.
(** when the months found are all different the dictionary gives each file under its own month, and nothing else *)
Theorem C12_dictionary : forall (F : Type) (ps : list (period * F)), NoDup (grace_months false (map fst ps)) ->
  (forall i p f, nth_error ps i = Some (p, f) -> grace_dict false ps (nth i (grace_months false (map fst ps)) 0) = Some f) /\
  (forall m, ~ In m (grace_months false (map fst ps)) -> grace_dict false ps m = None).
Proof.
  intros F ps ND. unfold grace_dict. rewrite AdjustProofs.adjust_nodup by auto. set (ms := grace_months false (map fst ps)) in *.
  assert (L : length ms = length ps) by (unfold ms, grace_months; rewrite !map_length; reflexivity).
  assert (KEEP : forall (ms : list Z) (fs : list F) m acc, ~ In m ms ->
     fold_left (fun acc mf => if fst mf =? m then Some (snd mf) else acc) (combine ms fs) acc = acc).
  { clear. induction ms as [|a ms IH]; intros [|f fs] m acc N; try reflexivity. cbn. destruct (Z.eqb_spec a m) as [->|Ne]; [exfalso; apply N; left; auto|]. apply IH. intros H. apply N. right. auto. }
  split.
  - intros i p f. clearbody ms. clear - L ND KEEP. generalize (@None F) as acc. revert ms L ND i. induction ps as [|[q g] ps IH]; intros ms L ND i acc; [destruct i; discriminate|].
    destruct ms as [|m ms]; [discriminate|]. inversion ND as [|? ? N1 N2]; subst. injection L as L. destruct i as [|i]; cbn [nth_error nth map combine fold_left fst snd].
    + intros E. injection E as _ <-. rewrite Z.eqb_refl. apply KEEP. exact N1.
    + intros E. destruct (Z.eqb_spec m (nth i ms 0)) as [Q|_]; [|apply IH; auto].
      exfalso. apply N1. rewrite Q. apply nth_In. rewrite L. apply nth_error_Some. congruence.
  - intros m N. apply KEEP. exact N.
Qed.
Example C12_dictionary_nonvacuous : grace_dict false [(mkper 2002 95 2002 120, 1%nat); (mkper 2002 122 2002 137, 2%nat); (mkper 2003 340 2004 4, 3%nat)] 5 = Some 2%nat
  /\ NoDup (grace_months false [mkper 2002 95 2002 120; mkper 2002 122 2002 137; mkper 2003 340 2004 4]).
Proof. split; [vm_compute; reflexivity|]. assert (E : grace_months false [mkper 2002 95 2002 120; mkper 2002 122 2002 137; mkper 2003 340 2004 4] = [4; 5; 24]) by (vm_compute; reflexivity).
  rewrite E. repeat constructor; cbn; lia. Qed.
