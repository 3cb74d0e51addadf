(** C106: dealiasing_monthly_mean.  Specification first. *)
From Coq Require Lqa.
From Coq Require Import QArith Qround Reals Qreals Lra String Permutation Sorted ZifyBool ZifyNat.
From Verif Require Import Base TimeModel TimeSpec TimeProofs TimeProofs2 Arr HarmModel HarmProofs HarmProofs2 DecimalProofs PropGraceDate.
From Verif Require Import DealiasModel.
From Verif Require GraceModel PropGrace.
Open Scope Z_scope.
Ltac Zify.zify_post_hook ::= Z.to_euclidean_division_equations.

Definition triple (x : date) : Z * Z * Z := (dy x, dm x, dd x).
(** numbers of the first and last day of a row (day of the year 1: January 1st) *)
Definition first_day (r : row) : Z := gday (mkdate (st_yr r) 1 1) + st_day r - 1.
Definition last_day (r : row) : Z := gday (mkdate (end_yr r) 1 1) + end_day r - 1.
(** rows of the years 1901 to 2098, not more than one year end in between *)
Definition row_ok (r : row) : Prop :=
  1901 <= st_yr r /\ end_yr r <= 2098 /\ (end_yr r = st_yr r \/ end_yr r = st_yr r + 1) /\ 1 <= st_day r <= year_len (st_yr r) /\ 1 <= end_day r <= year_len (end_yr r) /\ first_day r <= last_day r.
(** the days of a row, in order *)
Definition days_of (r : row) (ds : list date) : Prop :=
  StronglySorted (fun x y => gday x < gday y) ds /\ forall x, In x ds <-> valid_greg x /\ first_day r <= gday x <= last_day r.
(** the members of all archives; those of a list of days *)
Definition all_members (archives : list archive) : list member := flat_map ar_members archives.
Definition dated (ds : list date) (m : member) : bool := existsb (fun x => eq3 (m_date m) (triple x)) ds.
(** members are in the archive of their month *)
Definition filed (archives : list archive) : Prop := forall a m, In a archives -> In m (ar_members a) -> ar_month a = fst (m_date m).
(** lines of a member with data sets [es] of a product: hour and coefficients; other lines are skipped, those after the last set are not read *)
Inductive listing (product : string) : list (Z * list (nat * nat * R * R)) -> list aline -> Prop :=
| listing_end ls : listing product [] ls
| listing_skip x es ls : (forall h, a_head x <> Some (product, h)) -> listing product es ls -> listing product es (x :: ls)
| listing_set h n cs heads es ls : List.length heads = List.length cs -> listing product es ls ->
    listing product ((h, cs) :: es) (mkaline (Some (product, h)) n :: map (fun p => mkaline (fst p) (Some (snd p))) (combine heads cs) ++ ls).
(** a member whose file lists, for [nt] epochs of the day, every coefficient with order <= degree <= L0 once, always in the order [ord] *)
Definition key (c : nat * nat * R * R) : nat * nat := fst (fst c).
Definition readable (product : string) (nt L0 : nat) (ord : list (nat * nat)) (m : member) (es : list (Z * list (nat * nat * R * R))) : Prop :=
  listing product es (m_lines m) /\ List.length es = nt /\ Forall (fun e => map key (snd e) = ord) es /\ NoDup ord /\ (forall l k : nat, In (l, k) ord <-> (k <= l <= L0)%nat).
(** the coefficients of a degree and order in a list, 0 if not listed *)
Definition listed (cs : list (nat * nat * R * R)) (l m : nat) : R * R :=
  match find (fun c => Nat.eqb (fst (key c)) l && Nat.eqb (snd (key c)) m)%bool cs with Some (_, _, c, s) => (c, s) | None => (0%R, 0%R) end.
Definition average (l : list R) : R := (fold_right Rplus 0 l / INR (List.length l))%R.
(** decimal year of an hour of a day *)
Definition moment (x : Z * Z * Z) (h : Z) : R :=
  let '(y, m, d) := x in (IZR y + (IZR (gday (mkdate y m d) - gday (mkdate y 1 1)) + IZR h / 24) / IZR (year_len y))%R.
(** the mean of epochs (date, hour, coefficients), as a model of degree and order L of a month *)
Definition is_mean (L : nat) (gm : Z) (es : list (Z * Z * Z * Z * list (nat * nat * R * R))) (h : harm) : Prop :=
  lmax h = L /\ mmax h = L /\ month h = TScalar gm /\ time h = TScalar (average (map (fun e => moment (fst (fst e)) (snd (fst e))) es)) /\
  same_shape (clm h) (full (L + 1) (L + 1) None 0%R) /\ same_shape (slm h) (full (L + 1) (L + 1) None 0%R) /\
  forall l m, (m <= l <= L)%nat -> get (clm h) l m 0 = average (map (fun e => fst (listed (snd e) l m)) es) /\ get (slm h) l m 0 = average (map (fun e => snd (listed (snd e) l m)) es).
(** the members of a row: those dated on its days *)
Definition members (archives : list archive) (ds : list date) : list member := filter (dated ds) (all_members archives).
(** all epochs of a list of members *)
Definition epochs (sets : member -> list (Z * list (nat * nat * R * R))) (ms : list member) : list (Z * Z * Z * Z * list (nat * nat * R * R)) :=
  flat_map (fun m => map (fun x => (m_date m, fst x, snd x)) (sets m)) ms.
(** one member for each day; fewer members than days *)
Definition complete (archives : list archive) (ds : list date) : Prop := Permutation (map m_date (members archives ds)) (map triple ds).
Definition lacking (archives : list archive) (ds : list date) : Prop := (List.length (members archives ds) < List.length ds)%nat.
(** the file of a row is missing or older than a member, or everything is to be written again *)
Definition due (clobber : bool) (old : option (harm * R)) (ms : list member) : Prop :=
  match old with None => True | Some (_, t) => clobber = true \/ exists m, In m ms /\ (t < IZR (m_mtime m))%R end.

(** the AOD1B data set of each product; epochs of a day and degree of each release *)
Definition products : list (string * string) := [("GAA", "atm"); ("GAB", "ocn"); ("GAC", "glo"); ("GAD", "oba")]%string.
Definition releases : list (string * (nat * nat)) := [("RL01", (4, 100)); ("RL02", (4, 100)); ("RL03", (4, 100)); ("RL04", (4, 100)); ("RL05", (4, 100)); ("RL06", (8, 180))]%string%nat.
(** the file of a row: first day, last day and mission (GRACE up to month 186), or degree and month *)
Definition file_name (shm : bool) (L : nat) (r : row) : name :=
  if shm then NShm (st_yr r) (st_day r) (end_yr r) (end_day r) (if Z_le_dec (g_month r) 186 then true else false) else NMonth L (g_month r).

(** ** Proofs: days *)
Lemma ymd_ok x jd : valid_greg x -> 2299161 <= gday x -> (jd == inject_Z (gday x) - (1 # 2))%Q -> ymd jd = triple x.
Proof.
  intros V G E. assert (VT : valid_tod (mktod 0 0 0)) by (unfold valid_tod; cbn; repeat split; try lia; discriminate).
  destruct (convert_julian_greg x _ V G VT jd) as (s & E1 & _). { rewrite E. unfold day_fraction. cbn [th tm ts]. change (inject_Z 0) with 0%Q. field. }
  unfold ymd. rewrite E1. reflexivity.
Qed.
Lemma gday_inj x y : valid_greg x -> valid_greg y -> 2299161 <= gday x -> gday x = gday y -> x = y.
Proof.
  intros V1 V2 G E. pose proof (ymd_ok x _ V1 G (Qeq_refl _)) as A. pose proof (ymd_ok y (inject_Z (gday x) - (1 # 2))%Q V2 ltac:(lia)) as B. rewrite <- E in B. specialize (B (Qeq_refl _)).
  rewrite A in B. unfold triple in B. destruct x as [a b c], y as [a' b' c']. cbn [dy dm dd] in B. congruence.
Qed.
Lemma cjd y d : 1901 <= y <= 2098 -> (calc_julian_day y d == inject_Z (gday (mkdate y 1 1) + d - 1) - (1 # 2))%Q.
Proof.
  intros H. unfold calc_julian_day. change (Qfloor (10 / 12)) with 0. change (Qfloor (275 / 9)) with 30.
  assert (E2 : Qfloor (7 * (inject_Z y + inject_Z 0) / 4) = (7 * y) / 4) by qfl (7 * y) 4%positive.
  assert (E3 : Qfloor ((inject_Z y + 8 / 7) / 100) = (7 * y + 8) / 700) by qfl (7 * y + 8) 700%positive. rewrite E2, E3.
  assert (E4 : Qfloor (3 * (inject_Z ((7 * y + 8) / 700) + 1) / 4) = (3 * ((7 * y + 8) / 700 + 1)) / 4). { generalize ((7 * y + 8) / 700). intros k. qfl (3 * (k + 1)) 4%positive. }
  rewrite E4. assert (G : gday (mkdate y 1 1) = 367 * y - 7 * y / 4 - 3 * ((7 * y + 8) / 700 + 1) / 4 + 30 + 1721030).
  { unfold gday, before_month. cbn [dy dm dd]. change (2 <? 1) with false. cbn [andb]. lia. }
  rewrite G. unfold Z.sub. rewrite !inject_Z_plus, !inject_Z_opp, !inject_Z_mult. change (inject_Z 367) with 367%Q. change (inject_Z 1721030) with 1721030%Q. change (inject_Z 30) with 30%Q. change (inject_Z 1) with 1%Q. field.
Qed.

Lemma range_cons a b : a < b -> range a b = a :: range (a + 1) b.
Proof.
  intros H. unfold range. replace (Z.to_nat (b - a)) with (S (Z.to_nat (b - (a + 1)))) by lia. cbn [seq map]. rewrite Z.add_0_r. f_equal. rewrite <- seq_shift, map_map. apply map_ext. intros. lia.
Qed.
Lemma range_nil a b : b <= a -> range a b = [].
Proof. intros H. unfold range. replace (Z.to_nat (b - a)) with O by lia. reflexivity. Qed.
Lemma range_length a b : List.length (range a b) = Z.to_nat (b - a).
Proof. unfold range. now rewrite map_length, seq_length. Qed.
Lemma range_in a b x : In x (range a b) <-> a <= x < b.
Proof. unfold range. rewrite in_map_iff. split; [intros (k & <- & I); apply in_seq in I; lia|]. intros. exists (Z.to_nat (x - a)). rewrite in_seq. lia. Qed.
Lemma range_shift k a b : map (fun d => k + d) (range a b) = range (k + a) (k + b).
Proof. unfold range. rewrite map_map. replace (k + b - (k + a)) with (b - a) by lia. apply map_ext. intros. lia. Qed.
Lemma range_app a m b : a <= m <= b -> range a m ++ range m b = range a b.
Proof.
  intros H. unfold range. replace (Z.to_nat (b - a)) with (Z.to_nat (m - a) + Z.to_nat (b - m))%nat by lia. rewrite seq_app, map_app. f_equal. rewrite Nat.add_0_l.
  rewrite <- (Nat.add_0_r (Z.to_nat (m - a))). generalize (Z.to_nat (b - m)) as n. intros n.
  replace (seq (Z.to_nat (m - a) + 0) n) with (map (fun k => (Z.to_nat (m - a) + k)%nat) (seq 0 n)) by (clear; rewrite Nat.add_0_r; generalize (Z.to_nat (m - a)) as s; induction s as [|s IH]; [apply map_id|]; rewrite <- seq_shift, <- IH, map_map; apply map_ext; reflexivity).
  rewrite map_map. apply map_ext. intros. lia.
Qed.
Lemma dates_of n : forall x, valid_greg x -> exists ds, map gday ds = range (gday x) (gday x + Z.of_nat n) /\ Forall valid_greg ds.
Proof.
  induction n as [|n IH]; intros x V; [exists []; split; [rewrite range_nil by lia; reflexivity|constructor]|].
  destruct (IH (next_greg x) (next_valid x V)) as (ds & E & F). rewrite gday_next in E by auto. exists (x :: ds). split; [|constructor; auto]. cbn [map]. rewrite E, (range_cons (gday x)) by lia. do 2 f_equal. lia.
Qed.
Lemma sorted_map (ds : list date) : forall a b, map gday ds = range a b -> StronglySorted (fun x y => gday x < gday y) ds.
Proof.
  induction ds as [|x ds IH]; intros a b E; [constructor|]. cbn [map] in E. destruct (Z_lt_dec a b) as [L|L]; [|rewrite range_nil in E by lia; discriminate].
  rewrite range_cons in E by auto. injection E as E1 E2. constructor; [eapply IH; eauto|]. apply Forall_forall. intros y Iy. apply (in_map gday) in Iy. rewrite E2 in Iy. apply range_in in Iy. lia.
Qed.
Lemma year_bound y : 1901 <= y -> 2299161 <= gday (mkdate y 1 1).
Proof. intros H. unfold gday, before_month. cbn [dy dm dd]. change (2 <? 1) with false. cbn [andb]. lia. Qed.
Lemma F2_ymd jds ns ds : Forall2 (fun (j : Q) n => (j == inject_Z n - (1 # 2))%Q) jds ns -> map gday ds = ns -> Forall valid_greg ds -> (forall n, In n ns -> 2299161 <= n) -> map ymd jds = map triple ds.
Proof.
  intros F. revert ds. induction F as [|j n js ns E F IH]; intros ds EQ V B; destruct ds as [|x ds]; try discriminate; auto. cbn [map] in *. injection EQ as E1 E2. inversion V; subst.
  f_equal; [apply ymd_ok; auto; apply B; now left|]. apply IH; auto. intros n In_. apply B. now right.
Qed.
Lemma F2_app {A B} (P : A -> B -> Prop) l1 l2 k1 k2 : Forall2 P l1 k1 -> Forall2 P l2 k2 -> Forall2 P (l1 ++ l2) (k1 ++ k2).
Proof. apply Forall2_app. Qed.
Lemma cjd_range y a b : 1901 <= y <= 2098 -> Forall2 (fun (j : Q) n => (j == inject_Z n - (1 # 2))%Q) (map (calc_julian_day y) (range a b)) (range (gday (mkdate y 1 1) - 1 + a) (gday (mkdate y 1 1) - 1 + b)).
Proof.
  intros H. rewrite <- range_shift. induction (range a b) as [|d l IH]; cbn [map]; constructor; auto. rewrite cjd by auto. replace (gday (mkdate y 1 1) + d - 1) with (gday (mkdate y 1 1) - 1 + d) by lia. reflexivity.
Qed.
Lemma days_numbers r : row_ok r -> exists JD, julian_days r = Ok JD /\ Forall2 (fun (j : Q) n => (j == inject_Z n - (1 # 2))%Q) JD (range (first_day r) (last_day r + 1)).
Proof.
  intros (Y1 & Y2 & YY & D1 & D2 & FL). unfold julian_days, first_day, last_day in *. destruct (Z.eqb_spec (st_yr r) (end_yr r)) as [E|N]; cbn [negb].
  - eexists. split; [reflexivity|]. rewrite <- E in *. pose proof (cjd_range (st_yr r) (st_day r) (end_day r + 1) ltac:(lia)) as F.
    replace (gday (mkdate (st_yr r) 1 1) + st_day r - 1) with (gday (mkdate (st_yr r) 1 1) - 1 + st_day r) by lia.
    replace (gday (mkdate (st_yr r) 1 1) + end_day r - 1 + 1) with (gday (mkdate (st_yr r) 1 1) - 1 + (end_day r + 1)) by lia. exact F.
  - assert (EY : end_yr r = st_yr r + 1) by lia. destruct (calendar_days_total (st_yr r)) as [dpm C]. rewrite C. eexists. split; [reflexivity|].
    assert (SM : sumZ dpm = year_len (st_yr r)). { pose proof (dpy_ok (st_yr r)) as D. unfold GraceModel.dpy in D. rewrite C in D. assert (NZ : st_yr r mod 4000 <> 0) by lia. specialize (D NZ). congruence. }
    rewrite SM. pose proof (year_len_pos (st_yr r)) as LP. set (a := gday (mkdate (st_yr r) 1 1)) in *.
    assert (J : gday (mkdate (end_yr r) 1 1) = a + year_len (st_yr r)) by (rewrite EY; unfold year_len, year_start, a; lia).
    rewrite <- (range_app (a + st_day r - 1) (a + year_len (st_yr r)) _) by lia. apply F2_app.
    + pose proof (cjd_range (st_yr r) (st_day r) (year_len (st_yr r) + 1) ltac:(lia)) as F. fold a in F.
      replace (a + st_day r - 1) with (a - 1 + st_day r) by lia. replace (a + year_len (st_yr r)) with (a - 1 + (year_len (st_yr r) + 1)) by lia. exact F.
    + pose proof (cjd_range (end_yr r) 1 (end_day r + 1) ltac:(lia)) as F. rewrite J in F |- *.
      replace (a + year_len (st_yr r)) with (a + year_len (st_yr r) - 1 + 1) at 1 by lia. replace (a + year_len (st_yr r) + end_day r - 1 + 1) with (a + year_len (st_yr r) - 1 + (end_day r + 1)) by lia. exact F.
Qed.
(** the days read are the calendar days from the first to the last *)
Lemma days_sorted_unique (ds ds' : list date) r : row_ok r -> days_of r ds -> days_of r ds' -> ds = ds'.
Proof.
  intros RO [S1 I1] [S2 I2]. assert (B : forall x, In x ds -> 2299161 <= gday x). { intros x I. apply I1 in I. destruct RO as (Y1 & _ & _ & D1 & _ & _). pose proof (year_bound _ Y1). unfold first_day in I. lia. }
  assert (IFF : forall x, In x ds <-> In x ds') by (intros x; rewrite I1, I2; tauto). clear I1 I2 RO.
  revert ds' S2 IFF. induction S1 as [|x l S1 IH F]; intros ds' S2 IFF.
  - destruct ds' as [|y]; auto. exfalso. destruct (proj2 (IFF y)). now left.
  - destruct S2 as [|y l' S2 F']; [exfalso; apply (proj1 (IFF x)); now left|]. rewrite Forall_forall in F, F'.
    assert (XY : x = y). { destruct (proj1 (IFF x) (or_introl eq_refl)) as [->|I]; auto. destruct (proj2 (IFF y) (or_introl eq_refl)) as [->|I']; auto. specialize (F _ I'). specialize (F' _ I). lia. }
    subst y. f_equal. apply IH; auto; [intros z I; apply B; now right|]. intros z. split; intros I.
    + destruct (proj1 (IFF z) (or_intror I)) as [<-|]; auto. specialize (F _ I). lia.
    + destruct (proj2 (IFF z) (or_intror I)) as [<-|]; auto. specialize (F' _ I). lia.
Qed.
Theorem C106_days : forall r, row_ok r -> exists JD ds, julian_days r = Ok JD /\ map ymd JD = map triple ds /\ days_of r ds /\ Z.of_nat (List.length ds) = last_day r - first_day r + 1.
Proof.
  intros r RO. destruct (days_numbers r RO) as (JD & E & F). pose proof RO as (Y1 & _ & _ & D1 & _ & FL).
  assert (VJ : valid_greg (mkdate (st_yr r) 1 1)) by (split; cbn [dy dm dd]; [lia|]; change (month_len (greg_leap (st_yr r)) 1) with 31; lia).
  destruct (walk (Z.to_nat (st_day r - 1)) _ VJ) as (x & Vx & Gx). destruct (dates_of (Z.to_nat (last_day r + 1 - first_day r)) x Vx) as (ds & ED & FV).
  assert (GX : gday x = first_day r) by (unfold first_day; lia). rewrite GX in ED. replace (first_day r + Z.of_nat (Z.to_nat (last_day r + 1 - first_day r))) with (last_day r + 1) in ED by lia.
  assert (BD : forall n, In n (range (first_day r) (last_day r + 1)) -> 2299161 <= n). { intros n I. apply range_in in I. pose proof (year_bound _ Y1). unfold first_day in I. lia. }
  exists JD, ds. split; [auto|]. split; [eapply F2_ymd; eauto|]. split; [|rewrite <- (map_length gday), ED, range_length; lia].
  split; [eapply sorted_map; eauto|]. intros z. rewrite Forall_forall in FV. split.
  - intros I. split; [auto|]. apply (in_map gday) in I. rewrite ED in I. apply range_in in I. lia.
  - intros [V R]. assert (I : In (gday z) (range (first_day r) (last_day r + 1))) by (apply range_in; lia). rewrite <- ED in I. apply in_map_iff in I. destruct I as (y & EG & Iy).
    rewrite <- (gday_inj y z); auto. apply BD. rewrite <- ED. apply in_map. auto.
Qed.

(** ** Proofs: members *)
Lemma eq3_true a b : eq3 a b = true <-> a = b.
Proof. destruct a as [[a1 a2] a3], b as [[b1 b2] b3]. unfold eq3, eq2. cbn [fst snd]. rewrite !andb_true_iff, !Z.eqb_eq. split; [intros [[-> ->] ->]; auto|]. intros [= -> -> ->]. auto. Qed.
Lemma eq2_true a b : eq2 a b = true <-> a = b.
Proof. destruct a as [a1 a2], b as [b1 b2]. unfold eq2. cbn [fst snd]. rewrite andb_true_iff, !Z.eqb_eq. split; [intros [-> ->]; auto|]. intros [= -> ->]. auto. Qed.
Lemma dated_in ds m : dated ds m = true <-> In (m_date m) (map triple ds).
Proof. unfold dated. rewrite existsb_exists, in_map_iff. split; intros (x & A & B); exists x. - apply eq3_true in B. auto. - split; auto. apply eq3_true. auto. Qed.
Lemma members_ok ds archives : filed archives -> members_of (map triple ds) archives = members archives ds.
Proof.
  intros FI. unfold members_of, members, all_members. induction archives as [|a l IH]; [reflexivity|]. cbn [flat_map]. rewrite filter_app. f_equal; [|apply IH; intros b m I; apply FI; now right].
  assert (EXT : forall ms, filter (fun m => existsb (eq3 (m_date m)) (map triple ds)) ms = filter (dated ds) ms).
  { intros ms. apply filter_ext. intros m. apply Bool.eq_iff_eq_true. rewrite dated_in, existsb_exists. split; [intros (x & I & E); apply eq3_true in E; congruence|]. intros I. exists (m_date m). split; auto. now apply eq3_true. }
  rewrite EXT. destruct (existsb _ _) eqn:X; [reflexivity|]. symmetry. apply not_true_iff_false in X.
  destruct (filter (dated ds) (ar_members a)) as [|m t] eqn:FE; [reflexivity|]. exfalso. apply X. assert (I : In m (filter (dated ds) (ar_members a))) by (rewrite FE; now left).
  apply filter_In in I. destruct I as [I D]. apply dated_in in D. apply existsb_exists. exists (m_date m). split; auto. apply eq2_true. unfold ym. symmetry. apply (FI a m); [now left|auto].
Qed.

(** ** Proofs: reading *)
Lemma take_ok cs : forall heads ls, List.length heads = List.length cs -> take_coefs (List.length cs) (map (fun p => mkaline (fst p) (Some (snd p))) (combine heads cs) ++ ls) = Ok (cs, ls).
Proof.
  induction cs as [|c cs IH]; intros heads ls L; destruct heads as [|h heads]; try discriminate; [reflexivity|]. cbn [List.length combine map app take_coefs a_nums fst snd]. rewrite IH by (cbn in L; congruence). reflexivity.
Qed.
Lemma find_skip product x ls : (forall h, a_head x <> Some (product, h)) -> find_header product (x :: ls) = find_header product ls.
Proof. intros N. cbn [find_header]. destruct (a_head x) as [[p h]|]; auto. destruct (String.eqb_spec p product) as [->|]; auto. now contradiction (N h). Qed.
Lemma read_listing product nh : forall es ls, listing product es ls -> Forall (fun e => List.length (snd e) = nh) es -> read_member product nh (List.length es) ls = Ok (Some es).
Proof.
  intros es ls H. induction H as [ls|x es ls N H IH|h n cs heads es ls L H IH]; intros F; [reflexivity| |].
  - specialize (IH F). destruct es as [|e es]; [reflexivity|]. cbn [List.length read_member] in *. now rewrite find_skip.
  - inversion F as [|? ? F1 F2]; subst. specialize (IH F2). cbn [snd] in IH. cbn [snd List.length read_member find_header a_head]. rewrite String.eqb_refl, take_ok by auto. cbn [bind fst snd]. rewrite IH. reflexivity.
Qed.
Lemma read_all product nh nt sets ms : (forall m, In m ms -> listing product (sets m) (m_lines m) /\ List.length (sets m) = nt /\ Forall (fun e => List.length (snd e) = nh) (sets m)) ->
  read_members product nh nt ms = Ok (Some (epochs sets ms)).
Proof.
  induction ms as [|m ms IH]; intros H; [reflexivity|]. cbn [read_members epochs flat_map]. destruct (H m (or_introl eq_refl)) as (A & B & C). rewrite <- B at 1. rewrite (read_listing _ nh _ _ A C). cbn [bind].
  rewrite IH by (intros m' I; apply H; now right). reflexivity.
Qed.

(** ** Proofs: the mean *)
Lemma Rmean_average l : Rmean l = average l.
Proof. unfold Rmean, average. apply (f_equal (fun x => (x / INR (List.length l))%R)). induction l as [|x l IH]; cbn [Rsum fold_right]; [reflexivity|now rewrite IH]. Qed.
Lemma epoch_moment x h cs : (fst (fst x)) mod 4000 <> 0 -> valid_greg (mkdate (fst (fst x)) (snd (fst x)) (snd x)) -> epoch_time (x, h, cs) = moment x h.
Proof.
  destruct x as [[y m] d]. cbn [fst snd]. intros NZ V. unfold epoch_time, moment. pose proof (decimal_exact (mkdate y m d) (mktod h 0 0) V NZ) as E. cbn [dy dm dd th tm ts] in E.
  assert (E2 : (convert_calendar_decimal y m (Some (inject_Z d)) (Some (inject_Z h)) None None None == convert_calendar_decimal y m (Some (inject_Z d)) (Some (inject_Z h)) (Some (inject_Z 0)) (Some 0%Q) None)%Q) by reflexivity.
  rewrite (Qeq_eqR _ _ E2), (Qeq_eqR _ _ E). unfold day_fraction. cbn [th tm ts]. pose proof (year_len_pos y) as LP.
  assert (NZL : ~ (inject_Z (year_len y) == 0)%Q). { change 0%Q with (inject_Z 0). intros X. apply -> inject_Z_injective in X. lia. }
  assert (QI : forall z, Q2R (inject_Z z) = IZR z) by (intros z; unfold Q2R; cbn [Qnum Qden inject_Z]; field).
  rewrite Q2R_plus, Q2R_div by auto. rewrite !Q2R_plus, !Q2R_div by discriminate. rewrite !QI. unfold year_start.
  replace (Q2R 24) with 24%R by (unfold Q2R; cbn; field). replace (Q2R 0) with 0%R by (unfold Q2R; cbn; field). unfold Rdiv. rewrite !Rmult_0_l, !Rplus_0_r. reflexivity.
Qed.
Fixpoint place (p : nat * nat) (ps : list (nat * nat)) : nat :=
  match ps with [] => 0%nat | x :: t => if (Nat.eqb (fst x) (fst p) && Nat.eqb (snd x) (snd p))%bool then 0%nat else S (place p t) end.
Lemma place_map (ps : list (nat * nat)) : NoDup ps -> map (fun p => place p ps) ps = seq 0 (List.length ps).
Proof.
  induction 1 as [|x l N H IH]; [reflexivity|]. cbn [map List.length seq place]. rewrite !Nat.eqb_refl. cbn [andb]. f_equal. rewrite <- seq_shift, <- IH, map_map. apply map_ext_in. intros p I.
  destruct (Nat.eqb_spec (fst x) (fst p)), (Nat.eqb_spec (snd x) (snd p)); cbn [andb]; auto. exfalso. apply N. destruct x, p. cbn in *. now subst.
Qed.
Lemma listed_place cs l m : In (l, m) (map key cs) -> listed cs l m = (snd (fst (nth (place (l, m) (map key cs)) cs nocoef)), snd (nth (place (l, m) (map key cs)) cs nocoef)).
Proof.
  unfold listed. induction cs as [|c cs IH]; [intros []|]. cbn [map In find place]. cbn [fst snd].
  destruct (Nat.eqb_spec (fst (key c)) l), (Nat.eqb_spec (snd (key c)) m); cbn [andb nth]; intros I; try (apply IH; destruct I as [I|I]; auto; rewrite I in *; cbn in *; contradiction).
  destruct c as [[[a b] c] s]. reflexivity.
Qed.
Lemma listed_none cs l m : ~ In (l, m) (map key cs) -> listed cs l m = (0%R, 0%R).
Proof.
  unfold listed. intros N. destruct (find _ cs) as [c|] eqn:F; auto. exfalso. apply find_some in F. destruct F as [I E]. apply andb_true_iff in E. rewrite !Nat.eqb_eq in E. apply N. destruct E as [<- <-].
  rewrite <- surjective_pairing. now apply in_map.
Qed.
Lemma nth_seq {A} (l : list A) d : map (fun k => nth k l d) (seq 0 (List.length l)) = l.
Proof. induction l as [|x l IH]; [reflexivity|]. cbn [List.length seq map nth]. f_equal. rewrite <- seq_shift, map_map. exact IH. Qed.
Lemma triangle_length ord L : NoDup ord -> (forall l k : nat, In (l, k) ord <-> (k <= l <= L)%nat) -> List.length ord = n_coefs L.
Proof.
  intros N H. assert (P : Permutation ord (lm_loop L L)). { apply NoDup_Permutation; auto; [apply lm_loop_nodup|]. intros [l k]. rewrite H, lm_loop_in. lia. }
  rewrite (Permutation_length P). pose proof (lm_loop_length L L ltac:(lia)) as E. unfold n_harm in E. unfold n_coefs. lia.
Qed.
Section Mean.
Context (grace : R -> Z) (L0 LMAX : nat) (gm : Z) (ord : list (nat * nat)) (es : list epoch).
Context (LM : LMAX <> 0%nat) (NE : es <> []) (KEYS : Forall (fun e => map key (snd e) = ord) es) (ND : NoDup ord) (TRI : forall l k : nat, In (l, k) ord <-> (k <= l <= L0)%nat).
Context (DATES : Forall (fun e => epoch_time e = moment (fst (fst e)) (snd (fst e))) es).
Lemma last_keys : map key (match rev es with e :: _ => snd e | [] => [] end) = ord.
Proof.
  destruct (rev es) as [|e l] eqn:E. - exfalso. apply NE. apply (f_equal (@rev _)) in E. rewrite rev_involutive in E. exact E. - rewrite Forall_forall in KEYS. apply KEYS. apply (proj2 (in_rev es e)). rewrite E. now left.
Qed.
Lemma scatter_col (proj : nat * nat * R * R -> R) (prj2 : R * R -> R) : (forall cs l m, In (l, m) (map key cs) -> prj2 (listed cs l m) = proj (nth (place (l, m) (map key cs)) cs nocoef)) -> prj2 (0%R, 0%R) = 0%R ->
  exists b, scatter (f_l (series grace L0 (n_coefs L0) es)) (f_m (series grace L0 (n_coefs L0) es))
      (map (fun k => fun t => proj (nth k (snd (nth t es (0, 0, 0, 0, []))) nocoef)) (seq 0 (n_coefs L0))) (full (L0 + 1) (L0 + 1) (Some (List.length es)) 0%R) = Ok b /\
    same_shape b (full (L0 + 1) (L0 + 1) (Some (List.length es)) 0%R) /\
    forall l m t, (t < List.length es)%nat -> get b l m t = prj2 (listed (snd (nth t es (0, 0, 0, 0, []))) l m).
Proof.
  intros P1 P2. pose proof last_keys as LK. set (last_set := match rev es with e :: _ => snd e | [] => [] end) in *. pose proof (triangle_length ord L0 ND TRI) as LEN.
  set (F := fun k => fun t => proj (nth k (snd (nth t es (0, 0, 0, 0, []))) nocoef)).
  assert (EL : List.length last_set = n_coefs L0) by (rewrite <- LEN, <- LK, map_length; reflexivity).
  assert (EL1 : f_l (series grace L0 (n_coefs L0) es) = map fst ord).
  { unfold series. cbn [f_l]. fold last_set. rewrite <- EL, <- (map_map (fun k => nth k last_set nocoef) deg_of), nth_seq, <- LK, map_map. reflexivity. }
  assert (EM1 : f_m (series grace L0 (n_coefs L0) es) = map snd ord).
  { unfold series. cbn [f_m]. fold last_set. rewrite <- EL, <- (map_map (fun k => nth k last_set nocoef) ord_of), nth_seq, <- LK, map_map. reflexivity. }
  rewrite EL1, EM1, <- LEN, <- (place_map ord ND), map_map.
  destruct (scatter_ok ord (fun p => F (place p ord)) (full (L0 + 1) (L0 + 1) (Some (List.length es)) 0%R)) as (b & E & SS & V); auto.
  { intros l m I. apply TRI in I. cbn [full rows cols]. lia. }
  exists b. split; [exact E|]. split; [exact SS|]. intros l m t T. destruct (V l m t) as [V1 V2]. assert (KT : map key (snd (nth t es (0, 0, 0, 0, []))) = ord). { rewrite Forall_forall in KEYS. apply KEYS. now apply nth_In. }
  assert (DEC : forall a b : nat * nat, {a = b} + {a <> b}) by (decide equality; apply Nat.eq_dec). destruct (in_dec DEC (l, m) ord) as [I|N].
  - rewrite (V1 I). unfold F. rewrite P1 by (rewrite KT; auto). rewrite KT. reflexivity.
  - rewrite (V2 N). rewrite listed_none by (rewrite KT; auto). symmetry. exact P2.
Qed.
Lemma mean_ok : exists h, monthly_mean grace L0 (n_coefs L0) LMAX gm es = Ok h /\ is_mean LMAX gm es h.
Proof.
  destruct (scatter_col (fun c => snd (fst c)) fst) as (c & Ec & Sc & Vc); [intros cs l m I; rewrite listed_place by auto; reflexivity|reflexivity|].
  destruct (scatter_col snd snd) as (s & Es & Ss & Vs); [intros cs l m I; rewrite listed_place by auto; reflexivity|reflexivity|].
  unfold monthly_mean, expand. change (f_lmax (series grace L0 (n_coefs L0) es)) with L0. change (f_mmax (series grace L0 (n_coefs L0) es)) with L0. change (f_depth (series grace L0 (n_coefs L0) es)) with (Some (List.length es)).
  change (f_clm (series grace L0 (n_coefs L0) es)) with (map (fun k => fun t => snd (fst (nth k (snd (nth t es (0, 0, 0, 0, []))) nocoef))) (seq 0 (n_coefs L0))).
  change (f_slm (series grace L0 (n_coefs L0) es)) with (map (fun k => fun t => snd (nth k (snd (nth t es (0, 0, 0, 0, []))) nocoef)) (seq 0 (n_coefs L0))).
  rewrite Ec. cbn [bind]. rewrite Es. cbn [bind]. set (y := mkharm L0 L0 c s _ _).
  change (truncate y (Some LMAX) 0 None) with (truncate y (Some LMAX) 0 (Some LMAX)). destruct (truncate_spec y LMAX 0 LMAX LM) as (T1 & T2 & _ & _ & T3).
  set (tr := truncate y (Some LMAX) 0 (Some LMAX)) in *. destruct (T3 clm (or_introl eq_refl)) as (_ & _ & TD & TC). destruct (T3 slm (or_intror eq_refl)) as (_ & _ & _ & TS).
  unfold mean. rewrite TD. change (depth (clm y)) with (depth c). destruct Sc as (SC1 & SC2 & SC3). rewrite SC3. cbn [full depth].
  assert (FB : forallb (fun i => (i <? List.length es)%nat) (seq 0 (List.length es)) = true) by (apply forallb_forall; intros i I; apply in_seq in I; apply Nat.ltb_lt; lia).
  rewrite FB. cbn [negb]. rewrite seq_length. destruct (Nat.eqb_spec (List.length es) 0) as [Z0|_]; [exfalso; apply NE; now apply length_zero_iff_nil|]. cbn [bind].
  eexists. split; [reflexivity|]. rewrite T1, T2. unfold is_mean. cbn [lmax mmax month time clm slm]. split; [auto|]. split; [auto|]. split; [auto|]. split.
  { f_equal. rewrite Rmean_average. f_equal. apply map_ext_in. intros e I. rewrite Forall_forall in DATES. now apply DATES. }
  destruct (mean_arr_spec LMAX LMAX (clm tr) (seq 0 (List.length es))) as [MS1 MV1]. destruct (mean_arr_spec LMAX LMAX (slm tr) (seq 0 (List.length es))) as [MS2 MV2].
  split; [exact MS1|]. split; [exact MS2|]. intros l m LE. rewrite MV1, MV2. replace ((m <=? l) && (l <=? LMAX) && (m <=? LMAX))%nat%bool with true by lia. rewrite !Rmean_average.
  assert (AUX : forall (prj2 : R * R -> R) (a b : arr R), (forall t, (t < List.length es)%nat -> get b l m t = prj2 (listed (snd (nth t es (0, 0, 0, 0, []))) l m)) -> prj2 (0%R, 0%R) = 0%R ->
    (forall t, get a l m t = if ((0 <=? l) && (l <=? L0) && (m <=? L0))%nat%bool then get b l m t else 0%R) -> map (get a l m) (seq 0 (List.length es)) = map (fun e => prj2 (listed (snd e) l m)) es).
  { intros prj2 a b HB P2 HA. rewrite <- (nth_seq es (0, 0, 0, 0, [])) at 2. rewrite map_map. apply map_ext_in. intros t I. apply in_seq in I. rewrite HA.
    destruct ((0 <=? l) && (l <=? L0) && (m <=? L0))%nat%bool eqn:C; [apply HB; lia|]. rewrite listed_none; [now symmetry|]. assert (KT : map key (snd (nth t es (0, 0, 0, 0, []))) = ord). { rewrite Forall_forall in KEYS. apply KEYS. apply nth_In. lia. }
    rewrite KT, TRI. lia. }
  split; [rewrite (AUX fst (clm tr) c)|rewrite Rmean_average, (AUX snd (slm tr) s)]; try reflexivity; auto; intros t; [rewrite TC by lia|rewrite TS by lia]; reflexivity.
Qed.
End Mean.

(** ** Proofs: a month *)
Lemma name_eqb_eq a b : name_eqb a b = true <-> a = b.
Proof.
  destruct a as [a1 a2 a3 a4 a5|l m], b as [b1 b2 b3 b4 b5|l' m']; cbn [name_eqb]; try (split; discriminate); rewrite !andb_true_iff, ?Z.eqb_eq, ?Nat.eqb_eq, ?Bool.eqb_true_iff.
  - split; [intros ((((-> & ->) & ->) & ->) & ->); auto|]. intros [= -> -> -> -> ->]. auto.
  - split; [intros (-> & ->); auto|]. intros [= -> ->]. auto.
Qed.
Lemma put_same f n x : put f n x n = Some x.
Proof. unfold put. assert (E : name_eqb n n = true) by now apply name_eqb_eq. now rewrite E. Qed.
Lemma put_other f n x k : k <> n -> put f n x k = f k.
Proof. intros N. unfold put. destruct (name_eqb k n) eqn:E; auto. apply name_eqb_eq in E. contradiction. Qed.
Lemma jan_mono y y' : y < y' -> gday (mkdate y 1 1) + 365 <= gday (mkdate y' 1 1).
Proof. intros H. unfold gday, before_month. cbn [dy dm dd]. change (2 <? 1) with false. cbn [andb]. lia. Qed.
Lemma day_year r x : row_ok r -> valid_greg x -> first_day r <= gday x <= last_day r -> st_yr r <= dy x <= end_yr r.
Proof.
  intros (Y1 & Y2 & YY & D1 & D2 & FL) V G. unfold first_day, last_day in G. pose proof (doy_range x V) as DR. unfold year_start, year_len in *.
  split; apply Z.nlt_ge; intros C.
  - unfold year_start in *. destruct (Z.eq_dec (dy x + 1) (st_yr r)) as [E|N]; [rewrite E in DR; lia|]. pose proof (jan_mono (dy x + 1) (st_yr r) ltac:(lia)). lia.
  - unfold year_start in *. destruct (Z.eq_dec (dy x) (end_yr r + 1)) as [E|N]; [rewrite E in DR; lia|]. pose proof (jan_mono (end_yr r + 1) (dy x) ltac:(lia)). lia.
Qed.
Definition due_b (clobber : bool) (old : option (harm * R)) (ms : list member) : bool :=
  ((match old with Some (_, t) => existsb (fun m => if Rlt_dec t (IZR (m_mtime m)) then true else false) ms | None => true end) || clobber)%bool.
Lemma due_b_ok clobber old ms : due_b clobber old ms = true <-> due clobber old ms.
Proof.
  unfold due_b, due. destruct old as [[h t]|]; [|split; auto]. rewrite orb_true_iff, existsb_exists. split.
  - intros [(m & I & C)|C]; auto. right. exists m. split; auto. destruct (Rlt_dec _ _); auto. discriminate.
  - intros [C|(m & I & C)]; auto. left. exists m. split; auto. destruct (Rlt_dec _ _); auto.
Qed.
Section Month.
Context (grace : R -> Z) (clock : row -> R) (product : string) (nt L0 LMAX : nat) (shm clobber : bool) (archives : list archive) (sets : member -> list (Z * list (nat * nat * R * R))).
Context (LM : LMAX <> 0%nat) (NT : nt <> 0%nat) (FI : filed archives).
Definition month_data (ds : list date) : Prop := exists ord, forall m, In m (members archives ds) -> readable product nt L0 ord m (sets m).
Lemma month_lacking f r ds : row_ok r -> days_of r ds -> lacking archives ds -> one_month grace clock product nt L0 LMAX shm clobber archives f r = (f, false, Done).
Proof.
  intros RO DS LK. destruct (C106_days r RO) as (JD & ds' & E & EY & DS' & _). rewrite (days_sorted_unique _ _ r RO DS' DS) in EY. unfold one_month. rewrite E. cbv zeta. rewrite EY, (members_ok ds archives FI).
  assert (EL : List.length JD = List.length ds) by (rewrite <- (map_length ymd JD), EY, map_length; reflexivity). rewrite EL. unfold lacking in LK.
  replace (List.length ds <? List.length (members archives ds))%nat with false by (symmetry; apply Nat.ltb_ge; lia). replace (List.length (members archives ds) =? List.length ds)%nat with false by (symmetry; apply Nat.eqb_neq; lia). reflexivity.
Qed.
Lemma month_counted f r ds : row_ok r -> days_of r ds -> List.length (members archives ds) = List.length ds -> (due clobber (f (out_name shm LMAX r)) (members archives ds) -> month_data ds) ->
  (due clobber (f (out_name shm LMAX r)) (members archives ds) -> exists h, one_month grace clock product nt L0 LMAX shm clobber archives f r = (put f (out_name shm LMAX r) (h, clock r), true, Done) /\ is_mean LMAX (g_month r) (epochs sets (members archives ds)) h) /\
  (~ due clobber (f (out_name shm LMAX r)) (members archives ds) -> one_month grace clock product nt L0 LMAX shm clobber archives f r = (f, true, Done)).
Proof.
  intros RO DS EM MD. destruct (C106_days r RO) as (JD & ds' & E & EY & DS' & LEN). rewrite (days_sorted_unique _ _ r RO DS' DS) in EY, LEN. unfold one_month. rewrite E. cbv zeta. rewrite EY, (members_ok ds archives FI).
  assert (EL : List.length JD = List.length ds) by (rewrite <- (map_length ymd JD), EY, map_length; reflexivity). rewrite EL.
  rewrite EM, Nat.ltb_irrefl, Nat.eqb_refl. cbn [andb].
  change (match f (out_name shm LMAX r) with Some (_, t) => existsb (fun m => if Rlt_dec t (IZR (m_mtime m)) then true else false) (members archives ds) | None => true end || clobber)%bool with (due_b clobber (f (out_name shm LMAX r)) (members archives ds)).
  pose proof (due_b_ok clobber (f (out_name shm LMAX r)) (members archives ds)) as DB. destruct (due_b _ _ _); split; intros D; try (exfalso; intuition discriminate); [|reflexivity].
  destruct (MD D) as (ord & RD). assert (MNE : members archives ds <> []). { intros X. rewrite X in EM. cbn in EM. destruct RO as (_ & _ & _ & _ & _ & FL). lia. }
  destruct (members archives ds) as [|m0 ms0] eqn:MS; [contradiction|]. rewrite <- MS in *. assert (IM0 : In m0 (members archives ds)) by (rewrite MS; now left).
  destruct (RD m0 IM0) as (_ & _ & _ & NDO & TRI). pose proof (triangle_length ord L0 NDO TRI) as LO.
  rewrite (read_all product (n_coefs L0) nt sets).
  2:{ intros m I. destruct (RD m I) as (A & B & C & _). split; [auto|]. split; [auto|]. eapply Forall_impl; [|exact C]. cbv beta. intros e K. rewrite <- LO, <- K, map_length. reflexivity. }
  destruct (mean_ok grace L0 LMAX (g_month r) ord (epochs sets (members archives ds))) as (h & EH & IH); auto.
  - rewrite MS. cbn [epochs flat_map]. destruct (RD m0 IM0) as (_ & B & _). destruct (sets m0); [cbn in B; congruence|]. discriminate.
  - apply Forall_forall. intros e I. unfold epochs in I. apply in_flat_map in I. destruct I as (m & Im & I). apply in_map_iff in I. destruct I as (x & <- & I). cbn [snd]. destruct (RD m Im) as (_ & _ & C & _). rewrite Forall_forall in C. now apply C.
  - apply Forall_forall. intros e I. unfold epochs in I. apply in_flat_map in I. destruct I as (m & Im & I). apply in_map_iff in I. destruct I as (x & <- & I). cbn [fst snd].
    unfold members in Im. apply filter_In in Im. destruct Im as [_ Im]. apply dated_in in Im. apply in_map_iff in Im. destruct Im as (d & ED & Id). apply (proj2 DS) in Id. destruct Id as [Vd Gd]. pose proof (day_year r d RO Vd Gd) as YR. destruct RO as (Y1 & Y2 & _).
    apply epoch_moment; rewrite <- ED; unfold triple; cbn [fst snd]; [lia|]. destruct d as [a b c]. exact Vd.
  - exists h. rewrite EH. split; auto.
Qed.
Lemma month_good f r ds : row_ok r -> days_of r ds -> complete archives ds -> (due clobber (f (out_name shm LMAX r)) (members archives ds) -> month_data ds) ->
  (due clobber (f (out_name shm LMAX r)) (members archives ds) -> exists h, one_month grace clock product nt L0 LMAX shm clobber archives f r = (put f (out_name shm LMAX r) (h, clock r), true, Done) /\ is_mean LMAX (g_month r) (epochs sets (members archives ds)) h) /\
  (~ due clobber (f (out_name shm LMAX r)) (members archives ds) -> one_month grace clock product nt L0 LMAX shm clobber archives f r = (f, true, Done)).
Proof. intros RO DS CP. apply month_counted; auto. rewrite <- (map_length m_date), (Permutation_length CP), map_length. reflexivity. Qed.
End Month.

(** ** The program *)
Lemma products_ok DSET product : In (DSET, product) products -> product_of DSET = Ok product.
Proof. intros H. repeat (destruct H as [H|H]; [injection H as <- <-; reflexivity|]). destruct H. Qed.
Lemma releases_ok DREL x : In (DREL, x) releases -> release DREL = Ok x.
Proof. intros H. repeat (destruct H as [H|H]; [injection H as <- <-; reflexivity|]). destruct H. Qed.
Lemma file_name_ok shm L r : out_name shm L r = file_name shm L r.
Proof. unfold out_name, file_name. destruct shm; [|reflexivity]. f_equal. destruct (Z.leb_spec (g_month r) 186), (Z_le_dec (g_month r) 186); try reflexivity; lia. Qed.
Definition rounded (r : row) : row := mkrow (single (t_dec r)) (g_month r) (st_yr r) (st_day r) (end_yr r) (end_day r) (total r).
Lemma all_ok grace clock product nt L0 LMAX shm clobber archives sets (good : row -> bool) (days : row -> list date) : LMAX <> 0%nat -> nt <> 0%nat -> filed archives ->
  forall (rows : list row) (f : files), NoDup (map (out_name shm LMAX) rows) ->
  (forall r, In r rows -> row_ok r /\ days_of r (days r) /\
     if good r then complete archives (days r) /\ (due clobber (f (out_name shm LMAX r)) (members archives (days r)) -> exists ord, forall m, In m (members archives (days r)) -> readable product nt L0 ord m (sets m)) else lacking archives (days r)) ->
  exists f', all_months grace clock product nt L0 LMAX shm clobber archives f rows = (f', map rounded (filter good rows), Done) /\
    (forall r, In r rows -> good r = true -> due clobber (f (out_name shm LMAX r)) (members archives (days r)) ->
      exists h, f' (out_name shm LMAX r) = Some (h, clock r) /\ is_mean LMAX (g_month r) (epochs sets (members archives (days r))) h) /\
    (forall n, (forall r, In r rows -> good r = true -> due clobber (f (out_name shm LMAX r)) (members archives (days r)) -> n <> out_name shm LMAX r) -> f' n = f n).
Proof.
  intros LM NT FI. induction rows as [|r rows IH]; intros f ND H.
  - exists f. split; [reflexivity|]. split; [intros r []|auto].
  - cbn [map] in ND. inversion ND as [|? ? NI ND']; subst. destruct (H r (or_introl eq_refl)) as (RO & DS & G).
    assert (STEP : exists f1, one_month grace clock product nt L0 LMAX shm clobber archives f r = (f1, good r, Done) /\ (forall n, n <> out_name shm LMAX r -> f1 n = f n) /\
      (good r = true -> due clobber (f (out_name shm LMAX r)) (members archives (days r)) -> exists h, f1 (out_name shm LMAX r) = Some (h, clock r) /\ is_mean LMAX (g_month r) (epochs sets (members archives (days r))) h) /\
      (~ (good r = true /\ due clobber (f (out_name shm LMAX r)) (members archives (days r))) -> forall n, f1 n = f n)).
    { destruct (good r).
      - destruct G as [CP MD]. destruct (month_good grace clock product nt L0 LMAX shm clobber archives sets LM NT FI f r (days r) RO DS CP MD) as [A B].
        destruct (due_b clobber (f (out_name shm LMAX r)) (members archives (days r))) eqn:DB.
        + apply due_b_ok in DB. destruct (A DB) as (h & E & M). eexists. split; [exact E|]. split; [intros; now apply put_other|]. split; [intros _ _; exists h; split; [apply put_same|auto]|]. intros X. exfalso. auto.
        + assert (ND2 : ~ due clobber (f (out_name shm LMAX r)) (members archives (days r))) by (rewrite <- due_b_ok, DB; discriminate). exists f. split; [now apply B|]. split; [auto|]. split; [contradiction|auto].
      - exists f. split; [eapply month_lacking; eauto|]. split; [auto|]. split; [discriminate|auto]. }
    destruct STEP as (f1 & E1 & OTH & WR & KEEP).
    assert (NE : forall r', In r' rows -> out_name shm LMAX r' <> out_name shm LMAX r) by (intros r' I X; apply NI; rewrite <- X; now apply in_map).
    destruct (IH f1 ND') as (f' & E2 & WR2 & KEEP2).
    { intros r' I. destruct (H r' (or_intror I)) as (A & B & C). split; [auto|]. split; [auto|]. rewrite OTH by auto. exact C. }
    exists f'. cbn [all_months]. rewrite E1. cbn beta iota. rewrite E2. split; [cbn [filter]; destruct (good r); reflexivity|]. split.
    + intros r' [<-|I] GR D.
      * assert (FK : f' (out_name shm LMAX r) = f1 (out_name shm LMAX r)). { apply KEEP2. intros r' I' _ _ X. now apply (NE r' I'). } rewrite FK. auto.
      * apply WR2; auto. rewrite OTH by auto. exact D.
    + intros n HN. rewrite KEEP2; [|intros r' I' GR D; apply HN; auto; [now right|rewrite OTH in D by auto; exact D]].
      destruct (due_b clobber (f (out_name shm LMAX r)) (members archives (days r))) eqn:DB; [apply due_b_ok in DB|apply KEEP; intros [_ D]; apply due_b_ok in D; congruence].
      destruct (good r) eqn:GR; [|apply KEEP; intros [X _]; discriminate]. apply OTH. apply HN; auto. now left.
Qed.
(** The whole program: months whose days all have a member are listed; those due are written as the mean over all epochs of all days; every other file is left alone *)
Lemma run_ok_names : forall grace clock DREL DSET product nt L0 LMAX shm clobber archives (rows : list row) (f : files) sets (good : row -> bool) (days : row -> list date),
  product_of DSET = Ok product -> release DREL = Ok (nt, L0) ->
  let L := if (LMAX =? 0)%nat then L0 else LMAX in
  List.length rows <> 1%nat -> filed archives -> NoDup (map (out_name shm L) rows) ->
  (forall r, In r rows -> row_ok r /\ days_of r (days r) /\
     if good r then complete archives (days r) /\ (due clobber (f (out_name shm L r)) (members archives (days r)) -> exists ord, forall m, In m (members archives (days r)) -> readable product nt L0 ord m (sets m)) else lacking archives (days r)) ->
  exists f', dealiasing_monthly_mean grace clock DREL DSET LMAX shm clobber archives rows f = (f', Some (map rounded (filter good rows)), Done) /\
    (forall r, In r rows -> good r = true -> due clobber (f (out_name shm L r)) (members archives (days r)) ->
      exists h, f' (out_name shm L r) = Some (h, clock r) /\ is_mean L (g_month r) (epochs sets (members archives (days r))) h) /\
    (forall n, (forall r, In r rows -> good r = true -> due clobber (f (out_name shm L r)) (members archives (days r)) -> n <> out_name shm L r) -> f' n = f n).
Proof.
  intros grace clock DREL DSET product nt L0 LMAX shm clobber archives rows f sets good days EP ER L NL FI ND H. unfold dealiasing_monthly_mean. rewrite EP, ER.
  assert (RL : nt <> 0%nat /\ L0 <> 0%nat). { unfold release in ER. destruct (existsb _ _); [injection ER as <- <-; split; discriminate|]. destruct (String.eqb _ _); [|discriminate]. injection ER as <- <-. split; discriminate. }
  assert (LN : L <> 0%nat). { unfold L. destruct (Nat.eqb_spec LMAX 0); tauto. }
  destruct (all_ok grace clock product nt L0 L shm clobber archives sets good days LN (proj1 RL) FI rows f ND H) as (f' & E & A & B). exists f'. split; [|split; auto].
  cbv zeta. fold L. destruct rows as [|r [|r' rows]]; [|exfalso; now apply NL|]; rewrite E; reflexivity.
Qed.
Theorem C106_run : forall grace clock DREL DSET product nt L0 LMAX shm clobber archives (rows : list row) (f : files) sets (good : row -> bool) (days : row -> list date),
  In (DSET, product) products -> In (DREL, (nt, L0)) releases ->
  let L := if (LMAX =? 0)%nat then L0 else LMAX in
  List.length rows <> 1%nat -> filed archives -> NoDup (map (file_name shm L) rows) ->
  (forall r, In r rows -> row_ok r /\ days_of r (days r) /\
     if good r then complete archives (days r) /\ (due clobber (f (file_name shm L r)) (members archives (days r)) -> exists ord, forall m, In m (members archives (days r)) -> readable product nt L0 ord m (sets m)) else lacking archives (days r)) ->
  exists f', dealiasing_monthly_mean grace clock DREL DSET LMAX shm clobber archives rows f = (f', Some (map rounded (filter good rows)), Done) /\
    (forall r, In r rows -> good r = true -> due clobber (f (file_name shm L r)) (members archives (days r)) ->
      exists h, f' (file_name shm L r) = Some (h, clock r) /\ is_mean L (g_month r) (epochs sets (members archives (days r))) h) /\
    (forall n, (forall r, In r rows -> good r = true -> due clobber (f (file_name shm L r)) (members archives (days r)) -> n <> file_name shm L r) -> f' n = f n).
Proof.
  intros grace clock DREL DSET product nt L0 LMAX shm clobber archives rows f sets good days EP ER L NL FI ND H.
  assert (EN : forall r, out_name shm L r = file_name shm L r) by (intros r; apply file_name_ok).
  rewrite <- (map_ext _ _ EN) in ND.
  destruct (run_ok_names grace clock DREL DSET product nt L0 LMAX shm clobber archives rows f sets good days (products_ok _ _ EP) (releases_ok _ _ ER) NL FI ND) as (f' & E & A & B).
  { intros r I. fold L. rewrite EN. apply H; exact I. }
  exists f'. split; [exact E|]. fold L in A, B. split.
  - intros r I G D. specialize (A r I G). rewrite EN in A. apply A; exact D.
  - intros n HN. apply B. intros r I G D. rewrite EN in D |- *. apply HN; assumption.
Qed.
(** Running again writes nothing if the files are not older than the members *)
Theorem C106_second_run : forall grace clock DREL DSET product nt L0 LMAX shm clobber archives (rows : list row) (f : files) sets (good : row -> bool) (days : row -> list date),
  In (DSET, product) products -> In (DREL, (nt, L0)) releases ->
  let L := if (LMAX =? 0)%nat then L0 else LMAX in
  List.length rows <> 1%nat -> filed archives -> NoDup (map (file_name shm L) rows) ->
  (forall r, In r rows -> row_ok r /\ days_of r (days r) /\
     if good r then complete archives (days r) /\ (due clobber (f (file_name shm L r)) (members archives (days r)) -> exists ord, forall m, In m (members archives (days r)) -> readable product nt L0 ord m (sets m)) else lacking archives (days r)) ->
  (forall r m, In r rows -> good r = true -> In m (members archives (days r)) -> (IZR (m_mtime m) <= clock r)%R) ->
  exists f' out, dealiasing_monthly_mean grace clock DREL DSET LMAX shm clobber archives rows f = (f', out, Done) /\
  forall clock2, exists f'', dealiasing_monthly_mean grace clock2 DREL DSET LMAX shm false archives rows f' = (f'', out, Done) /\ forall n, f'' n = f' n.
Proof.
  intros grace clock DREL DSET product nt L0 LMAX shm clobber archives rows f sets good days EP ER L NL FI ND H MT.
  destruct (C106_run grace clock DREL DSET product nt L0 LMAX shm clobber archives rows f sets good days EP ER NL FI ND H) as (f' & E & WR & KEEP).
  exists f', (Some (map rounded (filter good rows))). split; [exact E|]. intros clock2.
  assert (NOT : forall r, In r rows -> good r = true -> ~ due false (f' (file_name shm L r)) (members archives (days r))).
  { intros r I G D. assert (DB := due_b_ok clobber (f (file_name shm L r)) (members archives (days r))). destruct (due_b _ _ _).
    - destruct (WR r I G (proj1 DB eq_refl)) as (h & EF & _). fold L in EF. rewrite EF in D. cbn [due] in D. destruct D as [D|(m & Im & LT)]; [discriminate|]. pose proof (MT r m I G Im). lra.
    - assert (KF : f' (file_name shm L r) = f (file_name shm L r)).
      { apply KEEP. intros r' I' G' D' X. fold L in D', X. assert (r = r').
        { clear - ND I I' X. induction rows as [|r0 rows IH]; [destruct I|]. cbn [map] in ND. inversion ND as [|? ? N1 N2]; subst. destruct I as [<-|I], I' as [<-|I']; auto; exfalso; apply N1; [rewrite X|rewrite <- X]; now apply in_map. }
        subst r'. apply DB in D'. discriminate. }
      rewrite KF in D. assert (D2 : due clobber (f (file_name shm L r)) (members archives (days r))) by (unfold due in *; destruct (f (file_name shm L r)) as [[h t]|]; auto; destruct D; [discriminate|auto]). apply DB in D2. discriminate. }
  destruct (C106_run grace clock2 DREL DSET product nt L0 LMAX shm false archives rows f' sets good days EP ER NL FI ND) as (f'' & E2 & _ & KEEP2).
  { intros r I. fold L. destruct (H r I) as (A & B & C). split; [auto|]. split; [auto|]. destruct (good r) eqn:G; [|auto]. destruct C as [C _]. split; [auto|]. intros D. exfalso. now apply (NOT r I G). }
  exists f''. split; [exact E2|]. intros n. apply KEEP2. intros r I G D. exfalso. fold L in D. now apply (NOT r I G).
Qed.

(** ** Date of a monthly mean *)
Lemma sum_app l k : fold_right Rplus 0%R (l ++ k) = (fold_right Rplus 0 l + fold_right Rplus 0 k)%R.
Proof. induction l as [|x l IH]; cbn [fold_right app]; [lra|]. rewrite IH. lra. Qed.
Lemma sum_perm l k : Permutation l k -> fold_right Rplus 0%R l = fold_right Rplus 0%R k.
Proof. induction 1; cbn [fold_right]; lra. Qed.
Lemma sum_affine {A} (g : A -> R) (a b : R) l : fold_right Rplus 0%R (map (fun x => (a * g x + b)%R) l) = (a * fold_right Rplus 0 (map g l) + b * INR (List.length l))%R.
Proof. induction l as [|x l IH]; [cbn; lra|]. cbn [map fold_right List.length]. rewrite IH, S_INR. lra. Qed.
Lemma sum_range n : forall a, fold_right Rplus 0%R (map IZR (range a (a + Z.of_nat n))) = (INR n * (2 * IZR a + INR n - 1) / 2)%R.
Proof.
  induction n as [|n IH]; intros a; [rewrite range_nil by lia; cbn; lra|]. rewrite range_cons by lia. cbn [map fold_right]. replace (a + Z.of_nat (S n)) with (a + 1 + Z.of_nat n) by lia. rewrite IH, S_INR, plus_IZR. field.
Qed.
Lemma sum_seq n : fold_right Rplus 0%R (map INR (seq 0 n)) = (INR n * (INR n - 1) / 2)%R.
Proof. induction n as [|n IH]; [cbn; lra|]. rewrite seq_S, map_app, sum_app, IH. cbn [map fold_right]. rewrite Nat.add_0_l, S_INR. field. Qed.
(** The time of the mean is the middle of the epochs: (nt - 1) / (2 nt) days after the middle of the first and last midnight, and so (nt + 1) / (2 nt) days before the mid-date
    of the GRACE month (C12) *)
Theorem C106_time : forall r archives ds sets nt, row_ok r -> st_yr r = end_yr r -> days_of r ds -> complete archives ds -> (nt <> 0)%nat ->
  (forall m, In m (members archives ds) -> map (fun e => IZR (fst e)) (sets m) = map (fun k => (24 * INR k / INR nt)%R) (seq 0 nt)) ->
  let t := average (map (fun e => moment (fst (fst e)) (snd (fst e))) (epochs sets (members archives ds))) in
  let len := IZR (year_len (st_yr r)) in
  let jan := IZR (gday (mkdate (st_yr r) 1 1)) in
  t = (IZR (st_yr r) + ((IZR (first_day r) + IZR (last_day r)) / 2 - jan + (INR nt - 1) / (2 * INR nt)) / len)%R /\
  t = (IZR (st_yr r) + ((IZR (first_day r) + IZR (last_day r)) / 2 - jan + 1) / len - (INR nt + 1) / (2 * INR nt) / len)%R.
Proof.
  intros r archives ds sets nt RO SY DS CP NT HR t len jan.
  assert (NTR : INR nt <> 0%R) by now apply not_0_INR. assert (LEN : len <> 0%R) by (unfold len; apply IZR_neq; pose proof (year_len_pos (st_yr r)); lia).
  assert (MAIN : t = (IZR (st_yr r) + ((IZR (first_day r) + IZR (last_day r)) / 2 - jan + (INR nt - 1) / (2 * INR nt)) / len)%R).
  { unfold t, average. set (ms := members archives ds) in *. set (dn := fun x : Z * Z * Z => IZR (gday (mkdate (fst (fst x)) (snd (fst x)) (snd x)))).
    assert (IMS : forall m, In m ms -> exists d, In d ds /\ m_date m = triple d). { intros m I. unfold ms, members in I. apply filter_In in I. destruct I as [_ I]. apply dated_in in I. apply in_map_iff in I. destruct I as (d & A & B). eauto. }
    assert (YD : forall d, In d ds -> dy d = st_yr r). { intros d I. apply (proj2 DS) in I. destruct I as [V G]. pose proof (day_year r d RO V G). lia. }
    set (g := fun m => (fold_right Rplus 0 (map (fun e => moment (m_date m) (fst e)) (sets m)))%R).
    assert (GM : forall m, In m ms -> g m = (INR nt / len * dn (m_date m) + INR nt * (IZR (st_yr r) + ((INR nt - 1) / (2 * INR nt) - jan) / len))%R).
    { intros m I. destruct (IMS m I) as (d & Id & ED). unfold g. rewrite ED. unfold triple. rewrite (YD d Id). unfold moment, dn. cbn [fst snd]. rewrite minus_IZR. fold len jan. set (x := IZR (gday (mkdate (st_yr r) (dm d) (dd d)))).
      assert (MH : map (fun e : Z * list (nat * nat * R * R) => (IZR (st_yr r) + (x - jan + IZR (fst e) / 24) / len)%R) (sets m) = map (fun k => (/ (INR nt * len) * INR k + (IZR (st_yr r) + (x - jan) / len))%R) (seq 0 nt)).
      { transitivity (map (fun h => (IZR (st_yr r) + (x - jan + h / 24) / len)%R) (map (fun e => IZR (fst e)) (sets m))); [rewrite map_map; reflexivity|]. rewrite (HR m I), map_map. apply map_ext. intros k. field. auto. }
      rewrite MH, sum_affine, sum_seq, seq_length. field. auto. }
    assert (SUM : fold_right Rplus 0%R (map (fun e => moment (fst (fst e)) (snd (fst e))) (epochs sets ms)) = fold_right Rplus 0%R (map g ms)).
    { clear. induction ms as [|m ms IH]; [reflexivity|]. cbn [epochs flat_map map fold_right]. rewrite map_app, sum_app, map_map. unfold epochs in IH. rewrite IH. reflexivity. }
    assert (LN : INR (List.length (map (fun e => moment (fst (fst e)) (snd (fst e))) (epochs sets ms))) = (INR nt * INR (List.length ms))%R).
    { rewrite map_length, <- mult_INR. f_equal. assert (LS : forall m, In m ms -> List.length (sets m) = nt). { intros m I. rewrite <- (map_length (fun e => IZR (fst e)) (sets m)), (HR m I), map_length, seq_length. reflexivity. }
      clear - LS. induction ms as [|m ms IH]; [cbn; lia|]. cbn [epochs flat_map List.length]. rewrite app_length, map_length, (LS m (or_introl eq_refl)). unfold epochs in IH. rewrite IH by (intros m' I; apply LS; now right). lia. }
    rewrite SUM, LN, (map_ext_in _ _ ms GM). rewrite (sum_affine (fun m => dn (m_date m))).
    destruct (C106_days r RO) as (_ & ds' & _ & _ & DS' & LD). rewrite (days_sorted_unique _ _ r RO DS' DS) in LD. clear ds' DS'.
    assert (LMS : List.length ms = List.length ds) by (unfold ms; rewrite <- (map_length m_date), (Permutation_length CP), map_length; reflexivity).
    assert (SD : fold_right Rplus 0%R (map (fun m => dn (m_date m)) ms) = (INR (List.length ds) * (IZR (first_day r) + IZR (last_day r)) / 2)%R).
    { unfold ms. rewrite <- (map_map m_date dn). rewrite (sum_perm _ _ (Permutation_map dn CP)), map_map.
      assert (EG : map gday ds = range (first_day r) (last_day r + 1)).
      { assert (SR := proj1 DS). assert (IFF := proj2 DS).
        assert (S1 : StronglySorted Z.lt (map gday ds)). { clear - SR. induction SR as [|x l S1 IH F]; cbn [map]; constructor; auto. rewrite Forall_forall in F |- *. intros y I. apply in_map_iff in I. destruct I as (z & <- & I). auto. }
        assert (S2 : StronglySorted Z.lt (range (first_day r) (last_day r + 1))). { clear. remember (Z.to_nat (last_day r + 1 - first_day r)) as n eqn:E. revert E. generalize (first_day r) as a. induction n as [|n IH]; intros a E; [rewrite range_nil by lia; constructor|]. rewrite range_cons by lia. constructor; [apply IH; lia|]. apply Forall_forall. intros y I. apply range_in in I. lia. }
        assert (SAME : forall k, In k (map gday ds) <-> In k (range (first_day r) (last_day r + 1))).
        { destruct (C106_days r RO) as (_ & ds2 & _ & _ & DS2 & LD2). intros k. rewrite range_in. split.
          - intros I. apply in_map_iff in I. destruct I as (z & <- & I). apply IFF in I. lia.
          - intros K. pose proof RO as (Y1 & _ & _ & D1 & _ & _). assert (VJ : valid_greg (mkdate (st_yr r) 1 1)) by (split; cbn [dy dm dd]; [lia|]; change (month_len (greg_leap (st_yr r)) 1) with 31; lia).
            destruct (walk (Z.to_nat (k - gday (mkdate (st_yr r) 1 1))) _ VJ) as (z & Vz & Gz). unfold first_day in K. apply in_map_iff. exists z. split; [lia|]. apply IFF. split; auto. unfold first_day. lia. }
        clear - S1 S2 SAME. revert S1 S2 SAME. generalize (map gday ds) as l1, (range (first_day r) (last_day r + 1)) as l2. intros l1 l2 S1. revert l2. induction S1 as [|x l S1 IH F]; intros l2 S2 IFF.
        - destruct l2 as [|y]; auto. exfalso. apply (IFF y). now left.
        - destruct S2 as [|y l' S2 F']; [exfalso; apply (IFF x); now left|]. rewrite Forall_forall in F, F'.
          assert (XY : x = y). { destruct (proj1 (IFF x) (or_introl eq_refl)) as [->|I]; auto. destruct (proj2 (IFF y) (or_introl eq_refl)) as [->|I']; auto. specialize (F _ I'). specialize (F' _ I). lia. }
          subst y. f_equal. apply IH; auto. intros z. split; intros I.
          + destruct (proj1 (IFF z) (or_intror I)) as [<-|]; auto. specialize (F _ I). lia.
          + destruct (proj2 (IFF z) (or_intror I)) as [<-|]; auto. specialize (F' _ I). lia. }
      transitivity (fold_right Rplus 0%R (map IZR (map gday ds))). { rewrite map_map. reflexivity. }
      rewrite EG. replace (last_day r + 1) with (first_day r + Z.of_nat (List.length ds)) by lia. rewrite sum_range. replace (IZR (last_day r)) with (IZR (first_day r) + INR (List.length ds) - 1)%R. 2:{ rewrite INR_IZR_INZ, LD, plus_IZR, minus_IZR. lra. } field. }
    rewrite SD, LMS. assert (DN : INR (List.length ds) <> 0%R). { apply not_0_INR. destruct RO as (_ & _ & _ & _ & _ & FL). lia. }
    field. auto. }
  split; [exact MAIN|]. rewrite MAIN. field. auto.
Qed.

(** ** The SHM file of a mean, read as a GRACE file *)
Theorem C106_read_back : forall rd head h n p rl04 pt ctr L, (L <= lmax h)%nat -> mmax h = lmax h ->
  exists y, GraceModel.read_grace n p rl04 false pt ctr L L (to_SHM rd head h) = Ok y /\ GraceModel.y_time y = Q2R (GraceModel.tdec n p) /\
  forall l m, (m <= l <= L)%nat -> GraceModel.y_clm y l m = rd (get (clm h) l m 0) /\ GraceModel.y_slm y l m = rd (get (slm h) l m 0) /\ GraceModel.y_eclm y l m = 0%R /\ GraceModel.y_eslm y l m = 0%R.
Proof.
  intros rd head h n p rl04 pt ctr L LL MM.
  assert (IN : forall x, In x (to_SHM rd head h) <-> (x = GraceModel.Other /\ head <> 0%nat) \/ exists l m, (m <= l <= lmax h)%nat /\ x = GraceModel.Coef l m (rd (get (clm h) l m 0)) (rd (get (slm h) l m 0)) 0%R 0%R).
  { intros x. unfold to_SHM. rewrite in_app_iff, in_flat_map. split.
    - intros [I|(m & Im & I)]; [left|right].
      + split; [now apply repeat_spec in I|]. intros ->. destruct I.
      + apply in_map_iff in I. destruct I as (l & <- & I). apply in_seq in Im, I. exists l, m. split; [lia|reflexivity].
    - intros [[-> H]|(l & m & H & ->)]; [left; destruct head; [contradiction|now left]|]. right. exists m. split; [apply in_seq; lia|]. apply in_map_iff. exists l. split; auto. apply in_seq. lia. }
  assert (ND : GraceModel.drifts L L None (to_SHM rd head h) = Ok None).
  { assert (NDT : forall ls, (forall x, In x ls -> match x with GraceModel.Dota _ _ _ _ => False | _ => True end) -> GraceModel.drifts L L None ls = Ok None).
    { induction ls as [|x ls IH]; intros H; [reflexivity|]. pose proof (H x (or_introl eq_refl)) as HX. destruct x; [| destruct HX |]; cbn [GraceModel.drifts]; apply IH; intros z I; apply H; now right. }
    apply NDT. intros x I. apply IN in I. destruct I as [[-> _]|(l & m & _ & ->)]; exact Logic.I. }
  unfold GraceModel.read_grace. rewrite !andb_false_r. rewrite ND. cbn [bind]. set (y0 := GraceModel.mkylms _ _ _ _ _ _ _).
  eexists. split; [reflexivity|]. destruct (PropGrace.coef_fold_time L L (to_SHM rd head h) y0) as (T & _). split; [rewrite T; reflexivity|].
  intros l m LE. destruct (PropGrace.coef_fold L L (to_SHM rd head h) y0 l m ltac:(lia) ltac:(lia)) as [(v & LC & E)|[NC E]].
  - destruct v as [[[c s] ec] es]. destruct LC as (b & a & EQ & _). assert (I : In (GraceModel.Coef l m c s ec es) (to_SHM rd head h)) by (rewrite EQ; apply in_app_iff; right; now left).
    apply IN in I. destruct I as [[X _]|(l' & m' & _ & X)]; [discriminate|]. injection X as <- <- -> -> -> ->. unfold PropGrace.vals in E. injection E as -> -> -> ->. auto.
  - exfalso. specialize (NC (GraceModel.Coef l m (rd (get (clm h) l m 0)) (rd (get (slm h) l m 0)) 0%R 0%R)). cbn [PropGrace.coef_at] in NC. rewrite !Nat.eqb_refl in NC. enough (true = false) by discriminate. apply NC. apply IN. right. exists l, m. split; [lia|auto].
Qed.

(** ** What is not checked *)
(** lines of a member with the given data sets *)
Definition lines_of (product : string) (es : list (Z * list (nat * nat * R * R))) : list aline :=
  flat_map (fun e => mkaline (Some (product, fst e)) None :: map (fun c => mkaline None (Some c)) (snd e)) es.
Lemma lines_listing product es : listing product es (lines_of product es).
Proof.
  induction es as [|[h cs] es IH]; [constructor|]. cbn [lines_of flat_map fst snd]. fold (lines_of product es).
  replace (map (fun c => mkaline None (Some c)) cs) with (map (fun p => mkaline (fst p) (Some (snd p))) (combine (map (fun _ : nat * nat * R * R => @None (string * Z)) cs) cs)).
  - cbn [app]. apply listing_set; auto. now rewrite map_length.
  - clear. induction cs as [|c cs IH]; [reflexivity|]. cbn [map combine fst snd]. now rewrite IH.
Qed.
(** a field with the same value in all cosine coefficients; a day with it at all epochs *)
Definition flat_field (L0 : nat) (v : R) : list (nat * nat * R * R) := map (fun p => (fst p, snd p, v, 0%R)) (lm_loop L0 L0).
Definition flat_day (nt L0 : nat) (v : R) : list (Z * list (nat * nat * R * R)) := map (fun k => (24 * Z.of_nat k / Z.of_nat nt, flat_field L0 v)) (seq 0 nt).
Lemma flat_readable product nt L0 d t v : readable product nt L0 (lm_loop L0 L0) (mkmember d t (lines_of product (flat_day nt L0 v))) (flat_day nt L0 v).
Proof.
  unfold readable. cbn [m_lines]. split; [apply lines_listing|]. split; [unfold flat_day; now rewrite map_length, seq_length|]. split; [|split; [apply lm_loop_nodup|intros l k; rewrite lm_loop_in; lia]].
  apply Forall_forall. intros e I. unfold flat_day in I. apply in_map_iff in I. destruct I as (k & <- & _). cbn [snd]. unfold flat_field. rewrite map_map. rewrite <- (map_id (lm_loop L0 L0)) at 2. apply map_ext. intros [l m]. reflexivity.
Qed.
Lemma two_days r x : row_ok r -> valid_greg x -> gday x = first_day r -> last_day r = first_day r + 1 -> days_of r [x; next_greg x].
Proof.
  intros RO V G E. pose proof (gday_next x V) as GN. pose proof (next_valid x V) as VN. assert (B : 2299161 <= gday x) by (rewrite G; destruct RO as (Y & _ & _ & D & _); pose proof (year_bound _ Y); unfold first_day; lia).
  split. { constructor; [constructor; [constructor|constructor]|]. constructor; [lia|constructor]. }
  intros z. cbn [In]. split.
  - intros [<-|[<-|[]]]; split; auto; lia.
  - intros [Vz Gz]. destruct (Z.eq_dec (gday z) (gday x)) as [E1|N1]; [left; apply gday_inj; auto|right; left; apply gday_inj; auto; lia].
Qed.
Definition ex_row : row := mkrow (20031 # 10) 13 2003 1 2003 2 2.
Lemma ex_row_ok : row_ok ex_row.
Proof. unfold row_ok, ex_row, first_day, last_day. cbn [st_yr end_yr st_day end_day]. repeat split; try lia; try (left; reflexivity); vm_compute; congruence. Qed.
Lemma ex_row_days : days_of ex_row [mkdate 2003 1 1; mkdate 2003 1 2].
Proof. apply (two_days ex_row (mkdate 2003 1 1)); [apply ex_row_ok|split; cbn; lia|reflexivity|reflexivity]. Qed.
(** Completeness is judged by the number of members: a month without one of its days and with two members of another is listed and written, the mean counting that day twice *)
Theorem C106_counting_refuted : forall grace clock product nt L0 LMAX shm clobber (f : files), LMAX <> 0%nat -> nt <> 0%nat -> f (out_name shm LMAX ex_row) = None ->
  forall a b, exists archives, filed archives /\ (forall m, In m (all_members archives) -> m_date m = (2003, 1, 1)) /\
  exists h, one_month grace clock product nt L0 LMAX shm clobber archives f ex_row = (put f (out_name shm LMAX ex_row) (h, clock ex_row), true, Done) /\
    get (clm h) 0 0 0 = ((a + b) / 2)%R.
Proof.
  intros grace clock product nt L0 LMAX shm clobber f LM NT NF a b. set (ma := mkmember (2003, 1, 1) 1 (lines_of product (flat_day nt L0 a))). set (mb := mkmember (2003, 1, 1) 2 (lines_of product (flat_day nt L0 b))).
  set (sets := fun m => if (m_mtime m =? 1) then flat_day nt L0 a else flat_day nt L0 b). set (ars := [mkarchive (2003, 1) [ma; mb]]). exists ars.
  assert (FI : filed ars) by (intros x m [<-|[]] I; cbn in I; destruct I as [<-|[<-|[]]]; reflexivity). split; [exact FI|]. split; [intros m I; cbn in I; destruct I as [<-|[<-|[]]]; reflexivity|].
  assert (MS : members ars [mkdate 2003 1 1; mkdate 2003 1 2] = [ma; mb]) by reflexivity.
  destruct (month_counted grace clock product nt L0 LMAX shm clobber ars sets LM NT FI f ex_row _ ex_row_ok ex_row_days) as [A _]; [rewrite MS; reflexivity| |].
  - intros _. exists (lm_loop L0 L0). rewrite MS. intros m [<-|[<-|[]]]; apply flat_readable.
  - destruct A as (h & E & IM). { rewrite NF. exact Logic.I. } exists h. split; [exact E|]. destruct IM as (_ & _ & _ & _ & _ & _ & V). destruct (V 0%nat 0%nat ltac:(lia)) as [V1 _]. rewrite V1, MS.
    assert (LF : forall v, fst (listed (flat_field L0 v) 0 0) = v). { intros v. unfold listed, flat_field. destruct (find _ _) as [c|] eqn:FD.
      - apply find_some in FD. destruct FD as [I _]. apply in_map_iff in I. destruct I as (q & <- & _). reflexivity.
      - exfalso. enough (true = false) by discriminate. apply (find_none _ _ FD (0%nat, 0%nat, v, 0%R)). apply in_map_iff. exists (0%nat, 0%nat). split; auto. apply lm_loop_in. lia. }
    assert (SF : forall d v, map (fun e : Z * Z * Z * Z * list (nat * nat * R * R) => fst (listed (snd e) 0 0)) (map (fun x => (d, fst x, snd x)) (flat_day nt L0 v)) = repeat v nt).
    { intros d v. unfold flat_day. rewrite !map_map. cbn [fst snd]. rewrite (map_ext _ (fun _ => v)) by (intros; apply LF). clear. rewrite <- (seq_length nt 0) at 2. induction (seq 0 nt) as [|x l IH]; [reflexivity|]. cbn [map List.length repeat]. now rewrite IH. }
    unfold epochs. cbn [flat_map]. rewrite app_nil_r, map_app. change (sets ma) with (flat_day nt L0 a). change (sets mb) with (flat_day nt L0 b). rewrite !SF. unfold average. rewrite sum_app, app_length, !repeat_length, plus_INR.
    assert (SR : forall v n, fold_right Rplus 0%R (repeat v n) = (INR n * v)%R). { intros v n. induction n as [|n IH]; [cbn; lra|]. cbn [repeat fold_right]. rewrite IH, S_INR. lra. }
    rewrite !SR. pose proof (not_0_INR nt NT). field. lra.
Qed.
(** More members than days (the same day in two versions): IndexError, and neither this month nor the months after it are listed *)
Theorem C106_extra_member_refuted : forall grace clock DREL DSET product nt L0 LMAX shm clobber archives f r r' rest ds, In (DSET, product) products -> In (DREL, (nt, L0)) releases -> row_ok r -> days_of r ds -> filed archives ->
  (List.length ds < List.length (members archives ds))%nat -> dealiasing_monthly_mean grace clock DREL DSET LMAX shm clobber archives (r :: r' :: rest) f = (f, Some [], Raised IndexError).
Proof.
  intros grace clock DREL DSET product nt L0 LMAX shm clobber archives f r r' rest ds EP ER RO DS FI LT. apply products_ok in EP. apply releases_ok in ER. unfold dealiasing_monthly_mean. rewrite EP, ER. cbv zeta. cbn [all_months].
  destruct (C106_days r RO) as (JD & ds' & E & EY & DS' & _). rewrite (days_sorted_unique _ _ r RO DS' DS) in EY. unfold one_month. rewrite E. cbv zeta. rewrite EY, (members_ok ds archives FI).
  assert (EL : List.length JD = List.length ds) by (rewrite <- (map_length ymd JD), EY, map_length; reflexivity). rewrite EL. apply Nat.ltb_lt in LT. rewrite LT. reflexivity.
Qed.
(** A member without a data set of the product: the program does not end *)
Lemma month_endless : forall grace clock product nt L0 LMAX shm clobber archives f r ds m ms, nt <> 0%nat -> row_ok r -> days_of r ds -> filed archives -> members archives ds = m :: ms -> List.length (m :: ms) = List.length ds ->
  f (out_name shm LMAX r) = None -> (forall x h, In x (m_lines m) -> a_head x <> Some (product, h)) ->
  one_month grace clock product nt L0 LMAX shm clobber archives f r = (f, true, Endless).
Proof.
  intros grace clock product nt L0 LMAX shm clobber archives f r ds m ms NT RO DS FI EM LEN NF NH. destruct (C106_days r RO) as (JD & ds' & E & EY & DS' & _). rewrite (days_sorted_unique _ _ r RO DS' DS) in EY. unfold one_month. rewrite E. cbv zeta.
  rewrite EY, (members_ok ds archives FI), EM. assert (EL : List.length JD = List.length ds) by (rewrite <- (map_length ymd JD), EY, map_length; reflexivity). rewrite EL, LEN, Nat.ltb_irrefl, Nat.eqb_refl, NF. cbn [andb orb].
  cbn [read_members]. destruct nt as [|nt]; [contradiction|]. cbn [read_member].
  assert (FH : forall ls, (forall x h, In x ls -> a_head x <> Some (product, h)) -> find_header product ls = None). { induction ls as [|x ls IH]; intros H; [reflexivity|]. rewrite find_skip by (intros h; apply H; now left). apply IH. intros z h I. apply H. now right. }
  rewrite (FH _ NH). reflexivity.
Qed.
Lemma all_app grace clock product nt L0 LMAX shm clobber archives rows1 rest f f1 l1 : all_months grace clock product nt L0 LMAX shm clobber archives f rows1 = (f1, l1, Done) ->
  all_months grace clock product nt L0 LMAX shm clobber archives f (rows1 ++ rest) = let '(f2, l2, o) := all_months grace clock product nt L0 LMAX shm clobber archives f1 rest in (f2, (l1 ++ l2)%list, o).
Proof.
  revert f f1 l1. induction rows1 as [|r rows1 IH]; intros f f1 l1; cbn [all_months app].
  - intros E. injection E as <- <-. destruct (all_months _ _ _ _ _ _ _ _ _ _ rest) as ((f2 & l2) & o). reflexivity.
  - destruct (one_month _ _ _ _ _ _ _ _ _ _ r) as ((g & b) & o). destruct o; [|discriminate|discriminate]. destruct (all_months _ _ _ _ _ _ _ _ _ g rows1) as ((g2 & l2) & o2) eqn:E1. intros E. injection E as <- <- ->. rewrite (IH _ _ _ E1).
    destruct (all_months _ _ _ _ _ _ _ _ _ g2 rest) as ((g3 & l3) & o3). rewrite app_assoc. reflexivity.
Qed.
(** A member without a data set of the product: the program does not end; the months before are done, the date file lists them and this month, whose file is not written *)
Theorem C106_endless_refuted : forall grace clock DREL DSET product nt L0 LMAX shm clobber archives rows1 r rest (f : files) sets (good : row -> bool) (days : row -> list date) m ms,
  In (DSET, product) products -> In (DREL, (nt, L0)) releases ->
  let L := if (LMAX =? 0)%nat then L0 else LMAX in
  List.length (rows1 ++ r :: rest) <> 1%nat -> filed archives -> NoDup (map (file_name shm L) (rows1 ++ [r])) ->
  (forall r, In r rows1 -> row_ok r /\ days_of r (days r) /\
     if good r then complete archives (days r) /\ (due clobber (f (file_name shm L r)) (members archives (days r)) -> exists ord, forall m, In m (members archives (days r)) -> readable product nt L0 ord m (sets m)) else lacking archives (days r)) ->
  row_ok r -> days_of r (days r) -> members archives (days r) = m :: ms -> List.length (m :: ms) = List.length (days r) -> f (file_name shm L r) = None -> (forall x h, In x (m_lines m) -> a_head x <> Some (product, h)) ->
  exists f', dealiasing_monthly_mean grace clock DREL DSET LMAX shm clobber archives (rows1 ++ r :: rest) f = (f', Some (map rounded (filter good rows1) ++ [rounded r])%list, Endless) /\ f' (file_name shm L r) = None.
Proof.
  intros grace clock DREL DSET product nt L0 LMAX shm clobber archives rows1 r rest f sets good days m ms EP ER L NL FI ND H RO DS EM LEN NF NH.
  apply products_ok in EP. assert (RL : nt <> 0%nat /\ L0 <> 0%nat) by (clear - ER; repeat (destruct ER as [E|ER]; [injection E as _ <- <-; split; discriminate|]); destruct ER). apply releases_ok in ER.
  assert (LN : L <> 0%nat) by (unfold L; destruct (Nat.eqb_spec LMAX 0); tauto). assert (EN : forall r, out_name shm L r = file_name shm L r) by (intros x; apply file_name_ok).
  rewrite map_app in ND. cbn [map] in ND. apply NoDup_remove in ND. rewrite app_nil_r in ND. destruct ND as (ND & NI). rewrite <- (map_ext _ _ EN) in ND.
  destruct (all_ok grace clock product nt L0 L shm clobber archives sets good days LN (proj1 RL) FI rows1 f ND) as (f1 & E & A & B). { intros x I. rewrite EN. apply H. exact I. }
  assert (NF1 : f1 (out_name shm L r) = None). { rewrite B; [rewrite EN; exact NF|]. intros x I _ _ X. apply NI. rewrite !EN in X. rewrite X. apply in_map. exact I. }
  exists f1. split; [|rewrite <- EN; exact NF1]. unfold dealiasing_monthly_mean. rewrite EP, ER. cbv zeta. fold L.
  assert (X : forall g : files * option (list row) * outcome, match (rows1 ++ r :: rest)%list with [_] => g | _ => let '(f', l, o) := all_months grace clock product nt L0 L shm clobber archives f (rows1 ++ r :: rest) in (f', Some l, o) end = let '(f', l, o) := all_months grace clock product nt L0 L shm clobber archives f (rows1 ++ r :: rest) in (f', Some l, o)).
  { intros g. destruct (rows1 ++ r :: rest)%list as [|a [|b l]]; [reflexivity|exfalso; apply NL; reflexivity|reflexivity]. }
  rewrite X, (all_app _ _ _ _ _ _ _ _ _ _ _ _ _ _ E). cbn [all_months]. rewrite (month_endless grace clock product nt L0 L shm clobber archives f1 r (days r) m ms (proj1 RL) RO DS FI EM LEN NF1 NH). reflexivity.
Qed.
(** A date file with a single month: TypeError after the new date file was emptied *)
Theorem C106_single_month_refuted : forall grace clock DREL DSET product x LMAX shm clobber archives f r, In (DSET, product) products -> In (DREL, x) releases ->
  dealiasing_monthly_mean grace clock DREL DSET LMAX shm clobber archives [r] f = (f, Some [], Raised TypeError).
Proof. intros grace clock DREL DSET product [nt L0] LMAX shm clobber archives f r EP ER. apply products_ok in EP. apply releases_ok in ER. unfold dealiasing_monthly_mean. now rewrite EP, ER. Qed.
(** In 2099 and 2100 the days are those before *)
Theorem C106_century_refuted : forall y d, 2099 <= y <= 2100 -> (calc_julian_day y d == inject_Z (gday (mkdate y 1 1) + d - 1) - (1 # 2) - 1)%Q.
Proof.
  intros y d H. assert (C : y = 2099 \/ y = 2100) by lia.
  assert (L : forall y, (calc_julian_day y d == calc_julian_day y 0 + inject_Z d)%Q) by (intros z; unfold calc_julian_day; change (inject_Z 0) with 0%Q; ring). rewrite L. replace (gday (mkdate y 1 1) + d - 1) with (gday (mkdate y 1 1) - 1 + d) by lia. rewrite inject_Z_plus.
  assert (K : (calc_julian_day y 0 == inject_Z (gday (mkdate y 1 1) - 1) - (1 # 2) - 1)%Q) by (destruct C as [->| ->]; vm_compute; reflexivity). rewrite K. ring.
Qed.
Lemma Qround_even_bounds (x : Q) : (-(1 # 2) <= inject_Z (Qround_even x) - x <= 1 # 2)%Q.
Proof.
  unfold Qround_even. pose proof (Qfloor_le x) as A. pose proof (Qlt_floor x) as B. rewrite inject_Z_plus in B. change (inject_Z 1) with 1%Q in B.
  destruct (x - inject_Z (Qfloor x) ?= 1 # 2)%Q eqn:C; [apply Qeq_alt in C; destruct (Z.even _)|apply Qlt_alt in C|apply Qgt_alt in C]; rewrite ?inject_Z_plus; change (inject_Z 1) with 1%Q; split; Lqa.lra.
Qed.
(** Mid-dates are listed with single precision: up to half an hour off *)
Theorem C106_precision_refuted : (forall t, (-(1 # 16384) <= single t - t <= 1 # 16384)%Q) /\ ~ (single (20022945 # 10000) == 20022945 # 10000)%Q.
Proof.
  split; [|vm_compute; discriminate]. intros t. pose proof (Qround_even_bounds (8192 * t)) as B. unfold single.
  assert (E : (inject_Z (Qround_even (8192 * t)) / 8192 - t == (inject_Z (Qround_even (8192 * t)) - 8192 * t) / 8192)%Q) by field. rewrite E. clear E. set (z := (inject_Z _ - _)%Q) in *. clearbody z.
  assert (E2 : (z / 8192 == z * (1 # 8192))%Q) by field. rewrite E2. split; Lqa.lra.
Qed.
(** Two days with one member each, and a month with no members: one month written, with the mean of the two days *)
Example C106_example : exists archives (good : row -> bool) days sets, let rows := [ex_row; mkrow (20032 # 10) 14 2003 32 2003 33 2] in
  (filed archives /\ NoDup (map (out_name true 60) rows) /\ (forall r, In r rows -> row_ok r /\ days_of r (days r) /\
     if good r then complete archives (days r) /\ exists ord, forall m, In m (members archives (days r)) -> readable "glo" 8 180 ord m (sets m) else lacking archives (days r))) /\
  map good rows = [true; false].
Proof.
  set (ma := mkmember (2003, 1, 1) 1 (lines_of "glo" (flat_day 8 180 1%R))). set (mb := mkmember (2003, 1, 2) 2 (lines_of "glo" (flat_day 8 180 2%R))).
  set (ars := [mkarchive (2003, 1) [ma; mb]]). exists ars, (fun r => st_day r =? 1), (fun r => if st_day r =? 1 then [mkdate 2003 1 1; mkdate 2003 1 2] else [mkdate 2003 2 1; mkdate 2003 2 2]), (fun m => if m_mtime m =? 1 then flat_day 8 180 1%R else flat_day 8 180 2%R).
  cbv zeta. split; [|reflexivity]. split; [intros x m [<-|[]] I; cbn in I; destruct I as [<-|[<-|[]]]; reflexivity|]. split; [repeat constructor; cbn; intuition discriminate|].
  intros r [<-|[<-|[]]]; cbn [st_day ex_row]; cbn [Z.eqb Pos.eqb].
  - split; [apply ex_row_ok|]. split; [apply ex_row_days|]. split; [unfold complete; change (members ars _) with [ma; mb]; apply Permutation_refl|]. exists (lm_loop 180 180). change (members ars _) with [ma; mb]. intros m [<-|[<-|[]]]; apply flat_readable.
  - assert (RO : row_ok (mkrow (20032 # 10) 14 2003 32 2003 33 2)). { unfold row_ok, first_day, last_day. cbn [st_yr end_yr st_day end_day]. repeat split; try lia; try (left; reflexivity); vm_compute; congruence. }
    split; [exact RO|]. split; [apply (two_days _ (mkdate 2003 2 1)); [exact RO|split; cbn; lia|reflexivity|reflexivity]|]. unfold lacking. cbn. lia.
Qed.
