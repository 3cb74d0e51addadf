(** C91: the field of a point load, disc load or spherical cap depends only on the distance to the load
    (gen_point_load.py, gen_disc_load.py, gen_spherical_cap.py, clenshaw_summation.py). *)
From Coq Require Import Reals Lra Lia String ZifyBool ZifyNat.
From Coquelicot Require Import Coquelicot.
From Verif Require Import Base UnitsModel UnitsProofs GaussModel Arr HarmModel LegendreSpec LegendreSpec2 LegendreModel LegendreProofs LegendreProofs2
  SummationModel SummationProofs PropLegendre PropSummation PropFactors GenModel GenProofs PropGen PropGen2 GaussProofs LoadModel PropLoad LegendreOrtho Addition.
Close Scope Z_scope.
Close Scope string_scope.
Open Scope R_scope.

(** ** Specification *)
(** the point of the unit sphere at longitude [lon] and latitude [lat] (degrees) *)
Definition sphere_point (lon lat : R) : R * R * R := (cos (deg lat) * cos (deg lon), cos (deg lat) * sin (deg lon), sin (deg lat)).
(** cosine of the angle between two points of the sphere: the scalar product of the unit vectors *)
Definition cos_angle (lon lat lon' lat' : R) : R :=
  let '(a, b, c) := sphere_point lon lat in let '(a', b', c') := sphere_point lon' lat' in a * a' + b * b' + c * c'.
(** the field of a coefficient set at a point (see C45, C46): all degrees and orders up to LMAX *)
Definition field_at (Y : harm) (LMAX : nat) (lon lat : R) : R := series (cf (clm Y)) (cf (slm Y)) 0 LMAX LMAX (colat lat) (deg lon).

(** ** Proofs *)
Lemma cos_angle_dist lon lat lon' lat' : cos_angle lon lat lon' lat' = cosdist (colat lat) (colat lat') (deg lon - deg lon').
Proof.
  unfold cos_angle, sphere_point, cosdist. assert (C : forall y, colat y = PI / 2 - deg y) by (intros y; unfold colat, deg; field).
  assert (A : forall z, cos (PI / 2 - z) = sin z) by (intros; apply cos_shift). assert (B : forall z, sin (PI / 2 - z) = cos z) by (intros; apply sin_shift).
  rewrite !C, !A, !B, cos_minus. ring.
Qed.
(** a zonal kernel placed at (lon, lat) *)
Lemma kernel_series c s f L lon lat x y : -90 <= lat <= 90 -> -90 <= y <= 90 ->
  (forall l m, (l <= L)%nat -> (m <= l)%nat -> c l m = f l * sph cos lon lat l m /\ s l m = f l * sph sin lon lat l m) ->
  series c s 0 L L (colat y) (deg x) = sumn (L + 1) (fun l => f l * (2 * INR l + 1) * legP l (cos_angle x y lon lat)).
Proof.
  intros Hl Hy C. unfold series. rewrite sumn_swap. apply sumn_ext. intros l Ll. cbn [Nat.leb].
  rewrite cos_angle_dist, Rmult_assoc, <- addition, <- sumn_scal.
  assert (E : sumn (L + 1) (fun m => Nlm l m (cos (colat y)) * (c l m * cos (INR m * deg x) + s l m * sin (INR m * deg x))) =
              sumn (l + 1) (fun m => Nlm l m (cos (colat y)) * (c l m * cos (INR m * deg x) + s l m * sin (INR m * deg x)))).
  { replace (L + 1)%nat with ((l + 1) + (L - l))%nat by lia. rewrite sumn_app. rewrite (sumn_ext (L - l) _ (fun _ => 0)); [rewrite sumn_zero; ring|].
    intros i Hi. rewrite Nlm_high by lia. ring. }
  rewrite E. apply sumn_ext. intros m Hm. destruct (C l m ltac:(lia) ltac:(lia)) as [-> ->]. unfold sph.
  rewrite !NT_Nlm by (apply colat_range; assumption). rewrite Rmult_minus_distr_l, cos_minus. ring.
Qed.

(** point loads with custom degree factors: each point contributes data_i * sum_l df_l (2l+1) P_l(cos distance to point i) *)
Theorem C91_point : forall tiny data lon lat LMAX df LOVE x y,
  List.length lon = List.length data -> List.length lat = List.length data -> List.length data <> 1%nat -> points_exact LMAX lat ->
  (forall i, (i < List.length data)%nat -> -90 <= nth i lat 0 <= 90) -> (LMAX < List.length df)%nat -> -90 <= y <= 90 ->
  exists Y, gen_point_load tiny data lon lat LMAX None (GCustom df) LOVE = Ok Y /\
    field_at Y LMAX x y = sumn (List.length data) (fun i => nth i data 0 *
      sumn (LMAX + 1) (fun l => nth l df 0 * (2 * INR l + 1) * legP l (cos_angle x y (nth i lon 0) (nth i lat 0)))).
Proof.
  intros tiny data lon lat LMAX df LOVE x y H1 H2 H3 H4 H5 H6 H7.
  destruct (C49_custom tiny data lon lat LMAX None H1 H2 H3 H4 df LOVE H6) as (Y & E & _ & _ & _ & _ & _ & _ & _ & _ & C). exists Y. split; [exact E|]. cbn [upto_order] in C.
  set (fi i := series (fun l m => nth l df 0 * sph cos (nth i lon 0) (nth i lat 0) l m) (fun l m => nth l df 0 * sph sin (nth i lon 0) (nth i lat 0) l m) 0 LMAX LMAX (colat y) (deg x)).
  transitivity (sumn (List.length data) (fun i => nth i data 0 * fi i)).
  - unfold field_at, fi, series.
    transitivity (sumn (List.length data) (fun i => sumn (LMAX + 1) (fun m => sumn (LMAX + 1) (fun l => nth i data 0 * (Nlm l m (cos (colat y)) *
      (nth l df 0 * sph cos (nth i lon 0) (nth i lat 0) l m * cos (INR m * deg x) + nth l df 0 * sph sin (nth i lon 0) (nth i lat 0) l m * sin (INR m * deg x))))))).
    2:{ apply sumn_ext. intros i Hi. rewrite <- sumn_scal. apply sumn_ext. intros m Hm. rewrite <- sumn_scal. apply sumn_ext. intros l Ll. reflexivity. }
    symmetry. rewrite sumn_swap. apply sumn_ext. intros m Hm. rewrite sumn_swap. apply sumn_ext. intros l Ll. symmetry. cbn [Nat.leb].
    destruct (le_dec m l) as [Lm|Lm].
    + destruct (C l m 0%nat ltac:(lia) ltac:(lia)) as [P _]. destruct (P (conj (Nat.le_0_l _) Lm)) as [P1 P2]. unfold cf. rewrite P1, P2.
      replace (Nlm l m (cos (colat y)) * (nth l df 0 * sumn (Datatypes.length data) (fun i : nat => nth i data 0 * point_sph cos lon lat l m i) * cos (INR m * deg x) +
        nth l df 0 * sumn (Datatypes.length data) (fun i : nat => nth i data 0 * point_sph sin lon lat l m i) * sin (INR m * deg x)))
       with (Nlm l m (cos (colat y)) * nth l df 0 * cos (INR m * deg x) * sumn (Datatypes.length data) (fun i : nat => nth i data 0 * point_sph cos lon lat l m i) +
             Nlm l m (cos (colat y)) * nth l df 0 * sin (INR m * deg x) * sumn (Datatypes.length data) (fun i : nat => nth i data 0 * point_sph sin lon lat l m i)) by ring.
      rewrite <- !sumn_scal, <- sumn_plus. apply sumn_ext. intros i Hi. unfold point_sph, sph. ring.
    + rewrite Nlm_high by lia. rewrite (sumn_ext _ _ (fun _ => 0)); [rewrite sumn_zero; ring|]. intros i Hi. ring.
  - apply sumn_ext. intros i Hi. f_equal. unfold fi. apply kernel_series; auto.
Qed.

(** disc loads (units 1, 2, 3 = cm water equivalent, Gt, mm): x is the cosine of the angular radius of the disc *)
Theorem C91_disc : forall data lon lat area LMAX z h k ll PLM x lon' lat',
  let a := rad_e (earth LMAX) in
  good_plm PLM LMAX LMAX lat -> (LMAX < List.length k)%nat -> (z = 1 \/ z = 2 \/ z = 3)%Z -> -1 <= x <= 1 -> 10 ^ 10 * area = 2 * PI * a ^ 2 * (1 - x) ->
  -90 <= lat <= 90 -> -90 <= lat' <= 90 ->
  exists Y, gen_disc_load data lon lat area LMAX None (GCode z) PLM (Some (h, k, ll)) = Ok Y /\
    field_at Y LMAX lon' lat' = thickness z (10 ^ 10 * area) data *
      sumn (LMAX + 1) (fun l => cmwe_factor k LMAX l * (2 * PI * RInt (legP l) x 1) * (2 * INR l + 1) * legP l (cos_angle lon' lat' lon lat)).
Proof.
  intros data lon lat area LMAX z h k ll PLM x lon' lat' a G Hk Hz Hx HA Hl Hl'.
  destruct (C78_disc data lon lat area LMAX None z h k ll PLM x (le_n _) G Hk Hz Hx HA) as (Y & E & C). exists Y. split; [exact E|].
  destruct C as (_ & _ & _ & _ & _ & _ & _ & _ & C). cbn [upto_order] in C. unfold field_at. set (T := thickness z (10 ^ 10 * area) data) in *.
  rewrite (kernel_series _ _ (fun l => T * (cmwe_factor k LMAX l * (2 * PI * RInt (legP l) x 1))) LMAX lon lat lon' lat' Hl Hl').
  - rewrite <- sumn_scal. apply sumn_ext. intros. ring.
  - intros l m L1 L2. destruct (C l m 0%nat L1 ltac:(lia)) as [P _]. destruct (P (conj (Nat.le_0_l _) L2)) as [P1 P2]. unfold cf. rewrite P1, P2. split; ring.
Qed.

(** spherical caps of angular radius alpha *)
Theorem C91_cap : forall data lon lat LMAX AREA RAD_CAP RAD_KM z h k ll PLM alpha lon' lat',
  let a := rad_e (earth LMAX) in
  good_plm PLM LMAX LMAX lat -> (LMAX < List.length k)%nat -> (z = 1 \/ z = 2 \/ z = 3)%Z -> 0 < alpha ->
  (RAD_CAP <> 0 /\ alpha = RAD_CAP * PI / 180 \/
   RAD_CAP = 0 /\ AREA <> 0 /\ PI * (alpha * a) ^ 2 = AREA \/
   RAD_CAP = 0 /\ AREA = 0 /\ alpha * a = 10 ^ 5 * RAD_KM) ->
  -90 <= lat <= 90 -> -90 <= lat' <= 90 ->
  exists Y, gen_spherical_cap data lon lat LMAX None AREA RAD_CAP RAD_KM (GCode z) PLM (Some (h, k, ll)) = Ok Y /\
    field_at Y LMAX lon' lat' = thickness z (PI * (alpha * a) ^ 2) data *
      sumn (LMAX + 1) (fun l => cmwe_factor k LMAX l * (2 * PI * RInt (legP l) (cos alpha) 1) * (2 * INR l + 1) * legP l (cos_angle lon' lat' lon lat)).
Proof.
  intros data lon lat LMAX AREA RAD_CAP RAD_KM z h k ll PLM alpha lon' lat' a G Hk Hz Ha HA Hl Hl'.
  destruct (C79_cap data lon lat LMAX None AREA RAD_CAP RAD_KM z h k ll PLM alpha (le_n _) G Hk Hz Ha HA) as (Y & E & C). exists Y. split; [exact E|].
  destruct C as (_ & _ & _ & _ & _ & _ & _ & _ & C). cbn [upto_order] in C. unfold field_at. fold a in C. set (T := thickness z (PI * (alpha * a) ^ 2) data) in *.
  rewrite (kernel_series _ _ (fun l => T * (cmwe_factor k LMAX l * (2 * PI * RInt (legP l) (cos alpha) 1))) LMAX lon lat lon' lat' Hl Hl').
  - rewrite <- sumn_scal. apply sumn_ext. intros. ring.
  - intros l m L1 L2. destruct (C l m 0%nat L1 ltac:(lia)) as [P _]. destruct (P (conj (Nat.le_0_l _) L2)) as [P1 P2]. unfold cf. rewrite P1, P2. split; ring.
Qed.

(** the field is symmetric around the load and does not depend on where on the sphere the load is: moving disc and observer to another pair of points
    at the same distance changes nothing *)
Theorem C91_isotropic : forall data area LMAX z h k ll lon1 lat1 lon1' lat1' lon2 lat2 lon2' lat2' PLM1 PLM2 Y1 Y2,
  let a := rad_e (earth LMAX) in
  good_plm PLM1 LMAX LMAX lat1 -> good_plm PLM2 LMAX LMAX lat2 -> (LMAX < List.length k)%nat -> (z = 1 \/ z = 2 \/ z = 3)%Z -> 0 <= 10 ^ 10 * area <= 4 * PI * a ^ 2 ->
  -90 <= lat1 <= 90 -> -90 <= lat1' <= 90 -> -90 <= lat2 <= 90 -> -90 <= lat2' <= 90 ->
  gen_disc_load data lon1 lat1 area LMAX None (GCode z) PLM1 (Some (h, k, ll)) = Ok Y1 ->
  gen_disc_load data lon2 lat2 area LMAX None (GCode z) PLM2 (Some (h, k, ll)) = Ok Y2 ->
  cos_angle lon1' lat1' lon1 lat1 = cos_angle lon2' lat2' lon2 lat2 ->
  field_at Y1 LMAX lon1' lat1' = field_at Y2 LMAX lon2' lat2'.
Proof.
  intros data area LMAX z h k ll lon1 lat1 lon1' lat1' lon2 lat2 lon2' lat2' PLM1 PLM2 Y1 Y2 a G1 G2 Hk Hz HA A1 A2 A3 A4 E1 E2 ED.
  pose proof (rad_pos' LMAX) as Pa. fold a in Pa. pose proof PI_RGT_0 as Pp.
  set (x := 1 - 10 ^ 10 * area / (2 * PI * a ^ 2)). assert (P2 : 0 < 2 * PI * a ^ 2) by (apply Rmult_lt_0_compat; [lra|apply pow_lt; lra]).
  assert (EX : 10 ^ 10 * area = 2 * PI * a ^ 2 * (1 - x)) by (unfold x; field; lra).
  assert (Hx : -1 <= x <= 1).
  { split; apply (Rmult_le_reg_l (2 * PI * a ^ 2)); try exact P2; lra. }
  destruct (C91_disc data lon1 lat1 area LMAX z h k ll PLM1 x lon1' lat1' G1 Hk Hz Hx EX A1 A2) as (Y1' & E1' & F1).
  destruct (C91_disc data lon2 lat2 area LMAX z h k ll PLM2 x lon2' lat2' G2 Hk Hz Hx EX A3 A4) as (Y2' & E2' & F2).
  assert (Y1' = Y1) by congruence. assert (Y2' = Y2) by congruence. subst Y1' Y2'. rewrite F1, F2, ED. reflexivity.
Qed.

(** a uniform layer of [data] cm of water on a disc, expanded by gen_disc_load and mapped back to cm of water by stokes_summation: at angular distance gamma
    from the center it is data times the Legendre expansion up to degree LMAX of the indicator function of the disc, whose coefficients are
    (2l+1)/2 * (integral of P_l from cos radius to 1); in particular independent of the Love numbers and symmetric around the center *)
Theorem C91_mapped : forall data lon lat area LMAX h k ll PLM x mlon mlat,
  let a := rad_e (earth LMAX) in
  good_plm PLM LMAX LMAX lat -> (2 <= LMAX)%nat -> (LMAX < List.length h)%nat -> (LMAX < List.length k)%nat -> (LMAX < List.length ll)%nat ->
  (forall l, (l <= LMAX)%nat -> 1 + nth l k 0 <> 0) -> -1 <= x <= 1 -> 10 ^ 10 * area = 2 * PI * a ^ 2 * (1 - x) ->
  -90 <= lat <= 90 -> List.length mlon <> 1%nat -> List.length mlat <> 1%nat ->
  exists Y out, gen_disc_load data lon lat area LMAX None (GCode 1) PLM (Some (h, k, ll)) = Ok Y /\
    stokes_summation (clm Y) (slm Y) mlon mlat 0 LMAX None 0 (UCode 1) (Some (h, k, ll)) None = Ok out /\
    forall i j lon' lat', nth_error mlon i = Some lon' -> nth_error mlat j = Some lat' -> -90 < lat' < 90 ->
      at2 out i j = Some (data * sumn (LMAX + 1) (fun l => (2 * INR l + 1) / 2 * RInt (legP l) x 1 * legP l (cos_angle lon' lat' lon lat))).
Proof.
  intros data lon lat area LMAX h k ll PLM x mlon mlat a G HL Hh Hk Hll Hk1 Hx HA Hl L1 L2.
  destruct (C78_disc data lon lat area LMAX None 1 h k ll PLM x (le_n _) G Hk ltac:(auto) Hx HA) as (Y & E & C). exists Y.
  destruct C as (C1 & C2 & _ & _ & C5 & C6 & _ & (C7 & C8 & _) & C). cbn [upto_order] in C6, C.
  destruct (C45_factors LMAX h k ll Hh Hk Hll) as (_ & FC & FN & _). specialize (FC 1%Z "cmwe"%string PropUnits.uc1).
  destruct (C45_smoothing 0 LMAX ltac:(lia)) as [SM _]. specialize (SM eq_refl).
  assert (F : exists df, degree_factor LMAX (UCode 1) (Some (h, k, ll)) = Ok df /\
    forall l, (l <= LMAX)%nat -> nth_error df l = Some (rho_e PropFactors.earth * rad_e PropFactors.earth * (2 * INR l + 1) / (3 * (1 + nth l k 0)))).
  { rewrite FC. destruct (FN "cmwe"%string 0%nat _ _ _ _ ltac:(lia) (nth_error_nth' h (n := 0%nat) 0 ltac:(lia)) (nth_error_nth' k (n := 0%nat) 0 ltac:(lia)) (nth_error_nth' ll (n := 0%nat) 0 ltac:(lia)) (w_cmwe _ _ _ _)) as (df & Ed & _).
    exists df. split; [exact Ed|]. intros l Ll.
    destruct (FN "cmwe"%string l _ _ _ _ Ll (nth_error_nth' h (n := l) 0 ltac:(lia)) (nth_error_nth' k (n := l) 0 ltac:(lia)) (nth_error_nth' ll (n := l) 0 ltac:(lia)) (w_cmwe _ _ _ _)) as (df' & Ed' & V).
    assert (df' = df) by congruence. subst df'. exact V. }
  destruct F as (df & Ed & V). assert (Ld : (LMAX < List.length df)%nat) by (apply nth_error_Some; rewrite V by lia; discriminate).
  destruct (C46_stokes (clm Y) (slm Y) mlon mlat 0 LMAX None 0 (UCode 1) (Some (h, k, ll)) (repeat 1 (LMAX + 1)) df HL (le_n _) L1 L2 SM Ed Ld) as (out & Eo & _ & Vo); cbn [upto_order] in *; try lia.
  exists out. split; [exact E|]. split; [exact Eo|]. intros i j lon' lat' Hi Hj Hl'. rewrite (Vo i j lon' lat' Hi Hj Hl'). f_equal.
  rewrite (kernel_series _ _ (fun l => data * (/ 2 * RInt (legP l) x 1)) LMAX lon lat lon' lat' Hl ltac:(lra)).
  - rewrite <- sumn_scal. apply sumn_ext. intros. field.
  - intros l m Ll Lm. destruct (C l m 0%nat Ll ltac:(lia)) as [P _]. destruct (P (conj (Nat.le_0_l _) Lm)) as [P1 P2]. unfold cf. rewrite P1, P2.
    rewrite (nth_indep _ 0 1) by (rewrite repeat_length; lia). rewrite nth_repeat. rewrite (nth_error_nth _ _ 0 (V l Ll)).
    unfold cmwe_factor, thickness. cbn [Z.eqb Pos.eqb].
    assert (RE : rad_e (earth LMAX) = rad_e PropFactors.earth). { unfold rad_e, earth, PropFactors.earth, units_init, a_default, flat_default. cbn [a_axis UnitsModel.flat]. do 2 f_equal. lra. }
    assert (RH : rho_e (earth LMAX) = rho_e PropFactors.earth) by (unfold rho_e; rewrite RE; reflexivity).
    assert (PA : 0 < a_axis PropFactors.earth) by (unfold PropFactors.earth, units_init; cbn [a_axis]; lra).
    rewrite RE, RH. pose proof (rad_pos _ PA). pose proof (rho_pos _ PA). pose proof PI_RGT_0. pose proof (pos_INR l). specialize (Hk1 l Ll).
    split; field; repeat split; lra.
Qed.
Print Assumptions C91_mapped.

(** a disc of half the sphere centered at 45 N: the hypotheses of the theorems above hold, at the antipode of an arbitrary observer's meridian too *)
Example C91_example : exists Y, gen_disc_load 3 10 45 (2 * PI * rad_e (earth 2) ^ 2 / 10 ^ 10) 2 None (GCode 1) None (Some ([0; 0; 0], [0; 1 / 2; 1 / 3], [0; 0; 0])) = Ok Y /\
  field_at Y 2 100 (-45) = field_at Y 2 (-80) (-45).
Proof.
  pose proof (rad_pos' 2) as Pa. pose proof PI_RGT_0 as Pp.
  assert (EA : 10 ^ 10 * (2 * PI * rad_e (earth 2) ^ 2 / 10 ^ 10) = 2 * PI * rad_e (earth 2) ^ 2 * (1 - 0)) by field.
  assert (G : good_plm None 2 2 45) by (cbn; repeat split; try lra; lia).
  destruct (C91_disc 3 10 45 _ 2 1 [0; 0; 0] [0; 1 / 2; 1 / 3] [0; 0; 0] None 0 100 (-45) G ltac:(cbn; lia) ltac:(auto) ltac:(lra) EA ltac:(lra) ltac:(lra)) as (Y & E & F).
  exists Y. split; [exact E|].
  eapply (C91_isotropic 3 _ 2 1 [0; 0; 0] [0; 1 / 2; 1 / 3] [0; 0; 0]); try exact E; try exact G; try lra; try (cbn; lia); auto.
  - assert (0 < 2 * PI * rad_e (earth 2) ^ 2) by (apply Rmult_lt_0_compat; [lra|apply pow_lt; lra]). lra.
  - rewrite !cos_angle_dist. unfold cosdist. f_equal. f_equal.
    replace (deg 100 - deg 10) with (PI / 2) by (unfold deg; field). replace (deg (-80) - deg 10) with (- (PI / 2)) by (unfold deg; field). rewrite cos_neg. reflexivity.
Qed.
