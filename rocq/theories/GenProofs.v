From Coq Require Import Reals Lra Lia String ZifyBool ZifyNat.
From Coquelicot Require Import Coquelicot.
From Verif Require Import Base UnitsModel UnitsProofs GaussModel Arr HarmModel LegendreSpec LegendreSpec2 LegendreModel LegendreProofs LegendreProofs2
  SummationModel SummationProofs LegendreOneModel LegendreOneProofs GenModel.
Close Scope Z_scope.
Open Scope R_scope.

Lemma phi_trig x m : cos (INR m * phi_of x) = cos (INR m * deg x) /\ sin (INR m * phi_of x) = sin (INR m * deg x).
Proof.
  unfold phi_of. destruct (Rlt_dec x 0) as [H|H]; [|split; reflexivity].
  replace (INR m * deg (x + 360)) with (INR m * deg x + 2 * INR m * PI) by (unfold deg; field).
  split; [apply cos_period|apply sin_period].
Qed.

(** the shape errors of [integrate] *)
Lemma integrate_ok data phis w nlat LMIN LMAX MM P df :
  (MM < cols P)%nat -> (nlat <= nslice P)%nat -> rows P = (LMAX + 1)%nat ->
  rows data = List.length phis -> cols data = nlat -> (LMAX < List.length df)%nat -> nlat <> 1%nat ->
  exists Y, integrate data phis w nlat LMIN LMAX MM P df = Ok Y /\ lmax Y = LMAX /\ mmax Y = MM /\ time Y = TNone /\ month Y = TNone /\
    rows (clm Y) = (LMAX + 1)%nat /\ cols (clm Y) = (MM + 1)%nat /\ depth (clm Y) = None /\ same_shape (clm Y) (slm Y) /\
    (forall l m t, get (clm Y) l m t = if ((LMIN <=? l) && (l <=? LMAX) && (m <=? Nat.min MM l))%nat then
       nth l df 0 * sumn nlat (fun j => get P l m j * w j * sumn (List.length phis) (fun i => cos (INR m * nth i phis 0) * get data i j 0)) else 0) /\
    (forall l m t, get (slm Y) l m t = if ((LMIN <=? l) && (l <=? LMAX) && (m <=? Nat.min MM l))%nat then
       nth l df 0 * sumn nlat (fun j => get P l m j * w j * sumn (List.length phis) (fun i => sin (INR m * nth i phis 0) * get data i j 0)) else 0).
Proof.
  intros H1 H2 H3 H4 H5 H6 H7. unfold integrate, check_plm.
  replace ((cols P <? MM + 1)%nat || (nslice P <? nlat)%nat) with false by lia. rewrite H3, Nat.eqb_refl. cbn [bind].
  rewrite H4, Nat.eqb_refl. cbn [negb]. rewrite H5, Nat.eqb_refl. cbn [orb negb]. rewrite andb_false_r.
  replace (List.length df <? LMAX + 1)%nat with false by lia. rewrite andb_false_r. replace (nlat =? 1)%nat with false by lia.
  eexists. split; [reflexivity|]. cbn. repeat split; intros; reflexivity.
Qed.

Lemma step_ok xs : (2 <= List.length xs)%nat -> step_of xs = Ok (Rabs (nth 1 xs 0 - nth 0 xs 0)).
Proof. destruct xs as [|a [|b t]]; cbn [List.length]; try lia. intros _. unfold step_of, py_get. cbn [List.length]. change (1 <? 0)%Z with false. change (0 <? 0)%Z with false. cbv iota zeta.
  replace ((0 <=? 1)%Z && (1 <? Z.of_nat (S (S (List.length t))))%Z) with true by lia.
  replace ((0 <=? 0)%Z && (0 <? Z.of_nat (S (S (List.length t))))%Z) with true by lia. reflexivity. Qed.

Lemma holmes_gives LMAX lat : (2 <= LMAX)%nat -> exists P, holmes_or None LMAX lat = Ok P /\ rows P = (LMAX + 1)%nat /\ cols P = (LMAX + 1)%nat /\
  nslice P = List.length lat /\ forall l m j, (l <= LMAX)%nat -> (j < List.length lat)%nat ->
    get P l m j = NU l m (cos (colat (nth j lat 0))) (uval (cos (colat (nth j lat 0)))).
Proof.
  intros H. unfold holmes_or, plm_holmes. destruct LMAX as [|[|k]]; [lia|lia|]. eexists. split; [reflexivity|].
  unfold table, fst. split; [reflexivity|]. split; [cbn [cols upto_order]; lia|]. split; [cbn [nslice depth]; now rewrite map_length|].
  intros l m j Hl Hj. cbn [get]. rewrite (nth_indep _ 0 (cos (colat 0))) by (rewrite map_length; exact Hj).
  rewrite (map_nth (fun x => cos (colat x)) lat 0 j). apply holmes_ok; [lia|exact Hl].
Qed.

(** in-range latitudes: the pole replacement of u is harmless when the weight
    contains sin(theta) *)
Lemma colat_range x : -90 <= x <= 90 -> 0 <= colat x <= PI.
Proof. intros H. unfold colat. pose proof PI_RGT_0. split; [|nra]. apply Rmult_le_pos; [apply Rmult_le_pos; lra|lra]. Qed.
Lemma sqrt_sin th : 0 <= sin th -> sqrt (1 - cos th ^ 2) = sin th.
Proof. intros H. replace (1 - cos th ^ 2) with (Rsqr (sin th)) by (rewrite sin2; unfold Rsqr; ring). now apply sqrt_Rsqr. Qed.
Lemma NU_sin l m th c : 0 <= sin th -> NU l m (cos th) (uval (cos th)) * (sin th * c) = Nlm l m (cos th) * (sin th * c).
Proof.
  intros H. destruct (Req_dec (sin th) 0) as [->|N]; [ring|]. rewrite Nlm_NU, (sqrt_sin th H). f_equal. unfold uval. rewrite (sqrt_sin th H).
  destruct (Req_EM_T (sin th) 0); [contradiction|reflexivity].
Qed.
Lemma NU_sin_pos l m th : 0 < sin th -> NU l m (cos th) (uval (cos th)) = Nlm l m (cos th).
Proof.
  intros H. rewrite Nlm_NU, (sqrt_sin th) by lra. unfold uval. rewrite (sqrt_sin th) by lra. destruct (Req_EM_T (sin th) 0); [lra|reflexivity].
Qed.

(** the data as a function of (longitude, latitude) index *)
Definition lonlat (data : arr R) (nlon nlat : nat) (D : nat -> nat -> R) : Prop :=
  (rows data = nlat /\ cols data = nlon /\ (forall i j, (i < nlon)%nat -> (j < nlat)%nat -> get data j i 0 = D i j)) \/
  (rows data = nlon /\ cols data = nlat /\ nlon <> nlat /\ (forall i j, (i < nlon)%nat -> (j < nlat)%nat -> get data i j 0 = D i j)).
Lemma oriented_ok data nlon nlat D : lonlat data nlon nlat D -> rows (oriented data nlat) = nlon /\ cols (oriented data nlat) = nlat /\
  forall i j, (i < nlon)%nat -> (j < nlat)%nat -> get (oriented data nlat) i j 0 = D i j.
Proof.
  unfold oriented. intros [(A & B & C)|(A & B & N & C)].
  - rewrite A, Nat.eqb_refl. cbn [rows cols get]. split; [exact B|]. split; [reflexivity|]. exact C.
  - rewrite A. replace (nlon =? nlat)%nat with false by lia. auto.
Qed.

Definition grid_sum (nlon nlat : nat) (f : nat -> nat -> R) : R := sumn nlat (fun j => sumn nlon (fun i => f i j)).

(** general form *)
Lemma gen_main data (lon lat : list R) D LMIN LMAX MM P (df : list R) w : lonlat data (List.length lon) (List.length lat) D ->
  (2 <= List.length lat)%nat -> (MM < cols P)%nat -> (List.length lat <= nslice P)%nat -> rows P = (LMAX + 1)%nat -> (LMAX < List.length df)%nat ->
  exists Y, integrate (oriented data (List.length lat)) (map phi_of lon) w (List.length lat) LMIN LMAX MM P df = Ok Y /\
    lmax Y = LMAX /\ mmax Y = MM /\ time Y = TNone /\ month Y = TNone /\
    rows (clm Y) = (LMAX + 1)%nat /\ cols (clm Y) = (MM + 1)%nat /\ depth (clm Y) = None /\ same_shape (clm Y) (slm Y) /\
    (forall l m t, (l <= LMAX)%nat -> (m <= MM)%nat -> get (clm Y) l m t = if ((LMIN <=? l) && (m <=? l))%nat then
       nth l df 0 * grid_sum (List.length lon) (List.length lat) (fun i j => get P l m j * w j * cos (INR m * deg (nth i lon 0)) * D i j) else 0) /\
    (forall l m t, (l <= LMAX)%nat -> (m <= MM)%nat -> get (slm Y) l m t = if ((LMIN <=? l) && (m <=? l))%nat then
       nth l df 0 * grid_sum (List.length lon) (List.length lat) (fun i j => get P l m j * w j * sin (INR m * deg (nth i lon 0)) * D i j) else 0).
Proof.
  intros HD Hn H1 H2 H3 H6. destruct (oriented_ok _ _ _ _ HD) as (O1 & O2 & O3).
  destruct (integrate_ok (oriented data (List.length lat)) (map phi_of lon) w (List.length lat) LMIN LMAX MM P df) as (Y & E & S1 & S2 & S3 & S4 & S5 & S6 & S7 & S8 & C & S);
    try assumption; try (rewrite ?map_length; assumption); [lia|].
  exists Y. rewrite map_length in C, S. repeat (split; [assumption|]).
  split; intros l m t Hl Hm; [rewrite C|rewrite S]; replace ((LMIN <=? l) && (l <=? LMAX) && (m <=? Nat.min MM l))%nat with ((LMIN <=? l) && (m <=? l))%nat by lia;
    destruct ((LMIN <=? l) && (m <=? l))%nat; try reflexivity; f_equal; unfold grid_sum; apply sumn_ext; intros j Hj; rewrite <- sumn_scal; apply sumn_ext; intros i Hi;
    rewrite O3 by assumption; rewrite (nth_indep _ 0 (phi_of 0)) by (rewrite map_length; exact Hi); rewrite (map_nth phi_of);
    destruct (phi_trig (nth i lon 0) m) as [P1 P2]; rewrite ?P1, ?P2; ring.
Qed.

(** degree factors of the unit codes *)
Definition cmwe_factor (kl : list R) (LMAX l : nat) : R :=
  3 * (1 + nth l kl 0) / (2 * INR l + 1) / (4 * PI * rad_e (earth LMAX) * rho_e (earth LMAX)).
Lemma spatial_ok LMAX h k ll : (LMAX < List.length k)%nat ->
  exists d d', spatial_factors LMAX (Some (h, k, ll)) cmwe = Ok d /\ spatial_factors LMAX (Some (h, k, ll)) mmwe = Ok d' /\
   List.length d = (LMAX + 1)%nat /\ List.length d' = (LMAX + 1)%nat /\
   forall l, (l <= LMAX)%nat -> nth l d 0 = cmwe_factor k LMAX l /\ nth l d' 0 = cmwe_factor k LMAX l / 10.
Proof.
  intros H. unfold spatial_factors, spatial. cbn [UnitsModel.lmax earth units_init]. unfold fraction, take_idx.
  replace (S LMAX <=? List.length k)%nat with true by lia. cbn [bind cmwe mmwe]. do 2 eexists. split; [reflexivity|]. split; [reflexivity|].
  unfold tab. rewrite !map_length, !seq_length. split; [lia|]. split; [lia|]. intros l Hl.
  assert (F : nth l (map (fun x => 1 + x) (firstn (S LMAX) k)) 0 = 1 + nth l k 0).
  { rewrite (nth_indep _ 0 (1 + 0)) by (rewrite map_length, firstn_length; lia). rewrite (map_nth (fun x => 1 + x)). now rewrite nth_firstn_lt by lia. }
  assert (P : 1 + 2 * INR l <> 0) by (pose proof (pos_INR l); lra).
  split; (rewrite nth_indep with (d' := (fun l => 3 * nth l (map (fun x => 1 + x) (firstn (S LMAX) k)) 0 / (1 + 2 * INR l) / (4 * PI * rad_e (earth LMAX) * rho_e (earth LMAX))) 0%nat) || idtac).
  - match goal with |- nth l (map ?f _) _ = _ => rewrite (map_nth f (seq 0 (S LMAX)) 0%nat l) end. rewrite seq_nth by lia. cbn [Nat.add]. rewrite F.
    unfold cmwe_factor. fold (earth LMAX). f_equal. f_equal. ring.
  - rewrite map_length, seq_length. lia.
  - match goal with |- nth l (map ?f _) _ = _ => set (g := f) end.
    rewrite (nth_indep _ _ (g 0%nat)) by (rewrite map_length, seq_length; lia). rewrite (map_nth g (seq 0 (S LMAX)) 0%nat l). rewrite seq_nth by lia. cbn [Nat.add]. unfold g. rewrite F.
    unfold cmwe_factor, Rdiv. fold (earth LMAX). replace (40 * PI * rad_e (earth LMAX) * rho_e (earth LMAX)) with (4 * PI * rad_e (earth LMAX) * rho_e (earth LMAX) * 10) by ring.
    rewrite Rinv_mult. replace (1 + 2 * INR l) with (2 * INR l + 1) by ring. ring.
  - rewrite map_length, seq_length. lia.
Qed.
