(** C101: GRACE maps with gridded scale factors (model: ScaleModel.v). *)
From Coq Require Import Reals Lra Lia String Sorting.Sorted ZifyBool ZifyNat.
From Coquelicot Require Import Coquelicot.
From Verif Require PropKernel SpatialProofs.
From Verif Require Import Base UnitsModel PropUnits GaussModel PropGauss LegendreModel LegendreSpec2 DestripeModel DestripeProofs SummationModel SummationProofs PropFactors GenModel MasconModel LinAlg TsModel PropTs PropLegendre PropSummation
  PropSmoothMap PropMascon PropSmooth Parseval Arr HarmModel HarmProofs HarmProofs2 HarmProofs3 MapsModel MapsProofs PropMaps ErrorModel PropError.
From Verif Require SpatialModel.
From Verif Require Import ScaleModel.
Import SpatialModel(sp, sdata, smask, serr, slon, slat, stime, smonth, sfill, mksp).
Close Scope Z_scope.
Close Scope string_scope.
Open Scope R_scope.

(** ** Specification *)
(** the run of grace_spatial_maps (C97) with the same options for degrees from 0, nothing removed *)
Definition unscaled (r : krun) : mrun :=
  mkmrun 0 (x_lmax r) (x_mmax r) (x_love r) (x_rad r) (x_destripe r) 1 [] 0 None (x_grace r) (x_mean r) (x_gia r) [] [IndexFile] false
    (zeros (x_lmax r) (order_of (x_lmax r) (x_mmax r)) None TNone TNone).
(** the anomaly of month t *)
Definition month_anomaly (r : krun) (n : nat) (ts : list R) (t : nat) : coefs := anomaly (unscaled r) n ts (fun _ t => t) t.
(** scale factors, their errors and magnitudes and the mask are on the grid of longitudes and latitudes *)
Definition on_grid {A} (r : krun) (a : arr A) : Prop := rows a = List.length (x_lat r) /\ cols a = List.length (x_lon r) /\ depth a = None.
(** a complete run without files to be removed *)
Record scale_ok (r : krun) (n : nat) (ts : list R) (ms : list Z) : Prop := mkscale_ok {
  v_run : errors_ok (as_erun r) n ts ms; v_settings : settings_ok (unscaled r);
  v_gia : wf (x_gia r) /\ depth (clm (x_gia r)) = None; v_remove : x_remove r = [];
  v_factor : on_grid r (x_factor r); v_error : on_grid r (x_error r); v_magnitude : on_grid r (x_magnitude r); v_mask : on_grid r (x_mask r);
  v_lon : List.length (x_lon r) <> 1%nat; v_lat : List.length (x_lat r) <> 1%nat }.
(** an output grid: longitudes, latitudes, fill value -9999, and this value with the mask set where the scale factors are masked *)
Definition output (r : krun) (n : nat) (g : sp) : Prop :=
  slon g = x_lon r /\ slat g = x_lat r /\ sfill g = Some (Some (-9999)) /\ rows (sdata g) = List.length (x_lat r) /\ cols (sdata g) = List.length (x_lon r) /\
  forall i k t, (i < List.length (x_lon r))%nat -> (k < List.length (x_lat r))%nat -> (t < n)%nat -> get (x_mask r) k i 0%nat = true -> get (sdata g) k i t = Some (-9999) /\ get (smask g) k i t = true.
(** the values of the three grids at a valid cell k, i with longitude x and latitude y: [v t] is the map of C97 of month t, [w] the error of C100 *)
Definition cell_values (r : krun) (n : nat) (ts : list R) (D : coefs) (N : R) (grid err delta : sp) (k i : nat) (x y : R) (v : nat -> R) (w : R) : Prop :=
  (forall t, (t < n)%nat -> map_of (unscaled r) (month_anomaly r n ts t) x y (v t) /\
     get (sdata grid) k i t = Some (get (x_factor r) k i 0 * v t) /\ get (smask grid) k i t = false) /\
  (get (x_magnitude r) k i 0 <> 0 ->
     get (sdata err) k i 0 = Some (get (x_error r) k i 0 * (sqrt (sumn n (fun t => (get (x_factor r) k i 0 * v t) ^ 2)) / get (x_magnitude r) k i 0))) /\
  (get (x_magnitude r) k i 0 = 0 ->
     get (sdata err) k i 0 = if Req_EM_T (sumn n (fun t => (get (x_factor r) k i 0 * v t) ^ 2)) 0 then Some (get (x_error r) k i 0 * -9999) else Some 0) /\
  error_at (as_maps (as_erun r)) D N x y w /\ get (sdata delta) k i 0 = Some (get (x_factor r) k i 0 * w) /\ get (smask delta) k i 0 = false.

(** ** Proofs *)
Lemma same_run r n ts ms : scale_ok r n ts ms -> run_ok (unscaled r) n ts ms (fun _ t => t).
Proof.
  intros [(V & _ & _) _ G R _ _ _ _ _ _]. destruct V as [a1 a2 a3 a4 a5 a6 a7 a8 a9 a10]. constructor; try assumption.
Qed.
Lemma settings_same r : settings_ok (unscaled r) -> settings_ok (as_maps (as_erun r)).
Proof. intros H. exact H. Qed.

Lemma update_none s : sfill s = None -> SpatialModel.update_mask s = Ok s.
Proof. unfold SpatialModel.update_mask. intros ->. reflexivity. Qed.

Lemma update_fill s f : sfill s = Some f -> same_shape (smask s) (sdata s) -> serr s = None ->
  let k := mkarr (rows (sdata s)) (cols (sdata s)) (depth (sdata s)) (fun i j t => (get (smask s) i j t || SpatialModel.veqb (get (sdata s) i j t) f || SpatialModel.isnan (get (sdata s) i j t))%bool) in
  SpatialModel.update_mask s = Ok (mksp (SpatialModel.masked_set k f (sdata s)) k None (slon s) (slat s) (stime s) (smonth s) (Some f)).
Proof. intros F S E. unfold SpatialModel.update_mask. rewrite F, E. apply SpatialProofs.shape_eqb_true in S. rewrite S. reflexivity. Qed.

Section Grids.
Context (r : krun).
Let nlat := List.length (x_lat r).
Let nlon := List.length (x_lon r).
(** scaling and masking of a series *)
Lemma scale_series (f : nat -> nat -> nat -> R) ts ms n : on_grid r (x_factor r) -> on_grid r (x_mask r) -> List.length ts = n ->
  exists g, bind (SpatialModel.sscale (mksp (mkarr nlat nlon (Some n) (fun k i t => Some (f k i t))) (full nlat nlon (Some n) false) None (x_lon r) (x_lat r) (TArr ts) (TArr ms) None) (SpatialModel.VArr (amap Some (x_factor r))))
     (SpatialModel.replace_invalid (Some fill_value) (Some (x_mask r))) = Ok g /\
    slon g = x_lon r /\ slat g = x_lat r /\ stime g = TArr ts /\ smonth g = TArr ms /\ sfill g = Some (Some fill_value) /\ serr g = None /\
    rows (sdata g) = nlat /\ cols (sdata g) = nlon /\ depth (sdata g) = Some n /\ same_shape (smask g) (sdata g) /\
    forall k i t, (t < n)%nat -> get (smask g) k i t = get (x_mask r) k i 0%nat /\ get (sdata g) k i t = if get (x_mask r) k i 0%nat then Some fill_value else Some (get (x_factor r) k i 0 * f k i t).
Proof.
  intros (F1 & F2 & F3) (M1 & M2 & M3) Ht. unfold SpatialModel.sscale, SpatialModel.data_op. cbn [depth sdata stime tlen bind amap rows cols].
  rewrite Ht. replace (n <? n)%nat with false by lia. rewrite F1, F2. fold nlat nlon. rewrite F3, !Nat.eqb_refl. cbn [andb]. rewrite update_none by reflexivity. cbn [bind].
  unfold SpatialModel.replace_invalid. rewrite update_none by reflexivity. cbn [bind sdata smask serr depth rows cols slon slat stime smonth SpatialModel.scopy SpatialModel.replace_masked sfill].
  match goal with |- context [SpatialModel.shape_eqb (x_mask r) ?a] => assert (SH' : SpatialModel.shape_eqb (x_mask r) a = false) by (unfold SpatialModel.shape_eqb; cbn [rows cols depth]; rewrite M3; apply Bool.andb_false_r); rewrite SH' end.
  rewrite M3, M1, M2. fold nlat nlon. rewrite !Nat.eqb_refl. cbn [andb negb]. eexists. split; [reflexivity|]. cbn [slon slat stime smonth sfill serr sdata smask SpatialModel.masked_set rows cols depth get full].
  do 9 (split; [reflexivity|]). split; [repeat split|]. intros k i t H. cbn [orb]. split; [reflexivity|]. destruct (get (x_mask r) k i 0%nat); [reflexivity|]. replace (t <? n)%nat with true by lia. reflexivity.
Qed.
(** scaling and masking of a single grid *)
Lemma scale_single (g0 : arr R) t mo : on_grid r (x_factor r) -> on_grid r (x_mask r) -> rows g0 = nlat -> cols g0 = nlon -> depth g0 = None ->
  exists g, bind (SpatialModel.sscale (mksp (amap Some g0) (full nlat nlon None false) None (x_lon r) (x_lat r) t mo None) (SpatialModel.VArr (amap Some (x_factor r))))
     (SpatialModel.replace_invalid (Some fill_value) (Some (x_mask r))) = Ok g /\
    slon g = x_lon r /\ slat g = x_lat r /\ sfill g = Some (Some fill_value) /\ rows (sdata g) = nlat /\ cols (sdata g) = nlon /\ depth (sdata g) = None /\
    forall k i s, get (smask g) k i s = get (x_mask r) k i s /\ get (sdata g) k i s = if get (x_mask r) k i s then Some fill_value else Some (get (x_factor r) k i s * get g0 k i s).
Proof.
  intros (F1 & F2 & F3) (M1 & M2 & M3) G1 G2 G3. unfold SpatialModel.sscale, SpatialModel.data_op. cbn [depth sdata amap rows cols].
  rewrite G3, F3, F1, F2, G1, G2. fold nlat nlon. rewrite !Nat.eqb_refl. cbn [andb]. rewrite update_none by reflexivity. cbn [bind].
  unfold SpatialModel.replace_invalid. rewrite update_none by reflexivity. cbn [bind sdata smask serr depth rows cols slon slat stime smonth SpatialModel.scopy SpatialModel.replace_masked sfill].
  match goal with |- context [SpatialModel.shape_eqb (x_mask r) ?a] => assert (SH' : SpatialModel.shape_eqb (x_mask r) a = true) by (unfold SpatialModel.shape_eqb; cbn [rows cols depth]; rewrite M1, M2, M3; fold nlat nlon; rewrite !Nat.eqb_refl; reflexivity); rewrite SH' end.
  eexists. split; [reflexivity|]. cbn [slon slat sfill sdata smask SpatialModel.masked_set rows cols depth get full]. do 6 (split; [reflexivity|]). intros k i s. cbn [orb]. split; [reflexivity|]. destruct (get (x_mask r) k i s); reflexivity.
Qed.
End Grids.

Lemma vsum_series (h : nat -> SpatialModel.val) (F : nat -> R) (g : R -> R) : forall n s, (forall t, (s <= t < s + n)%nat -> h t = Some (F t)) ->
  SpatialModel.vsum (map (SpatialModel.lift1 g) (map h (seq s n))) = Some (sumn n (fun t => g (F (s + t)%nat))).
Proof.
  induction n as [|n IH]; intros s H; [reflexivity|]. cbn [seq map]. rewrite LegendreFourier.sumn_first. unfold SpatialModel.vsum in *. cbn [fold_right]. rewrite IH by (intros; apply H; lia).
  rewrite H by lia. cbn [SpatialModel.lift1 SpatialModel.lift2]. f_equal. rewrite Nat.add_0_r. f_equal. apply sumn_ext. intros t _. do 2 f_equal. lia.
Qed.
Lemma any_false (h : nat -> bool) : forall n s, (forall t, (s <= t < s + n)%nat -> h t = false) -> existsb (fun b => b) (map h (seq s n)) = false.
Proof. induction n as [|n IH]; intros s H; [reflexivity|]. cbn [seq map existsb]. rewrite H by lia. cbn [orb]. apply IH. intros; apply H; lia. Qed.
Lemma leakage_ok r n g : on_grid r (x_error r) -> on_grid r (x_mask r) ->
  slon g = x_lon r -> slat g = x_lat r -> sfill g = Some (Some fill_value) -> serr g = None ->
  depth (sdata g) = Some n -> same_shape (smask g) (sdata g) ->
  exists e, leakage_error r g = Ok e /\ slon e = x_lon r /\ slat e = x_lat r /\ sfill e = Some (Some fill_value) /\ rows (sdata e) = List.length (x_lat r) /\ cols (sdata e) = List.length (x_lon r) /\
    (forall k i t, get (x_mask r) k i t = true -> get (sdata e) k i t = Some fill_value /\ get (smask e) k i t = true) /\
    forall k i F, get (x_mask r) k i 0%nat = false -> (forall t, (t < n)%nat -> get (smask g) k i t = false /\ get (sdata g) k i t = Some (F t)) ->
      let S := sumn n (fun t => F t ^ 2) in let m := get (x_magnitude r) k i 0 in
      get (sdata e) k i 0 = Some (get (x_error r) k i 0 * (if Req_EM_T m 0 then (if Req_EM_T S 0 then fill_value else 0) else sqrt S / m)).
Proof.
  intros (E1 & E2 & E3) (M1 & M2 & M3) G1 G2 G3 G4 G5 G6. unfold leakage_error, SpatialModel.ssum. rewrite G5. unfold SpatialModel.reduce_time. rewrite (update_fill _ (Some fill_value)); [|exact G3|repeat split|reflexivity].
  cbn [bind sdata smask serr slon slat stime smonth sfill]. unfold SpatialModel.scopy, SpatialModel.replace_masked. rewrite G3. cbn [sfill smask sdata serr slon slat stime smonth].
  rewrite (update_fill _ (Some fill_value)); [|reflexivity|unfold same_shape; cbn [sdata smask rows cols depth]; repeat split; congruence|cbn [serr]; rewrite G4; reflexivity].
  eexists. split; [reflexivity|]. cbn [slon slat sfill sdata smask SpatialModel.masked_set rows cols get]. do 3 (split; [assumption || reflexivity|]). split; [exact E1|]. split; [exact E2|]. split.
  - intros k i t H. rewrite H. cbn [orb]. split; reflexivity.
  - intros k i F HM HF. cbv zeta. cbn [SpatialModel.isnan]. rewrite Bool.orb_false_r, HM. cbn [orb].
    assert (P : 0 <= sumn n (fun t => F t ^ 2)) by (apply PropKernel.sumn_nonneg; intros; apply pow2_ge_0).
    match goal with |- context [get (leak_ratio ?m ?d ?q) k i 0] => assert (Q : get (leak_ratio m d q) k i 0 = if Req_EM_T (get (x_magnitude r) k i 0) 0 then (if Req_EM_T (sumn n (fun t => F t ^ 2)) 0 then fill_value else 0) else sqrt (sumn n (fun t => F t ^ 2)) / get (x_magnitude r) k i 0) end.
    { unfold leak_ratio, SpatialModel.masked_set. cbn [get rows cols]. unfold SpatialModel.series. rewrite any_false by (intros; apply HF; lia).
      rewrite (vsum_series _ F (fun x => x ^ 2)) by (intros; apply HF; lia). cbn [Nat.add orb SpatialModel.veqb SpatialModel.isnan].
      destruct (Req_EM_T (sumn n (fun t => F t ^ 2)) fill_value) as [A|A]; [exfalso; unfold fill_value in A; Lra.lra|]. cbn [orb]. unfold fsqrt. destruct (Rlt_dec _ 0) as [B|B]; [exfalso; Lra.lra|].
      unfold finv. destruct (Req_EM_T (get (x_magnitude r) k i 0) 0) as [C|C]; cbn [fmul]; [|unfold Rdiv; reflexivity].
      destruct (Req_EM_T (sqrt _) 0) as [D|D], (Req_EM_T (sumn n (fun t => F t ^ 2)) 0) as [E|E]; try reflexivity.
      - exfalso. apply E. apply sqrt_eq_0; assumption.
      - exfalso. apply D. rewrite E. apply sqrt_0. }
    rewrite Q. match goal with |- (if ?b then _ else _) = _ => destruct b eqn:Eb end; [|reflexivity].
    cbn [SpatialModel.veqb] in Eb. match type of Eb with (if ?c then _ else _) = _ => destruct c as [Ec|Ec]; [|discriminate] end. rewrite Ec. reflexivity.
Qed.

Lemma maps_of_months r n ts ms wt df f P dP h gia rem : scale_ok r n ts ms ->
  let L := p_lmax (unscaled r) in let M := max_order (unscaled r) in
  np_mul1 df wt = Ok f -> (forall l, (l < L + 1)%nat -> nth l f 0 = nth l df 0 * nth l wt 0) -> List.length f = (L + 1)%nat ->
  plm_holmes L (map (fun x => cos (colat x)) (x_lat r)) None = Ok (P, dP) ->
  holds L M n ts ms (fun t => coefficient (as_erun r) n t) h ->
  holds (lmax (x_gia r)) (mmax (x_gia r)) n ts ms (fun t cs l m => part (x_gia r) 0 cs l m * (nth t ts 0 - 20033 / 10)) gia ->
  holds L M n ts ms (fun _ _ _ _ => 0) rem ->
  exists maps, mapM (one_map 0 L M f (x_lon r) (x_lat r) P h gia rem) (seq 0 n) = Ok maps /\ List.length maps = n /\
    forall t d, (t < n)%nat -> exists g, nth t maps d = (nth t ts 0, nth t ms 0%Z, g) /\
      forall i k x y, nth_error (x_lon r) i = Some x -> nth_error (x_lat r) k = Some y -> -90 < y < 90 ->
        get g k i 0 = series (fun l m => nth l df 0 * nth l wt 0 * month_anomaly r n ts t false l m) (fun l m => nth l df 0 * nth l wt 0 * month_anomaly r n ts t true l m) 0 L M (colat y) (deg x).
Proof.
  intros V. cbv zeta. intros Ef Vf Lf EP K2 K3 K5. pose proof (same_run _ _ _ _ V) as W. pose proof (g_degree _ _ _ _ _ W) as HL. pose proof (g_order _ _ _ _ _ W) as HM. pose proof (v_lon _ _ _ _ V) as Nlon. pose proof (v_lat _ _ _ _ V) as Nlat.
  set (L := p_lmax (unscaled r)) in *. set (M := max_order (unscaled r)) in *.
  assert (G : forall t, (t < n)%nat -> exists g, one_map 0 L M f (x_lon r) (x_lat r) P h gia rem t = Ok (nth t ts 0, nth t ms 0%Z, g) /\
      forall i k x y, nth_error (x_lon r) i = Some x -> nth_error (x_lat r) k = Some y -> -90 < y < 90 ->
        get g k i 0 = series (fun l m => nth l df 0 * nth l wt 0 * month_anomaly r n ts t false l m) (fun l m => nth l df 0 * nth l wt 0 * month_anomaly r n ts t true l m) 0 L M (colat y) (deg x)).
  { intros t Ht. unfold one_map.
    destruct (index_ok _ _ _ _ _ _ _ t K2 Ht) as (a1 & A1 & B1). rewrite A1. cbn [bind].
    destruct (index_ok _ _ _ _ _ _ _ t K3 Ht) as (a2 & A2 & B2). rewrite A2. cbn [bind].
    destruct (sub_single _ _ _ _ _ _ _ _ _ _ _ _ B1 B2) as (a3 & A3 & B3). rewrite A3. cbn [bind].
    destruct (index_ok _ _ _ _ _ _ _ t K5 Ht) as (a4 & A4 & B4). rewrite A4. cbn [bind].
    destruct (sub_single _ _ _ _ _ _ _ _ _ _ _ _ B3 B4) as (a5 & A5 & B5). rewrite A5. cbn [bind].
    destruct (convolve_ok _ _ _ _ _ _ f B5 ltac:(lia)) as (a6 & A6 & B6). rewrite A6. cbn [bind].
    destruct (map_ok _ _ _ _ _ _ 0%nat (x_lon r) (x_lat r) P dP B6 HL HM Nlon Nlat EP) as (out & A7 & B7). rewrite A7. cbn [bind].
    rewrite (s_ts _ _ _ _ _ _ B6), (s_ms _ _ _ _ _ _ B6). cbn [scalar bind]. eexists. split; [reflexivity|].
    intros i k x y Hx Hy Hr. rewrite (B7 i k x y Hx Hy Hr). apply series_tri.
    assert (Q : forall cs l m, (m <= l <= L)%nat -> (m <= M)%nat -> nth l f 0 * (coefficient (as_erun r) n t cs l m
        - (if ((l <=? lmax (x_gia r)) && (m <=? mmax (x_gia r)))%nat then part (x_gia r) 0 cs l m * (nth t ts 0 - 20033 / 10) else 0)
        - (if ((l <=? L) && (m <=? M))%nat then 0 else 0)) = nth l df 0 * nth l wt 0 * month_anomaly r n ts t cs l m).
    { intros cs l m Hl Hm. rewrite Vf by lia. f_equal. unfold month_anomaly, anomaly. change (List.length (p_remove (unscaled r))) with 0%nat. cbn [sumn]. change (p_gia (unscaled r)) with (x_gia r).
      change (filtered (unscaled r) (fun cs l m => part (p_grace (unscaled r)) t cs l m - reference (unscaled r) n cs l m)) with (coefficient (as_erun r) n t).
      generalize (coefficient (as_erun r) n t cs l m). intros z. unfold part. destruct ((l <=? lmax (x_gia r)) && (m <=? mmax (x_gia r)))%nat; destruct ((l <=? L) && (m <=? M))%nat; ring. }
    intros l m Hl Hm. split; apply Q; auto. }
  destruct (mapM_all (one_map 0 L M f (x_lon r) (x_lat r) P h gia rem) (seq 0 n)) as (maps & E6).
  { intros i Hi. apply in_seq in Hi. destruct (G i ltac:(lia)) as (g & Eg' & _). eexists. exact Eg'. }
  exists maps. split; [exact E6|]. destruct (mapM_nth _ _ _ E6) as [Lm Vm]. rewrite seq_length in *. split; [exact Lm|].
  intros t d Ht. destruct (G t Ht) as (g & Eg' & Q). exists g. split; [|exact Q].
  specialize (Vm t 0%nat d Ht). rewrite seq_nth in Vm by exact Ht. cbn [Nat.add] in Vm. rewrite Eg' in Vm. injection Vm as Vm. symmetry. exact Vm.
Qed.

(** what is returned, with errors D of the coefficients from N months *)
Definition returned (r : krun) (n : nat) (ts : list R) (ms : list Z) (D : coefs) (N : R) (grid err delta : sp) : Prop :=
  stime grid = TArr ts /\ smonth grid = TArr ms /\ output r n grid /\ output r 1 err /\ output r 1 delta /\
  forall i k x y, nth_error (x_lon r) i = Some x -> nth_error (x_lat r) k = Some y -> -90 < y < 90 -> get (x_mask r) k i 0%nat = false ->
    exists v w, cell_values r n ts D N grid err delta k i x y v w.
Lemma seq_map_id {A} (l : list A) d n (f : nat -> A) : List.length l = n -> (forall t, (t < n)%nat -> f t = nth t l d) -> map f (seq 0 n) = l.
Proof.
  intros H E. apply (nth_ext _ _ d d); rewrite map_length, seq_length; [congruence|]. intros t Ht. rewrite (nth_indep _ d (f 0%nat)) by (rewrite map_length, seq_length; exact Ht). rewrite (map_nth f), seq_nth by exact Ht. apply E. exact Ht.
Qed.
Section Run.
Context (erf : R -> R) (tppf : R -> Z -> R) (rd rt : R -> R) (grace : R -> Z).
Let prog := scale_grace_maps erf tppf rd rt grace.
Lemma scale_main r n ts ms : scale_ok r n ts ms ->
  exists h, holds (p_lmax (unscaled r)) (max_order (unscaled r)) n ts ms (fun t => coefficient (as_erun r) n t) h /\
    forall d d' delta N tm D, get_delta erf tppf rd rt grace (as_erun r) (error_file (as_erun r) ms) h d = (d', Ok (delta, N)) ->
      holds1 (p_lmax (unscaled r)) (max_order (unscaled r)) tm N D delta -> (0 < N)%Z ->
      exists grid err dl, prog r d = (d', Ok (grid, err, dl)) /\ returned r n ts ms D (IZR N) grid err dl.
Proof.
  intros V. pose proof (same_run _ _ _ _ V) as W. pose proof (g_degree _ _ _ _ _ W) as HL. pose proof (g_order _ _ _ _ _ W) as HM. pose proof (g_months _ _ _ _ _ W) as Hn. pose proof (mo_pos _ HL) as HM1.
  destruct (months_len _ _ _ _ _ W) as [L1 L2]. destruct (v_settings _ _ _ _ V) as (HR & HLv & name & HU).
  destruct (factors_all _ _ _ _ HU HLv) as (df & Ed & Ld & Vd). destruct (weights_all (p_rad (unscaled r)) (p_lmax (unscaled r)) ltac:(lia) HR) as (wt & Ew & Lw & Vw).
  destruct (centred_ok _ _ _ _ _ W) as (h1 & E1 & K1). destruct (maybe_destripe_ok (p_destripe (unscaled r)) _ _ _ _ _ _ _ K1 ltac:(lia)) as (h2 & E2 & K2).
  destruct (drift_ok _ _ _ _ _ W) as (gia & E3 & K3). destruct (mul_ok df wt (p_lmax (unscaled r) + 1) Ld Lw) as (f & Ef & Lf & Vf).
  destruct (holmes_rows (p_lmax (unscaled r)) (map (fun x => cos (colat x)) (x_lat r)) HL) as (P & dP & EP & _).
  exists h2. split; [exact K2|]. intros d d' delta N tm D EG KD HN.
  set (rem := mkharm (p_lmax (unscaled r)) (max_order (unscaled r)) (full (p_lmax (unscaled r) + 1) (max_order (unscaled r) + 1) (Some n) 0) (full (p_lmax (unscaled r) + 1) (max_order (unscaled r) + 1) (Some n) 0) (TArr ts) (TArr ms)).
  assert (K5 : holds (p_lmax (unscaled r)) (max_order (unscaled r)) n ts ms (fun _ _ _ _ => 0) rem).
  { constructor; try reflexivity; try assumption; [split; [reflexivity|split; reflexivity]|]. intros t [] l m _ _ _; reflexivity. }
  destruct (maps_of_months r n ts ms wt df f P dP h2 gia rem V Ef Vf Lf EP K2 K3 K5) as (maps & EM & Lm & Vm).
  destruct (error_grid_ok (x_lmin r) _ _ wt df delta tm N D (x_lon r) (x_lat r) P dP HL (conj HM1 HM) Lw Ld EP KD HN) as (SQ & g0 & E0 & R1 & R2 & R3 & V0).
  pose proof (v_factor _ _ _ _ V) as HF. pose proof (v_mask _ _ _ _ V) as HK. pose proof HF as (F1 & F2 & F3).
  set (none := (0, 0%Z, full (rows (x_factor r)) (cols (x_factor r)) None 0%R)).
  destruct (scale_series r (fun k i t => get (snd (nth t maps none)) k i 0) ts ms n HF HK L1) as (grid & EGr & G1 & G2 & G3 & G4 & G5 & G6 & G7 & G8 & G9 & G10 & G11).
  destruct (leakage_ok r n grid (v_error _ _ _ _ V) HK G1 G2 G5 G6 G9 G10) as (err & EE & H1 & H2 & H3 & H4 & H5 & H6 & H7).
  destruct (scale_single r g0 (time delta) (TScalar N) HF HK R1 R2 R3) as (dl & EDl & D1 & D2 & D3 & D4 & D5 & D6 & D7).
  exists grid, err, dl. split.
  - unfold prog, scale_grace_maps. change (smoothing (x_rad r) (x_lmax r)) with (smoothing (p_rad (unscaled r)) (p_lmax (unscaled r))). rewrite Ew. cbn [bind].
    change (centred (x_grace r) (x_mean r)) with (centred (p_grace (unscaled r)) (p_mean (unscaled r))). rewrite E1. cbn [bind].
    change (x_destripe r) with (p_destripe (unscaled r)). rewrite E2. cbn [bind]. rewrite (o_ts _ _ _ _ _ _ _ K2), (o_ms _ _ _ _ _ _ _ K2). cbn [list_of bind].
    change (x_gia r) with (p_gia (unscaled r)). rewrite E3. cbn [bind]. rewrite L1. replace (n =? 1)%nat with false by lia.
    rewrite (v_remove _ _ _ _ V). replace (map (fun f0 : harm * remove_form => (fst f0, IndexFile)) (with_form [] (x_forms r))) with (@nil (harm * remove_form)) by (unfold with_form; reflexivity).
    cbn [remove_all bind List.length Nat.ltb Nat.leb]. destruct (last_get ms n L2 ltac:(lia)) as [Q1 Q2]. rewrite Q1, Q2. cbn [bind].
    change (mkkey _ _ _ _ _ _ _ _ _ _) with (error_file (as_erun r) ms). rewrite EG. cbn [fst snd bind]. f_equal.
    change (x_lmax r) with (p_lmax (unscaled r)). rewrite EP. cbn [bind fst]. change (order_of (p_lmax (unscaled r)) (x_mmax r)) with (max_order (unscaled r)). rewrite SQ. cbn [bind].
    change (degree_factor (p_lmax (unscaled r)) (UCode 1) (Some (x_love r))) with (degree_factor (p_lmax (unscaled r)) (UCode (p_units (unscaled r))) (Some (p_love (unscaled r)))). rewrite Ed. cbn [bind].
    unfold scaled_maps. rewrite Ef. cbn [bind]. unfold zeros_like. rewrite (o_l _ _ _ _ _ _ _ K2), (o_m _ _ _ _ _ _ _ K2), L1. fold rem. rewrite L2.
    change (x_lmax r) with (p_lmax (unscaled r)). change (order_of (p_lmax (unscaled r)) (x_mmax r)) with (max_order (unscaled r)). rewrite EM. cbn [bind].
    rewrite F1, F2, !Nat.eqb_refl. cbn [andb negb].
    rewrite (seq_map_id ts 0 n) by (try exact L1; intros t Ht; destruct (Vm t (0, 0%Z, full (List.length (x_lat r)) (List.length (x_lon r)) None 0%R) Ht) as (g & Eg & _); rewrite Eg; reflexivity).
    rewrite (seq_map_id ms 0%Z n) by (try exact L2; intros t Ht; destruct (Vm t (0, 0%Z, full (List.length (x_lat r)) (List.length (x_lon r)) None 0%R) Ht) as (g & Eg & _); rewrite Eg; reflexivity).
    unfold none in EGr. rewrite F1, F2 in EGr. match goal with |- bind ?A _ = _ => assert (AA : A = Ok grid) by exact EGr; rewrite AA; clear AA end. cbn [bind]. rewrite EE. cbn [bind].
    unfold scaled_delta. change (x_lmax r) with (p_lmax (unscaled r)). change (order_of (p_lmax (unscaled r)) (x_mmax r)) with (max_order (unscaled r)). rewrite E0. cbn [bind]. rewrite F1, F2. match goal with |- bind ?A _ = _ => assert (AA : A = Ok dl) by exact EDl; rewrite AA; clear AA end. reflexivity.
  - split; [exact G3|]. split; [exact G4|].
    split; [repeat (split; [assumption|]); intros i k t Hi Hk Ht Hm; destruct (G11 k i t Ht) as [A B]; rewrite A, B, Hm; split; reflexivity|].
    split; [repeat (split; [assumption|]); intros i k t Hi Hk Ht Hm; replace t with 0%nat by lia; apply H6; exact Hm|].
    split; [repeat (split; [assumption|]); intros i k t Hi Hk Ht Hm; replace t with 0%nat by lia; destruct (D7 k i 0%nat) as [A B]; rewrite A, B, Hm; split; reflexivity|].
    intros i k x y Hx Hy Hr Hm. set (v := fun t => get (snd (nth t maps none)) k i 0). exists v, (get g0 k i 0).
    assert (VG : forall t, (t < n)%nat -> get (smask grid) k i t = false /\ get (sdata grid) k i t = Some (get (x_factor r) k i 0 * v t)).
    { intros t Ht. destruct (G11 k i t Ht) as [A B]. rewrite A, B, Hm. split; reflexivity. }
    pose proof (H7 k i (fun t => get (x_factor r) k i 0 * v t) Hm VG) as HE. cbv zeta in HE.
    unfold cell_values. split; [|split; [|split; [|split]]].
    + intros t Ht. destruct (VG t Ht) as [A B]. split; [|split; assumption]. destruct (Vm t none Ht) as (g & Eg & Q). exists (fun l => nth l df 0), (fun l => nth l wt 0). split; [intros l Hl; split; [apply Vd|apply Vw]; exact Hl|].
      unfold v. rewrite Eg. cbn [snd]. apply (Q i k x y Hx Hy Hr).
    + intros HZ. rewrite HE. destruct (Req_EM_T _ 0) as [Z|Z]; [contradiction|reflexivity].
    + intros HZ. rewrite HE. destruct (Req_EM_T (get (x_magnitude r) k i 0) 0) as [Z|Z]; [|contradiction]. destruct (Req_EM_T _ 0); [reflexivity|]. f_equal. ring.
    + apply (error_at_ok (as_erun r) wt df D _ x y _ Vd Vw). apply (V0 i k x y Hx Hy Hr).
    + destruct (D7 k i 0%nat) as [A B]. rewrite A, B, Hm. split; reflexivity.
Qed.
End Run.

(** ** C101 *)
(** A first run (no file of coefficient errors with the name of this run) without files to be removed: in every valid cell the map of each month is that of C97 times the scale factor,
    the leakage error is the scaling error times the root of the total power of the scaled months over the magnitude, and the GRACE error that of C100 times the scale factor *)
Theorem C101_maps : forall erf tppf rd rt grace r n ts ms d, scale_ok r n ts ms -> not_stored d (error_file (as_erun r) ms) ->
  exists d' grid err delta D, scale_grace_maps erf tppf rd rt grace r d = (d', Ok (grid, err, delta)) /\
    (forall cs l m, (m <= l <= x_lmax r)%nat -> (m <= order_of (x_lmax r) (x_mmax r))%nat -> residual_rms ts (half_window (as_erun r)) n (fun t => coefficient (as_erun r) n t cs l m) (D cs l m)) /\
    returned r n ts ms D (INR (n - 2 * half_window (as_erun r))) grid err delta.
Proof.
  intros erf tppf rd rt grace r n ts ms d V HF. destruct (scale_main erf tppf rd rt grace r n ts ms V) as (h & K & Q). destruct (v_run _ _ _ _ V) as (V0 & Hn & Hsep). pose proof (g_months _ _ _ _ _ V0) as Hn2. pose proof (g_order _ _ _ _ _ V0) as HM.
  set (e := as_erun r) in *. change (p_lmax (unscaled r)) with (p_lmax (as_maps e)) in *. change (max_order (unscaled r)) with (max_order (as_maps e)) in *.
  destruct (delta_ok erf tppf _ _ n ts ms _ h (half_window e) K Hn Hn2 Hsep HM) as (D & delta & E1 & K1 & RD).
  assert (WS : exists s, write_delta rd rt (e_form e) delta = Ok s).
  { destruct (e_form e) eqn:Ef; [destruct (text_file rd rt grace _ _ _ _ _ _ K1 HM) as (s & _ & E & _); eauto|..];
      destruct (array_file rd rt grace (e_form e) _ _ _ _ _ _ K1 HM) as (s & _ & E & _); try congruence; rewrite Ef in E; eauto. }
  destruct WS as (s & ES).
  destruct (Q d ((error_file e ms, s) :: d) delta (Z.of_nat (n - 2 * half_window e)) (Rmean (TsModel.slice ts (half_window e) (n - half_window e))) D) as (grid & err & dl & EP & RT).
  - unfold get_delta. rewrite (find_none _ _ HF), half_ok. change (e_lmax e) with (p_lmax (as_maps e)). change (order_of (p_lmax (as_maps e)) (e_mmax e)) with (max_order (as_maps e)). rewrite E1, ES.
    cbv zeta. rewrite (s_ms _ _ _ _ _ _ K1). reflexivity.
  - exact K1.
  - lia.
  - do 5 eexists. split; [exact EP|]. split; [exact RD|]. rewrite INR_IZR_INZ. exact RT.
Qed.
Print Assumptions C101_maps.

(** the file is shared with grace_spatial_error: after a run of that program whose file has the same name (netCDF4 or HDF5), the GRACE errors are those of the data of THAT run *)
Theorem C101_shared : forall erf tppf rd rt grace e r n1 n2 ts1 ts2 ms1 ms2 d lon lat, errors_ok e n1 ts1 ms1 -> settings_ok (as_maps e) -> grid_of (-180) (e_ddeg e) (e_interval e) (e_bounds e) lon lat ->
  scale_ok r n2 ts2 ms2 -> not_stored d (error_file e ms1) -> error_file e ms1 = error_file (as_erun r) ms2 -> e_form e <> FAscii ->
  exists d1 g1 grid err delta D, grace_spatial_error erf tppf rd rt grace e d = (d1, Ok (lon, lat, g1)) /\ scale_grace_maps erf tppf rd rt grace r d1 = (d1, Ok (grid, err, delta)) /\
    (forall cs l m, (m <= l <= e_lmax e)%nat -> (m <= max_order (as_maps e))%nat -> residual_rms ts1 (half_window e) n1 (fun t => coefficient e n1 t cs l m) (D cs l m)) /\
    returned r n2 ts2 ms2 D (INR (n1 - 2 * half_window e)) grid err delta.
Proof.
  intros erf tppf rd rt grace e r n1 n2 ts1 ts2 ms1 ms2 d lon lat V1 S1 G1 V HF HE Hf.
  destruct (fresh erf tppf rd rt grace e n1 ts1 ms1 d lon lat V1 S1 G1 HF) as (D & delta & s & g1 & tm & E1 & EW & K & _ & RD & _).
  destruct (same_file _ _ _ _ HE) as (F1 & F2 & F3 & F4). destruct (array_file rd rt grace (e_form e) _ _ _ _ _ _ K (g_order _ _ _ _ _ (proj1 V1)) Hf) as (s' & b & EW' & ER & KR).
  rewrite EW in EW'. injection EW' as <-. rewrite F1, F2 in KR. rewrite HE in E1.
  destruct (scale_main erf tppf rd rt grace r n2 ts2 ms2 V) as (h & _ & Q). destruct (v_run _ _ _ _ V) as (V0 & _). pose proof (g_order _ _ _ _ _ V0) as HM. pose proof (g_degree _ _ _ _ _ V0) as HL.
  pose proof (trunc_ok _ _ _ _ D b 0 KR ltac:(pose proof (mo_pos _ HL); lia) HM) as KT. cbn [Nat.leb] in KT.
  destruct (Q ((error_file (as_erun r) ms2, s) :: d) ((error_file (as_erun r) ms2, s) :: d) (truncate b (Some (p_lmax (as_maps (as_erun r)))) 0 (Some (max_order (as_maps (as_erun r))))) (Z.of_nat (n1 - 2 * half_window e)) tm D) as (grid & err & dl & EP & RT).
  - unfold get_delta. rewrite find_new. cbv zeta. rewrite ER. cbn [bind]. change (e_lmax (as_erun r)) with (p_lmax (as_maps (as_erun r))). change (order_of (p_lmax (as_maps (as_erun r))) (e_mmax (as_erun r))) with (max_order (as_maps (as_erun r))).
    rewrite (s_ms _ _ _ _ _ _ KT). reflexivity.
  - exact KT.
  - destruct V1 as (_ & Hn & _). lia.
  - do 6 eexists. split; [exact E1|]. split; [exact EP|]. split; [exact RD|]. rewrite INR_IZR_INZ. exact RT.
Qed.
Print Assumptions C101_shared.

(** with files to be removed the program always fails, and before the file with the coefficient errors is written: reading such a file replaces the variable that holds the directory *)
Theorem C101_removed_refuted : forall erf tppf rd rt grace r d, x_remove r <> [] -> x_forms r <> [] -> exists x, scale_grace_maps erf tppf rd rt grace r d = (d, Err x).
Proof.
  intros erf tppf rd rt grace r d HR HF. unfold scale_grace_maps. cbv zeta.
  assert (L : (0 <? List.length (map (fun f : harm * remove_form => (fst f, IndexFile)) (with_form (x_remove r) (x_forms r))))%nat = true).
  { rewrite map_length. unfold with_form. rewrite combine_length. destruct (x_remove r) as [|a rs]; [contradiction|]. destruct (x_forms r) as [|b fs]; [contradiction|]. match goal with |- context [if ?c then _ else _] => destruct c end; reflexivity. }
  rewrite L. destruct (smoothing _ _); cbn [bind]; [|eauto]. destruct (centred _ _); cbn [bind]; [|eauto]. destruct (if x_destripe r then _ else _); cbn [bind]; [|eauto].
  destruct (list_of (time _)); cbn [bind]; [|eauto]. destruct (list_of (month _)); cbn [bind]; [|eauto]. destruct (drift _ _ _ _); cbn [bind]; [|eauto]. destruct (_ =? 1)%nat; [eauto|].
  destruct (remove_all _ _ _ _); cbn [bind]; eauto.
Qed.
Print Assumptions C101_removed_refuted.

Definition with_lmin (r : krun) (k : nat) : krun :=
  mkkrun (x_proc r) (x_drel r) (x_dset r) (x_lmax r) (x_rad r) k (x_mmax r) (x_love r) (x_destripe r) (x_atm r) (x_form r) (x_grace r) (x_mean r) (x_gia r) (x_remove r) (x_forms r) (x_redistribute r) (x_ocean r)
    (x_lon r) (x_lat r) (x_factor r) (x_error r) (x_magnitude r) (x_mask r).
Lemma remove_lmin r k ms : forall fs z, remove_all (as_mrun (with_lmin r k)) ms z fs = remove_all (as_mrun r) ms z fs.
Proof. induction fs as [|f fs IH]; intros z; [reflexivity|]. cbn [remove_all]. change (remove_one (as_mrun (with_lmin r k)) ms z f) with (remove_one (as_mrun r) ms z f). destruct (remove_one _ _ _ _); cbn [bind]; auto. Qed.
(** the minimum degree has no effect on the maps and on the leakage error, only on the GRACE error *)
Theorem C101_lmin_refuted : forall erf tppf rd rt grace r k d d1 d2 g1 g2 e1 e2 q1 q2, scale_grace_maps erf tppf rd rt grace r d = (d1, Ok (g1, e1, q1)) ->
  scale_grace_maps erf tppf rd rt grace (with_lmin r k) d = (d2, Ok (g2, e2, q2)) -> g1 = g2 /\ e1 = e2 /\ d1 = d2.
Proof.
  intros erf tppf rd rt grace r k d d1 d2 g1 g2 e1 e2 q1 q2 E1 E2. unfold scale_grace_maps in E1, E2. cbv zeta in E1, E2.
  cbn [with_lmin x_proc x_drel x_dset x_lmax x_rad x_mmax x_love x_destripe x_atm x_form x_grace x_mean x_gia x_remove x_forms x_redistribute x_ocean x_lon x_lat x_factor x_error x_magnitude x_mask] in E2.
  destruct (smoothing _ _) as [wt|]; cbn [bind] in *; [|discriminate]. destruct (centred _ _) as [h1|]; cbn [bind] in *; [|discriminate]. destruct (if x_destripe r then _ else _) as [h|]; cbn [bind] in *; [|discriminate].
  destruct (list_of (time h)) as [ts|]; cbn [bind] in *; [|discriminate]. destruct (list_of (month h)) as [ms|]; cbn [bind] in *; [|discriminate]. destruct (drift _ _ _ _) as [gia|]; cbn [bind] in *; [|discriminate]. destruct (_ =? 1)%nat; [discriminate|].
  rewrite remove_lmin in E2.
  destruct (remove_all _ _ _ _) as [rem|]; cbn [bind] in *; [|discriminate]. destruct (0 <? _)%nat; [discriminate|]. destruct (py_get ms 0) as [m0|]; cbn [bind] in *; [|discriminate]. destruct (py_get ms (-1)) as [m1|]; cbn [bind] in *; [|discriminate].
  match type of E2 with context [get_delta ?a ?b ?c ?f ?g (as_erun (with_lmin r k)) ?k' ?h' ?d'] => change (get_delta a b c f g (as_erun (with_lmin r k)) k' h' d') with (get_delta a b c f g (as_erun r) k' h' d') in E2 end.
  destruct (get_delta _ _ _ _ _ _ _ _ _) as [d' q]. cbn [fst snd] in *. apply pair_equal_spec in E1. destruct E1 as [D1 E1]. apply pair_equal_spec in E2. destruct E2 as [D2 E2]. split; [|split; [|congruence]];
  (destruct q as [[dl N]|]; cbn [bind] in *; [|discriminate]; destruct (plm_holmes _ _ _) as [[P dP]|]; cbn [bind fst snd] in *; [|discriminate]; destruct (squared_ok _ _); cbn [bind] in *; [|discriminate];
   destruct (degree_factor _ _ _) as [df|]; cbn [bind] in *; [|discriminate]; change (scaled_maps (with_lmin r k)) with (scaled_maps r) in E2; destruct (scaled_maps _ _ _ _ _ _ _ _ _) as [g|]; cbn [bind] in *; [|discriminate];
   change (leakage_error (with_lmin r k)) with (leakage_error r) in E2; destruct (leakage_error _ _) as [e|]; cbn [bind] in *; [|discriminate];
   destruct (scaled_delta r _ _ _ _ _); cbn [bind] in *; [|discriminate]; destruct (scaled_delta (with_lmin r k) _ _ _ _ _); cbn [bind] in *; [|discriminate]; congruence).
Qed.
Print Assumptions C101_lmin_refuted.

(** where scale factor and magnitude are zero (no signal), the leakage error is -9999 times the scaling error, not zero: the invalid value of the ratio is replaced before the product *)
Theorem C101_zero_magnitude_refuted : forall erf tppf rd rt grace r n ts ms d, scale_ok r n ts ms -> not_stored d (error_file (as_erun r) ms) ->
  exists d' grid err delta, scale_grace_maps erf tppf rd rt grace r d = (d', Ok (grid, err, delta)) /\
    forall i k x y, nth_error (x_lon r) i = Some x -> nth_error (x_lat r) k = Some y -> -90 < y < 90 -> get (x_mask r) k i 0%nat = false -> get (x_factor r) k i 0 = 0 -> get (x_magnitude r) k i 0 = 0 ->
      (forall t, (t < n)%nat -> get (sdata grid) k i t = Some 0) /\ get (sdata err) k i 0 = Some (get (x_error r) k i 0 * -9999).
Proof.
  intros erf tppf rd rt grace r n ts ms d V HF. destruct (C101_maps erf tppf rd rt grace r n ts ms d V HF) as (d' & grid & err & delta & D & E & _ & (_ & _ & _ & _ & _ & Q)).
  do 4 eexists. split; [exact E|]. intros i k x y Hx Hy Hr Hm HF0 HM0. destruct (Q i k x y Hx Hy Hr Hm) as (v & w & C1 & _ & C3 & _). split.
  - intros t Ht. destruct (C1 t Ht) as (_ & -> & _). rewrite HF0. f_equal. ring.
  - rewrite (C3 HM0). destruct (Req_EM_T _ 0) as [Z|Z]; [reflexivity|]. exfalso. apply Z. rewrite (sumn_ext n _ (fun _ => 0)); [apply sumn_zero|]. intros t _. rewrite HF0. ring.
Qed.
Print Assumptions C101_zero_magnitude_refuted.

(** ** a concrete run: scale factors -1, with noise in the degree zero coefficient, one cell masked *)
Definition ex_krun (f : nat -> nat -> nat -> R) (c m : R) : krun :=
  mkkrun "CSR" "RL06" "GSM" 2 0 0 None ([0; 0; 0], [0; 1 / 2; 1 / 3], [0; 0; 0]) false false FNetcdf (ex_series 13 ex_times ex_months f) (Some (ex_field (fun _ _ => 0))) (ex_field (fun _ _ => 0)) [] [] false (ex_field (fun _ _ => 1))
    [0; 90] [45; 0; -45] (mkarr 3 2 None (fun _ _ _ => c)) (mkarr 3 2 None (fun _ _ _ => 1 / 10)) (mkarr 3 2 None (fun _ _ _ => m)) (mkarr 3 2 None (fun k i _ => ((k =? 2) && (i =? 1))%nat)).
Lemma ex_scale_ok f c m : scale_ok (ex_krun f c m) 13 ex_times ex_months.
Proof.
  assert (HW : half_window (as_erun (ex_krun f c m)) = 6%nat) by reflexivity.
  constructor; try (repeat split; fail); try discriminate.
  - split; [|rewrite HW; split; [lia|]].
    + constructor; cbn [as_maps as_erun ex_krun x_lmin x_lmax x_mmax x_love x_rad x_destripe x_grace x_mean e_lmin e_lmax e_mmax e_love e_rad e_destripe e_units e_ddeg e_interval e_bounds e_grace e_mean p_lmax p_mmax max_order p_grace p_mean p_gia p_remove p_forms p_ocean]; auto; try lia.
      * split; [|repeat split]. repeat split. cbn. exists ex_times, ex_months. auto.
      * unfold ex_months. do 12 (apply sorted2; [lia|]). repeat constructor.
      * intros q E. injection E as <-. repeat split.
      * repeat split.
      * intros k g Hk. destruct k; discriminate.
      * split; [discriminate|]. repeat constructor.
      * repeat split.
    + intros k Hk. assert (k = 0%nat) by lia. subst k. apply ex_separable.
  - split; [left; cbn [ex_krun unscaled x_rad p_rad]; apply Rinv_0_lt_compat; apply pow_lt; Lra.lra|]. split; [cbn; lia|]. exists "cmwe"%string. constructor.
Qed.
Example C101_example : scale_ok (ex_krun (fun l m t => INR l + ex_noise t) 2 3) 13 ex_times ex_months.
Proof. apply ex_scale_ok. Qed.
(** a negative scale factor gives a negative error *)
Theorem C101_negative_refuted : forall erf tppf rd rt grace, exists r n ts ms d grid err delta, scale_ok r n ts ms /\ scale_grace_maps erf tppf rd rt grace r [] = (d, Ok (grid, err, delta)) /\
  forall i k x y, nth_error (x_lon r) i = Some x -> nth_error (x_lat r) k = Some y -> get (x_mask r) k i 0%nat = false -> exists v, get (sdata delta) k i 0 = Some v /\ v < 0.
Proof.
  intros erf tppf rd rt grace. set (r := ex_krun (fun l m t => if (l =? 0)%nat then ex_noise t else 0) (-1) 3). assert (V : scale_ok r 13 ex_times ex_months) by apply ex_scale_ok.
  destruct (C101_maps erf tppf rd rt grace r 13 ex_times ex_months [] V (fun _ X => X)) as (d' & grid & err & delta & D & E & RD & (_ & _ & _ & _ & _ & Q)).
  exists r, 13%nat, ex_times, ex_months, d', grid, err, delta. split; [exact V|]. split; [exact E|]. intros i k x y Hx Hy Hm.
  assert (Hr : -90 < y < 90). { cbn [r ex_krun x_lat] in Hy. destruct k as [|[|[|k]]]; cbn in Hy; [..|destruct k; discriminate]; injection Hy as <-; Lra.lra. }
  destruct (Q i k x y Hx Hy Hr Hm) as (vv & g & _ & _ & _ & (P & u & U & EQ) & ED & _). exists (-1 * g). split; [exact ED|]. clear ED.
  assert (R2 := RD false 0%nat 0%nat ltac:(cbn; lia) ltac:(cbn; lia)). apply noise_rms in R2.
  2:{ intros t Ht. change (ex_noise t - 0 = ex_noise t). ring. }
  assert (U0 := U false 0%nat 0%nat ltac:(cbn; lia) ltac:(cbn; lia)). destruct U0 as (f & w & A & UE). destruct (A 0%nat ltac:(lia)) as [A1 A2].
  set (c := rho_e PropFactors.earth * rad_e PropFactors.earth * (2 * INR 0 + 1) / (3 * (1 + 0))).
  assert (F0 : f 0%nat = c). { apply (factor_unique 1 ([0; 0; 0], [0; 1 / 2; 1 / 3], [0; 0; 0]) 0%nat); [exact A1|]. exists "cmwe"%string. split; constructor. }
  assert (Hc : 0 < c). { unfold c. change (INR 0) with 0. assert (0 < rho_e PropFactors.earth) by (apply UnitsProofs.rho_pos; cbn; Lra.lra). assert (0 < rad_e PropFactors.earth) by (apply UnitsProofs.rad_pos; cbn; Lra.lra).
    replace (rho_e PropFactors.earth * rad_e PropFactors.earth * (2 * 0 + 1) / (3 * (1 + 0))) with (rho_e PropFactors.earth * rad_e PropFactors.earth * / 3) by field. apply Rmult_lt_0_compat; [apply Rmult_lt_0_compat; assumption|Lra.lra]. }
  clearbody c.
  assert (W0 : w 0%nat = 1). { destruct A2 as [[_ A2]|[A2 _]]; [exact A2|]. exfalso. cbn [as_maps as_erun r ex_krun x_rad e_rad p_rad] in A2. assert (0 < / 10 ^ 10) by (apply Rinv_0_lt_compat; apply pow_lt; Lra.lra). Lra.lra. }
  set (v := D false 0%nat 0%nat / sqrt (INR (13 - 2 * half_window (as_erun r)))) in UE.
  assert (N1 : sqrt (INR (13 - 2 * half_window (as_erun r))) = 1) by (replace (13 - 2 * half_window (as_erun r))%nat with 1%nat by reflexivity; change (INR 1) with 1; apply sqrt_1).
  assert (Ev : v ^ 2 = 4) by (unfold v; rewrite N1, <- R2; field). clearbody v.
  assert (U1 : u false 0%nat 0%nat = c * v).
  { rewrite UE. change (p_lmin (as_maps (as_erun r))) with 0%nat. change (p_lmax (as_maps (as_erun r))) with 2%nat. change (max_order (as_maps (as_erun r))) with 2%nat.
    rewrite (series_ext2 _ _ (fun l m => if (Bool.eqb false false && (l =? 0) && (m =? 0))%nat%bool then f l * w l * v else 0) (fun l m => if (Bool.eqb true false && (l =? 0) && (m =? 0))%nat%bool then f l * w l * v else 0)).
    - rewrite (series_only false 0 0 (fun _ l m => f l * w l * v) 0 2 2) by lia. cbn [Nat.leb]. rewrite F0, W0. unfold Nlm, trig. cbn [Nat.eqb Nat.sub Nat.add fact pow Derive_n LegendreSpec.legP]. change (INR 0) with 0. change (INR 1) with 1.
      replace (1 * (2 * 0 + 1) * 1 / 1) with 1 by field. rewrite sqrt_1, Rmult_0_l, cos_0. ring.
    - intros l m _ _. unfold only. split; destruct (Nat.eqb_spec l 0) as [->|], (Nat.eqb_spec m 0) as [->|]; cbn [Bool.eqb andb]; ring. }
  assert (QQ : 0 < g ^ 2).
  { apply (Rlt_le_trans _ (c ^ 2 * 4)); [apply Rmult_lt_0_compat; [apply pow_lt; exact Hc|Lra.lra]|].
    rewrite EQ. change (max_order (as_maps (as_erun r)) + 1)%nat with (S 2). change (p_lmax (as_maps (as_erun r)) + 1)%nat with (S 2). rewrite LegendreFourier.sumn_first. rewrite LegendreFourier.sumn_first. cbn [Nat.leb]. rewrite U1, Rpow_mult_distr, Ev.
    match goal with |- _ <= ?z + ?a + ?b + ?c' => enough (0 <= a /\ 0 <= b /\ 0 <= c') by (generalize dependent a; generalize dependent b; generalize dependent c'; intros; Lra.lra) end. split; [apply pow2_ge_0|].
    split; apply PropKernel.sumn_nonneg; intros j _; [apply Rplus_le_le_0_compat; apply pow2_ge_0|]. apply PropKernel.sumn_nonneg; intros l _. match goal with |- context [if ?b then _ else _] => destruct b end; [|Lra.lra]. apply Rplus_le_le_0_compat; apply pow2_ge_0. }
  destruct P as [P|P]; [Lra.lra|]. exfalso. rewrite <- P in QQ. cbn [pow] in QQ. Lra.lra.
Qed.
Print Assumptions C101_negative_refuted.
