(** Properties C45, C46: clenshaw_summation.py and harmonic_summation.py. *)
From Coq Require Import Reals Lra Lia String ZifyBool ZifyNat.
From Verif Require Import Base UnitsModel GaussModel Arr LegendreSpec LegendreSpec2 LegendreModel LegendreProofs LegendreProofs2 SummationModel SummationProofs PropLegendre.
Close Scope Z_scope.
Close Scope string_scope.
Open Scope R_scope.

(** ** Specification: the spherical harmonic series at colatitude th, longitude phi *)
Definition series (c s : nat -> nat -> R) (lmin lmax mmax : nat) (th phi : R) : R :=
  sumn (mmax + 1) (fun m => sumn (lmax + 1) (fun l =>
    if (lmin <=? l)%nat then Nlm l m (cos th) * (c l m * cos (INR m * phi) + s l m * sin (INR m * phi)) else 0)).
(** coefficients of a 2-d array *)
Definition cf (a : arr R) : nat -> nat -> R := fun l m => get a l m 0.

Lemma sin_cos_u th : 0 <= sin th -> sqrt (1 - cos th ^ 2) = sin th.
Proof.
  intros H. replace (1 - cos th ^ 2) with (Rsqr (sin th)) by (rewrite sin2; unfold Rsqr; ring). now apply sqrt_Rsqr.
Qed.
Lemma colat_sin y : -90 <= y <= 90 -> 0 <= sin (colat y).
Proof. intros H. pose proof PI_RGT_0. apply sin_ge_0; unfold colat; nra. Qed.
Lemma colat_sin_pos y : -90 < y < 90 -> 0 < sin (colat y).
Proof. intros H. pose proof PI_RGT_0. apply sin_gt_0; unfold colat; nra. Qed.
Lemma colat_cos_in y : -90 < y < 90 -> -1 < cos (colat y) < 1.
Proof.
  intros H. pose proof (colat_sin_pos y H) as S. pose proof (sin2_cos2 (colat y)) as Q. unfold Rsqr in Q. nra.
Qed.

(** ** C45 *)
Theorem C45_values : forall c1 s1 lon lat RAD U LMAX LOVE SC w df, (1 <= LMAX)%nat -> SC <> 0 ->
  List.length lat = List.length lon -> smoothing RAD LMAX = Ok w -> degree_factor LMAX U LOVE = Ok df ->
  List.length df = (LMAX + 1)%nat -> List.length w = (LMAX + 1)%nat ->
  (LMAX < rows c1)%nat -> (LMAX < cols c1)%nat -> (LMAX < rows s1)%nat -> (LMAX < cols s1)%nat ->
  exists out, clenshaw_summation c1 s1 lon lat RAD U LMAX LOVE SC = Ok out /\ List.length out = List.length lon /\
    forall i x y, nth_error lon i = Some x -> nth_error lat i = Some y -> -90 <= y <= 90 ->
      nth_error out i = Some (series (fun l m => nth l df 0 * nth l w 0 * cf c1 l m) (fun l m => nth l df 0 * nth l w 0 * cf s1 l m)
                                0 LMAX LMAX (colat y) (deg x)).
Proof.
  intros c1 s1 lon lat RAD U LMAX LOVE SC w df HL HS Hlen Hw Hd Ld Lw A1 A2 A3 A4. unfold clenshaw_summation.
  rewrite Hlen, Nat.eqb_refl. cbn [negb]. rewrite Hw, Hd. cbn [bind]. unfold np_mul1. rewrite Ld, Lw, Nat.eqb_refl. cbn [bind].
  set (f := map _ (combine df w)).
  assert (Lf : List.length f = (LMAX + 1)%nat) by (unfold f; rewrite map_length, combine_length; lia).
  rewrite Lf. replace (LMAX + 1 <? LMAX + 1)%nat with false by lia.
  replace ((rows c1 <? LMAX + 1) || (cols c1 <? LMAX + 1) || (rows s1 <? LMAX + 1) || (cols s1 <? LMAX + 1))%nat with false by lia.
  eexists. split; [reflexivity|]. rewrite map_length, combine_length, Hlen, Nat.min_id. split; [reflexivity|].
  intros i x y Hx Hy Hb.
  assert (Hc : nth_error (combine lon lat) i = Some (x, y)).
  { clear -Hx Hy. revert lon lat Hx Hy. induction i as [|i IH]; intros [|a lon] [|b lat] Hx Hy; try discriminate; cbn in *; [congruence|now apply IH]. }
  rewrite (map_nth_error _ _ _ Hc). f_equal. rewrite clenshaw_point_ok by assumption. unfold series.
  apply sumn_ext. intros m Hm. apply sumn_ext. intros l Hl. cbn [Nat.leb].
  rewrite Nlm_NU, sin_cos_u by (now apply colat_sin).
  assert (En : nth l f 0 = nth l df 0 * nth l w 0).
  { apply nth_error_nth. unfold f. rewrite (map_nth_error _ _ _ (d := (nth l df 0, nth l w 0))); [reflexivity|].
    rewrite (nth_error_nth' _ (0, 0)) by (rewrite combine_length; lia). now rewrite combine_nth by lia. }
  rewrite En. unfold cf. ring.
Qed.
Print Assumptions C45_values.

(** the internal scale factor has no effect *)
Theorem C45_scale_free : forall c1 s1 lon lat RAD U LMAX LOVE SC SC', SC <> 0 -> SC' <> 0 ->
  clenshaw_summation c1 s1 lon lat RAD U LMAX LOVE SC = clenshaw_summation c1 s1 lon lat RAD U LMAX LOVE SC'.
Proof.
  intros c1 s1 lon lat RAD U LMAX LOVE SC SC' H H'. unfold clenshaw_summation. destruct (negb _); [reflexivity|].
  destruct (smoothing RAD LMAX) as [w|]; [|reflexivity]. cbn [bind]. destruct (degree_factor LMAX U LOVE) as [df|]; [|reflexivity]. cbn [bind].
  destruct (np_mul1 df w) as [f|]; [|reflexivity]. cbn [bind]. destruct (_ <? _)%nat; [reflexivity|]. destruct (_ || _)%bool; [reflexivity|].
  f_equal. apply map_ext. intros [x y]. destruct LMAX as [|k].
  - rewrite !clenshaw_point_0 by assumption. reflexivity.
  - rewrite !clenshaw_point_ok by (lia || assumption). reflexivity.
Qed.

(** REFUTED for LMAX = 0, the default: a constant field gains a term proportional
    to the sine of the colatitude *)
Theorem C45_degree0_refuted : forall c1 s1 x y v SC, SC <> 0 -> (1 <= rows c1)%nat -> (1 <= cols c1)%nat -> (1 <= rows s1)%nat -> (1 <= cols s1)%nat ->
  -90 < y < 90 -> v <> 0 -> cf c1 0 0 = 1 ->
  clenshaw_summation c1 s1 [x] [y] 0 (UCustom [v]) 0 None SC = Ok [v * (1 + sqrt 3 * sin (colat y))] /\
  v * (1 + sqrt 3 * sin (colat y)) <> v /\
  series (fun l m => v * cf c1 l m) (fun l m => v * cf s1 l m) 0 0 0 (colat y) (deg x) = v.
Proof.
  intros c1 s1 x y v SC HS A1 A2 A3 A4 Hy Hv Hc. split; [|split].
  - unfold clenshaw_summation. cbn [List.length Nat.eqb negb]. unfold smoothing. destruct (Req_EM_T 0 0) as [_|N]; [|lra].
    cbn [bind degree_factor Nat.add repeat np_mul1 List.length Nat.eqb combine map Nat.ltb Nat.leb].
    replace ((rows c1 <=? 0) || (cols c1 <=? 0) || (rows s1 <=? 0) || (cols s1 <=? 0))%nat with false by lia.
    do 2 f_equal. rewrite clenshaw_point_0 by exact HS. cbn [nth]. unfold cf in Hc. rewrite Hc. rewrite !Rmult_1_r. reflexivity.
  - pose proof (colat_sin_pos y Hy). assert (0 < sqrt 3) by (apply sqrt_lt_R0; lra). intros E.
    assert (v * (sqrt 3 * sin (colat y)) = 0) by lra. apply Rmult_integral in H1. destruct H1 as [|H1]; [contradiction|].
    apply Rmult_integral in H1. destruct H1; lra.
  - unfold series. cbn [Nat.add sumn Nat.leb INR]. rewrite Nlm_NU, NU_0_0. rewrite !Rmult_0_l, cos_0, sin_0, Hc. ring.
Qed.

(** ** C46 *)
Lemma load_ok c1 LMIN LMAX MM : (LMAX < rows c1)%nat -> (MM < cols c1)%nat ->
  load_block c1 LMIN LMAX MM = Ok (fun l m => if ((LMIN <=? l) && (l <=? LMAX) && (m <=? MM))%nat then get c1 l m 0 else 0).
Proof.
  intros H1 H2. unfold load_block. replace (cols c1 <? MM + 1)%nat with false by lia.
  replace (Nat.min (rows c1) (LMAX + 1) - LMIN =? LMAX + 1 - LMIN)%nat with true by lia. reflexivity.
Qed.

(** sums with any table P of functions *)
Definition series_P (P : nat -> nat -> R) (c s : nat -> nat -> R) (lmin lmax mmax : nat) (phi : R) : R :=
  sumn (mmax + 1) (fun m => sumn (lmax + 1) (fun l =>
    if (lmin <=? l)%nat then P l m * (c l m * cos (INR m * phi) + s l m * sin (INR m * phi)) else 0)).
Lemma inner_eq P c s lmin lmax mmax phi m : (m <= mmax)%nat ->
  cos (INR m * phi) * sumn (lmax + 1) (fun l => P l m * (if ((lmin <=? l) && (l <=? lmax) && (m <=? mmax))%nat then c l m else 0)) +
  sin (INR m * phi) * sumn (lmax + 1) (fun l => P l m * (if ((lmin <=? l) && (l <=? lmax) && (m <=? mmax))%nat then s l m else 0)) =
  sumn (lmax + 1) (fun l => if (lmin <=? l)%nat then P l m * (c l m * cos (INR m * phi) + s l m * sin (INR m * phi)) else 0).
Proof.
  intros Hm. rewrite <- !sumn_scal, <- sumn_plus. apply sumn_ext. intros l Hl. replace (l <=? lmax)%nat with true by lia. replace (m <=? mmax)%nat with true by lia.
  rewrite !andb_true_r. destruct (lmin <=? l)%nat; ring.
Qed.

Lemma hs_given c1 s1 lon lat LMIN LMAX MMAX P : (1 <= LMAX)%nat -> let MM := upto_order MMAX LMAX in
  List.length lon <> 1%nat -> List.length lat <> 1%nat -> (LMAX < rows c1)%nat -> (MM < cols c1)%nat -> (LMAX < rows s1)%nat -> (MM < cols s1)%nat ->
  rows P = (LMAX + 1)%nat -> (MM < cols P)%nat -> (List.length lat <= nslice P)%nat ->
  exists out, harmonic_summation c1 s1 lon lat LMIN LMAX MMAX (Some P) = Ok out /\
    List.length out = List.length lon /\
    forall i x k, nth_error lon i = Some x -> (k < List.length lat)%nat ->
      at2 out i k = Some (series_P (fun l m => get P l m k) (cf c1) (cf s1) LMIN LMAX MM (deg x)).
Proof.
  intros HL MM Hlon Hlat A1 A2 A3 A4 P1 P2 P3. unfold harmonic_summation. cbv zeta.
  assert (EL : eff_lmax LMAX c1 = LMAX) by (unfold eff_lmax; replace (LMAX =? 0)%nat with false by lia; reflexivity). rewrite EL. fold MM.
  replace (List.length lon =? 1)%nat with false by lia. replace (List.length lat =? 1)%nat with false by lia. cbn [bind].
  rewrite !load_ok by lia. cbn [bind]. unfold check_plm. replace ((cols P <? MM + 1) || (nslice P <? List.length lat))%nat with false by lia.
  rewrite P1, Nat.eqb_refl. cbn [bind]. eexists. split; [reflexivity|]. rewrite map_length. split; [reflexivity|].
  intros i x k Hi Hk. unfold at2. rewrite (map_nth_error _ _ _ Hi).
  rewrite (map_nth_error _ k (seq 0 (List.length lat)) (d := k)).
  2:{ rewrite (nth_error_nth' _ 0%nat) by (rewrite seq_length; exact Hk). now rewrite seq_nth. }
  f_equal. rewrite <- sumn_plus. unfold series_P. apply sumn_ext. intros m Hm.
  exact (inner_eq (fun l m => get P l m k) (cf c1) (cf s1) LMIN LMAX MM (deg x) m ltac:(lia)).
Qed.
Lemma hs_none c1 s1 lon lat LMIN LMAX MMAX P D : (1 <= LMAX)%nat ->
  plm_holmes LMAX (map (fun x => cos (colat x)) lat) None = Ok (P, D) -> List.length lon <> 1%nat -> List.length lat <> 1%nat ->
  harmonic_summation c1 s1 lon lat LMIN LMAX MMAX None = harmonic_summation c1 s1 lon lat LMIN LMAX MMAX (Some P).
Proof.
  intros HL E Hlon Hlat. unfold harmonic_summation. cbv zeta.
  assert (EL : eff_lmax LMAX c1 = LMAX) by (unfold eff_lmax; replace (LMAX =? 0)%nat with false by lia; reflexivity). rewrite EL, E.
  replace (List.length lon =? 1)%nat with false by lia. replace (List.length lat =? 1)%nat with false by lia. reflexivity.
Qed.

Lemma holmes_rows LMAX xs : (2 <= LMAX)%nat -> exists P D, plm_holmes LMAX xs None = Ok (P, D) /\
  rows P = (LMAX + 1)%nat /\ cols P = (LMAX + 1)%nat /\ nslice P = List.length xs /\
  forall l m t x, (l <= LMAX)%nat -> (m <= LMAX)%nat -> nth_error xs t = Some x -> -1 < x < 1 -> get P l m t = Nlm l m x.
Proof.
  intros HL. destruct (all_tables LMAX xs "holmes"%string None HL ltac:(cbn; lia) ltac:(cbn; tauto)) as (p & d & E & R1 & R2 & R3 & _ & _ & _ & V).
  exists p, d. unfold associated_legendre in E. cbn [String.eqb Ascii.eqb Bool.eqb] in E. split; [exact E|].
  split; [exact R1|]. split; [exact R2|]. split; [unfold nslice; now rewrite R3|].
  intros l m t x Hl Hm Ht Hx. destruct (V l m t x Hl Hm Ht) as [-> _]. rewrite uval_in by exact Hx. symmetry. apply Nlm_NU.
Qed.

(** the grid holds the series truncated to LMIN..LMAX and orders <= MMAX *)
Theorem C46_values : forall c1 s1 lon lat LMIN LMAX MMAX, (2 <= LMAX)%nat -> (upto_order MMAX LMAX <= LMAX)%nat ->
  List.length lon <> 1%nat -> List.length lat <> 1%nat ->
  (LMAX < rows c1)%nat -> (upto_order MMAX LMAX < cols c1)%nat -> (LMAX < rows s1)%nat -> (upto_order MMAX LMAX < cols s1)%nat ->
  exists out, harmonic_summation c1 s1 lon lat LMIN LMAX MMAX None = Ok out /\ List.length out = List.length lon /\
    forall i k x y, nth_error lon i = Some x -> nth_error lat k = Some y -> -90 < y < 90 ->
      at2 out i k = Some (series (cf c1) (cf s1) LMIN LMAX (upto_order MMAX LMAX) (colat y) (deg x)).
Proof.
  intros c1 s1 lon lat LMIN LMAX MMAX HL HM Hlon Hlat A1 A2 A3 A4.
  destruct (holmes_rows LMAX (map (fun x => cos (colat x)) lat) HL) as (P & D & E & P1 & P2 & P3 & V). rewrite map_length in P3.
  rewrite (hs_none _ _ _ _ _ _ _ P D) by (lia || assumption).
  destruct (hs_given c1 s1 lon lat LMIN LMAX MMAX P) as (out & Eo & Lo & Vo); try lia.
  exists out. do 2 (split; [assumption|]). intros i k x y Hi Hk Hy.
  rewrite (Vo i x k Hi) by (apply nth_error_Some; congruence). f_equal. unfold series_P, series.
  apply sumn_ext. intros m Hm. apply sumn_ext. intros l Hl. destruct (LMIN <=? l)%nat; [|reflexivity].
  rewrite (V l m k (cos (colat y))); [reflexivity|lia|lia| |now apply colat_cos_in].
  now apply (map_nth_error (fun x => cos (colat x))).
Qed.
Print Assumptions C46_values.

(** linear in the coefficients, with any supplied Legendre table *)
Definition acomb (a b : R) (u v : arr R) : arr R := mkarr (rows u) (cols u) (depth u) (fun l m t => a * get u l m t + b * get v l m t).
Theorem C46_linear : forall a b c1 s1 c2 s2 lon lat LMIN LMAX MMAX P, (1 <= LMAX)%nat -> let MM := upto_order MMAX LMAX in
  List.length lon <> 1%nat -> List.length lat <> 1%nat ->
  (LMAX < rows c1)%nat -> (MM < cols c1)%nat -> (LMAX < rows s1)%nat -> (MM < cols s1)%nat -> same_shape c1 c2 -> same_shape s1 s2 ->
  rows P = (LMAX + 1)%nat -> (MM < cols P)%nat -> (List.length lat <= nslice P)%nat ->
  exists o1 o2 o, harmonic_summation c1 s1 lon lat LMIN LMAX MMAX (Some P) = Ok o1 /\ harmonic_summation c2 s2 lon lat LMIN LMAX MMAX (Some P) = Ok o2 /\
    harmonic_summation (acomb a b c1 c2) (acomb a b s1 s2) lon lat LMIN LMAX MMAX (Some P) = Ok o /\
    forall i k, (i < List.length lon)%nat -> (k < List.length lat)%nat -> exists v1 v2,
      at2 o1 i k = Some v1 /\ at2 o2 i k = Some v2 /\ at2 o i k = Some (a * v1 + b * v2).
Proof.
  intros a b c1 s1 c2 s2 lon lat LMIN LMAX MMAX P HL MM Hlon Hlat A1 A2 A3 A4 (B1 & B2 & B3) (B4 & B5 & B6) P1 P2 P3.
  destruct (hs_given c1 s1 lon lat LMIN LMAX MMAX P) as (o1 & E1 & _ & V1); try assumption.
  destruct (hs_given c2 s2 lon lat LMIN LMAX MMAX P) as (o2 & E2 & _ & V2); try assumption; try (fold MM; lia).
  destruct (hs_given (acomb a b c1 c2) (acomb a b s1 s2) lon lat LMIN LMAX MMAX P) as (o & E & _ & V); try assumption.
  exists o1, o2, o. do 3 (split; [assumption|]). intros i k Hi Hk.
  assert (Hx : nth_error lon i = Some (nth i lon 0)) by (now apply nth_error_nth').
  do 2 eexists. split; [apply (V1 i _ k Hx Hk)|]. split; [apply (V2 i _ k Hx Hk)|]. rewrite (V i _ k Hx Hk). f_equal.
  unfold series_P. rewrite <- !sumn_scal, <- sumn_plus. apply sumn_ext. intros m _. rewrite <- !sumn_scal, <- sumn_plus. apply sumn_ext. intros l _.
  unfold cf, acomb. cbn [get]. destruct (LMIN <=? l)%nat; ring.
Qed.

(** stokes_summation sums the coefficients scaled by unit factor and filter weight *)
Theorem C46_stokes : forall c1 s1 lon lat LMIN LMAX MMAX RAD U LOVE w df, (2 <= LMAX)%nat -> (upto_order MMAX LMAX <= LMAX)%nat ->
  List.length lon <> 1%nat -> List.length lat <> 1%nat -> smoothing RAD LMAX = Ok w -> degree_factor LMAX U LOVE = Ok df -> (LMAX < List.length df)%nat ->
  (LMAX < rows c1)%nat -> (upto_order MMAX LMAX < cols c1)%nat -> (LMAX < rows s1)%nat -> (upto_order MMAX LMAX < cols s1)%nat ->
  exists out, stokes_summation c1 s1 lon lat LMIN LMAX MMAX RAD U LOVE None = Ok out /\ List.length out = List.length lon /\
    forall i k x y, nth_error lon i = Some x -> nth_error lat k = Some y -> -90 < y < 90 ->
      at2 out i k = Some (series (fun l m => nth l w 0 * nth l df 0 * cf c1 l m) (fun l m => nth l w 0 * nth l df 0 * cf s1 l m)
                            LMIN LMAX (upto_order MMAX LMAX) (colat y) (deg x)).
Proof.
  intros c1 s1 lon lat LMIN LMAX MMAX RAD U LOVE w df HL HM Hlon Hlat Hw Hd Ld A1 A2 A3 A4. unfold stokes_summation. cbv zeta.
  assert (EL : eff_lmax LMAX c1 = LMAX) by (unfold eff_lmax; replace (LMAX =? 0)%nat with false by lia; reflexivity). rewrite EL, Hw, Hd. cbn [bind].
  replace (List.length df <? LMAX + 1)%nat with false by lia. set (MM := upto_order MMAX LMAX) in *.
  replace ((rows c1 <? LMAX + 1) || (cols c1 <? MM + 1) || (rows s1 <? LMAX + 1) || (cols s1 <? MM + 1))%nat with false by lia.
  set (c' := mkarr _ _ _ (fun l m t => _ * get c1 l m 0)). set (s' := mkarr _ _ _ (fun l m t => _ * get s1 l m 0)).
  destruct (C46_values c' s' lon lat LMIN LMAX (Some MM)) as (out & E & Lo & V); cbn [upto_order c' s' rows cols]; try lia.
  exists out. do 2 (split; [assumption|]). exact V.
Qed.
Print Assumptions C46_stokes.

(** Clenshaw summation at scattered points equals the gridded direct summation *)
Theorem C45_equals_direct : forall c1 s1 lon lat RAD U LMAX LOVE SC w df, (2 <= LMAX)%nat -> SC <> 0 ->
  List.length lat = List.length lon -> List.length lon <> 1%nat -> smoothing RAD LMAX = Ok w -> degree_factor LMAX U LOVE = Ok df ->
  List.length df = (LMAX + 1)%nat -> List.length w = (LMAX + 1)%nat ->
  (LMAX < rows c1)%nat -> (LMAX < cols c1)%nat -> (LMAX < rows s1)%nat -> (LMAX < cols s1)%nat ->
  (forall y, In y lat -> -90 < y < 90) ->
  exists pts grid, clenshaw_summation c1 s1 lon lat RAD U LMAX LOVE SC = Ok pts /\
    stokes_summation c1 s1 lon lat 0 LMAX None RAD U LOVE None = Ok grid /\
    forall i, (i < List.length lon)%nat -> exists v, nth_error pts i = Some v /\ at2 grid i i = Some v.
Proof.
  intros c1 s1 lon lat RAD U LMAX LOVE SC w df HL HS Hlen Hl1 Hw Hd Ld Lw A1 A2 A3 A4 Hy.
  destruct (C45_values c1 s1 lon lat RAD U LMAX LOVE SC w df) as (pts & E1 & L1 & V1); try assumption; try lia.
  destruct (C46_stokes c1 s1 lon lat 0 LMAX None RAD U LOVE w df) as (grid & E2 & L2 & V2); try assumption; cbn [upto_order]; try lia.
  exists pts, grid. do 2 (split; [assumption|]). intros i Hi.
  assert (Hx : nth_error lon i = Some (nth i lon 0)) by (now apply nth_error_nth').
  assert (Hyy : nth_error lat i = Some (nth i lat 0)) by (apply nth_error_nth'; lia).
  assert (B : -90 < nth i lat 0 < 90) by (apply Hy; apply nth_In; lia).
  eexists. split; [apply (V1 i _ _ Hx Hyy); lra|]. rewrite (V2 i i _ _ Hx Hyy B). f_equal. cbn [upto_order]. unfold series.
  apply sumn_ext. intros m _. apply sumn_ext. intros l _. destruct (0 <=? l)%nat; [|reflexivity]. ring.
Qed.
Print Assumptions C45_equals_direct.

(** ** harmonic_transform: the same series on the global longitude grid
    360 j/(n-1); orders >= n-1 are dropped *)
Lemma ifft_ok re im len n j phi : (1 <= n)%nat -> phi = 2 * PI * INR j / INR n ->
  2 * INR n * ifft_re re im len n j = sumn (Nat.min len n) (fun m => 2 * (re m * cos (INR m * phi) - im m * sin (INR m * phi))).
Proof.
  intros Hn ->. assert (Pn : 0 < INR n) by (apply lt_0_INR; lia). unfold ifft_re.
  replace (2 * INR n * (/ INR n * sumn (Nat.min len n) (fun m => re m * cos (2 * PI * INR j * INR m / INR n) - im m * sin (2 * PI * INR j * INR m / INR n))))
    with (2 * sumn (Nat.min len n) (fun m => re m * cos (2 * PI * INR j * INR m / INR n) - im m * sin (2 * PI * INR j * INR m / INR n))) by (field; lra).
  rewrite <- sumn_scal. apply sumn_ext. intros m _.
  replace (2 * PI * INR j * INR m / INR n) with (INR m * (2 * PI * INR j / INR n)) by (field; lra). reflexivity.
Qed.

Theorem C46_transform : forall c1 s1 n lat LMIN LMAX, (2 <= LMAX)%nat -> (2 <= n)%nat -> List.length lat <> 1%nat ->
  (LMAX < rows c1)%nat -> (LMAX < cols c1)%nat -> (LMAX < rows s1)%nat -> (LMAX < cols s1)%nat ->
  exists out, harmonic_transform c1 s1 true n lat LMIN LMAX None None = Ok out /\ List.length out = n /\
    forall j k y, (j < n)%nat -> nth_error lat k = Some y -> -90 < y < 90 ->
      at2 out j k = Some (series (cf c1) (cf s1) LMIN LMAX (Nat.min LMAX (n - 2)) (colat y) (deg (360 * INR j / INR (n - 1)))).
Proof.
  intros c1 s1 n lat LMIN LMAX HL Hn Hlat A1 A2 A3 A4.
  destruct (holmes_rows LMAX (map (fun x => cos (colat x)) lat) HL) as (P & D & E & P1 & P2 & P3 & V). rewrite map_length in P3.
  unfold harmonic_transform. cbv zeta.
  assert (EL : eff_lmax LMAX c1 = LMAX) by (unfold eff_lmax; replace (LMAX =? 0)%nat with false by lia; reflexivity). rewrite EL. cbn [upto_order negb].
  replace (n =? 1)%nat with false by lia. replace (List.length lat =? 1)%nat with false by lia. rewrite E. cbn [bind fst].
  replace (cols c1 <? LMAX + 1)%nat with false by lia. replace (cols s1 <? LMAX + 1)%nat with false by lia. rewrite !load_ok by lia. cbn [bind].
  rewrite P1, P2, P3, !Nat.eqb_refl. replace (List.length lat <? List.length lat)%nat with false by lia. cbn [andb].
  replace (if (List.length lat =? 0)%nat then Ok tt else Ok tt) with (@Ok unit tt) by (destruct (List.length lat =? 0)%nat; reflexivity). cbn [bind].
  set (row := fun j => map _ (seq 0 (List.length lat))). eexists. split; [reflexivity|].
  split; [rewrite app_length, map_length, seq_length; cbn [List.length]; lia|].
  assert (Hrow : forall j k y, nth_error lat k = Some y -> -90 < y < 90 -> forall phi, phi = 2 * PI * INR j / INR (n - 1) ->
    nth_error (row j) k = Some (series (cf c1) (cf s1) LMIN LMAX (Nat.min LMAX (n - 2)) (colat y) phi)).
  { intros j k y Hk Hy phi Ephi. unfold row.
    assert (Hkl : (k < List.length lat)%nat) by (apply nth_error_Some; congruence).
    rewrite (map_nth_error _ k (seq 0 (List.length lat)) (d := k)).
    2:{ rewrite (nth_error_nth' _ 0%nat) by (rewrite seq_length; exact Hkl). now rewrite seq_nth. }
    f_equal. rewrite (ifft_ok _ _ _ _ _ phi) by (lia || exact Ephi). unfold series.
    replace (Nat.min (LMAX + 1) (n - 1)) with (Nat.min LMAX (n - 2) + 1)%nat by lia. apply sumn_ext. intros m Hm.
    pose proof (inner_eq (fun l m => get P l m k) (cf c1) (cf s1) LMIN LMAX LMAX phi m ltac:(lia)) as I. cbv beta in I.
    assert (Nn : sumn (LMAX + 1) (fun l => get P l m k * - (if ((LMIN <=? l) && (l <=? LMAX) && (m <=? LMAX))%nat then get s1 l m 0 else 0)) =
       - sumn (LMAX + 1) (fun l => get P l m k * (if ((LMIN <=? l) && (l <=? LMAX) && (m <=? LMAX))%nat then get s1 l m 0 else 0))).
    { rewrite <- (Rmult_1_l (sumn _ _)) at 1. replace (- sumn (LMAX + 1) (fun l => get P l m k * (if ((LMIN <=? l) && (l <=? LMAX) && (m <=? LMAX))%nat then get s1 l m 0 else 0)))
        with (-1 * sumn (LMAX + 1) (fun l => get P l m k * (if ((LMIN <=? l) && (l <=? LMAX) && (m <=? LMAX))%nat then get s1 l m 0 else 0))) by ring.
      rewrite <- !sumn_scal. apply sumn_ext. intros; ring. }
    rewrite Nn. transitivity (sumn (LMAX + 1) (fun l => if (LMIN <=? l)%nat then get P l m k * (cf c1 l m * cos (INR m * phi) + cf s1 l m * sin (INR m * phi)) else 0)).
    - rewrite <- I. unfold cf. field.
    - apply sumn_ext. intros l Hl. destruct (LMIN <=? l)%nat; [|reflexivity]. rewrite (V l m k (cos (colat y))); [reflexivity|lia|lia| |now apply colat_cos_in].
      now apply (map_nth_error (fun x => cos (colat x))). }
  intros j k y Hj Hk Hy. unfold at2. assert (Pn : 0 < INR (n - 1)) by (apply lt_0_INR; lia).
  destruct (Nat.lt_ge_cases j (n - 1)) as [L|G].
  - rewrite nth_error_app1 by (rewrite map_length, seq_length; lia).
    rewrite (map_nth_error _ j (seq 0 (n - 1)) (d := j)).
    2:{ rewrite (nth_error_nth' _ 0%nat) by (rewrite seq_length; lia). now rewrite seq_nth. }
    apply Hrow; [assumption|assumption|]. unfold deg. field. lra.
  - assert (j = n - 1)%nat by lia. subst j. rewrite nth_error_app2 by (rewrite map_length, seq_length; lia).
    rewrite map_length, seq_length, Nat.sub_diag. change (nth_error [row 0%nat] 0) with (Some (row 0%nat)). cbv iota.
    etransitivity; [apply (Hrow 0%nat k y Hk Hy 0); cbn [INR]; unfold Rdiv; ring|]. f_equal. unfold series. apply sumn_ext. intros m _. apply sumn_ext. intros l _.
    destruct (LMIN <=? l)%nat; [|reflexivity]. replace (deg (360 * INR (n - 1) / INR (n - 1))) with (2 * PI) by (unfold deg; field; lra).
    replace (INR m * 0) with 0 by ring. replace (INR m * (2 * PI)) with (0 + 2 * INR m * PI) by ring.
    rewrite cos_period, sin_period. reflexivity.
Qed.
Print Assumptions C46_transform.

(** REFUTED: an order limit below the degree limit is rejected by
    harmonic_transform (the Legendre table is not truncated) *)
Theorem C46_transform_mmax_refuted : forall c1 s1 n lat LMIN LMAX k, (2 <= LMAX)%nat -> (n <> 1)%nat -> (2 <= List.length lat)%nat -> (k < LMAX)%nat ->
  (LMAX < rows c1)%nat -> (LMAX < cols c1)%nat -> (LMAX < rows s1)%nat -> (LMAX < cols s1)%nat ->
  harmonic_transform c1 s1 true n lat LMIN LMAX (Some k) None = Err ValueError.
Proof.
  intros c1 s1 n lat LMIN LMAX k HL Hn Hlat Hk A1 A2 A3 A4.
  destruct (holmes_rows LMAX (map (fun x => cos (colat x)) lat) HL) as (P & D & E & P1 & P2 & P3 & V).
  unfold harmonic_transform. cbv zeta.
  assert (EL : eff_lmax LMAX c1 = LMAX) by (unfold eff_lmax; replace (LMAX =? 0)%nat with false by lia; reflexivity). rewrite EL. cbn [upto_order negb].
  replace (n =? 1)%nat with false by lia. replace (List.length lat =? 1)%nat with false by lia. rewrite E. cbn [bind fst].
  replace (cols c1 <? k + 1)%nat with false by lia. replace (cols s1 <? k + 1)%nat with false by lia. rewrite !load_ok by lia. cbn [bind].
  replace (List.length lat =? 0)%nat with false by lia. rewrite P2. replace (LMAX + 1 =? k + 1)%nat with false by lia. reflexivity.
Qed.
(** REFUTED: a single longitude or latitude is not accepted *)
Theorem C46_single_point_refuted : forall c1 s1 x y lat LMIN LMAX MMAX P,
  harmonic_summation c1 s1 [x] lat LMIN LMAX MMAX P = Err IndexError /\
  forall lon, List.length lon <> 1%nat -> harmonic_summation c1 s1 lon [y] LMIN LMAX MMAX P = Err TypeError.
Proof.
  intros. split; [reflexivity|]. intros lon H. unfold harmonic_summation. cbv zeta. replace (List.length lon =? 1)%nat with false by lia. reflexivity.
Qed.

(** hypotheses are satisfiable *)
Example C46_example : let one := mkarr 3 3 None (fun _ _ _ => 1) in
  exists pts grid, clenshaw_summation one one [10; 20] [30; 40] 0 (UCustom [1; 1; 1]) 2 None (/ 10 ^ 280) = Ok pts /\
    stokes_summation one one [10; 20] [30; 40] 0 2 None 0 (UCustom [1; 1; 1]) None None = Ok grid /\
    forall i, (i < 2)%nat -> exists v, nth_error pts i = Some v /\ at2 grid i i = Some v.
Proof.
  intros one. apply (C45_equals_direct one one [10; 20] [30; 40] 0 (UCustom [1; 1; 1]) 2 None (/ 10 ^ 280) [1; 1; 1] [1; 1; 1]); try reflexivity; cbn [List.length one rows cols]; try lia.
  - apply Rinv_neq_0_compat, pow_nonzero. lra.
  - unfold smoothing. destruct (Req_EM_T 0 0) as [_|N]; [reflexivity|lra].
  - intros y [<-|[<-|[]]]; lra.
Qed.
