(** Property C96: the geocenter solution of calc_degree_one.py.  The specification (cell areas, the three degree one functions, mass of a field) is at the top of
    DegreeOneProofs; a sea level is a function of the cell. *)
From Coq Require Import Reals Lra Lia String List ZifyBool ZifyNat FunctionalExtensionality.
From Coquelicot Require Import Coquelicot.
From Verif Require Import Base UnitsModel UnitsProofs GaussModel Arr HarmModel LegendreSpec LegendreSpec2 LegendreModel LegendreProofs LegendreProofs2
  SummationModel SummationProofs LegendreOneModel LegendreOneProofs GenModel GenProofs PropGen LegendreFourier Parseval SleModel SleProofs PropSle DestripeModel DestripeProofs LinAlg Lstsq PropSmooth MasconFitModel DegreeOneModel DegreeOneProofs.
Import ListNotations.
Close Scope Z_scope.
Close Scope string_scope.
Open Scope R_scope.

(** ** Specification *)
(** mass at month t: the measured degrees 2 and above, and degree one coefficients x, both without GIA and the atmosphere correction;
    f is the smoothing weight of degree one *)
Definition total (r : run) (w : list R) (f : R) (x : nat -> R) (t i j : nat) : R :=
  mass r w 2 (fun cs l m => r_gsm r t cs l m - r_gia r t cs l m - r_atm r t cs l m) i j
  + f * water r 1 * sumn 3 (fun c => (x c - deg1_of (r_gia r t) c - deg1_of (r_atm r t) c) * axis r c i j).
Definition kl (r : run) : list R := snd (fst (r_love r)).
Definition hl (r : run) : list R := fst (fst (r_love r)).
(** the sea level of the sea level equation (C50) for a load M on land, by default body tide and fluid Love numbers *)
Definition fingerprint_of (r : run) (M : nat -> nat -> R) (h : nat -> nat -> R) : Prop :=
  exists C Sn n, (1 <= n <= 3)%nat /\
   (forall l m, (m <= l <= r_exp r)%nat -> get C l m 0 = cmwe_factor (kl r) (r_exp r) l * quad cos (r_lon r) (r_lat r) l m (fun i j => M i j * land r i j) /\
                                          get Sn l m 0 = cmwe_factor (kl r) (r_exp r) l * quad sin (r_lon r) (r_lat r) l m (fun i j => M i j * land r i j)) /\
   forall i j, (i < List.length (r_lon r))%nat -> (j < List.length (r_lat r))%nat ->
     h i j = sea_level_at (r_lon r) (r_lat r) (r_exp r) C Sn (on_grid r (land r)) (hl r) (kl r)
       ((1 + 298 / 1000 - 604 / 1000) * (1 + nth 2 (kl r) 0) / (328475 / 348118 - 298 / 1000)) n i j.
(** month t closes: there is a sea level h such that no mass is created (land water of the coefficients [X], plus ocean)
    and the ocean part of the mass (with coefficients [X'] + k) has the degree one moments of h over the ocean *)
Definition closes (r : run) (w : list R) (X X' : nat -> nat -> R) (k : nat -> R) (t : nat) : Prop :=
  exists h : nat -> nat -> R,
    (if r_fingerprint r then fingerprint_of r (total r w (nth 1 w 0) (fun c => X c t) t) h else exists h0, forall i j, h i j = h0) /\
    globe r (fun i j => ocean_at r i j * h i j + land r i j * total r w (nth 1 w 0) (fun c => X c t) t i j) = 0 /\
    forall c, (c < 3)%nat -> sea r (fun i j => axis r c i j * total r w 1 (fun c => X' c t + k c) t i j) = sea r (fun i j => axis r c i j * h i j).

(** ** Lemmas *)
Lemma mm_pos r w : valid r w -> (1 <= mm_of r)%nat.
Proof. intros V. destruct V as [_ _ _ V _ _ _ _]. unfold mm_of. destruct (r_mmax r) as [[|k]|]; lia. Qed.
Lemma sumn_two n (f : nat -> R) : (2 <= n)%nat -> (forall k, (2 <= k < n)%nat -> f k = 0) -> sumn n f = f 0%nat + f 1%nat.
Proof. intros H Z. rewrite (LegendreFourier.sumn_cut 2 n f H Z). cbn. ring. Qed.
Lemma mass_split r w Y i j : valid r w -> (j < List.length (r_lat r))%nat ->
  mass r w 1 Y i j = mass r w 2 Y i j + nth 1 w 0 * water r 1 * sumn 3 (fun c => deg1_of Y c * axis r c i j).
Proof.
  intros V Hj. pose proof (mm_pos r w V) as HM. pose proof V as V0. destruct V0 as [(G1 & G2 & G3) _ _ VL _ _ _ _]. unfold mass.
  assert (SQ : sqrt (1 - cos (colat (nth j (r_lat r) 0)) ^ 2) = sin (colat (nth j (r_lat r) 0))) by (apply sqrt_sin; now apply sin_lat).
  set (g := fun m l => water r l * nth l w 0 * Nlm l m (cos (colat (nth j (r_lat r) 0))) *
    (Y false l m * cos (INR m * deg (nth i (r_lon r) 0)) + Y true l m * sin (INR m * deg (nth i (r_lon r) 0)))).
  transitivity (sumn (mm_of r + 1) (fun m => sumn (r_lmax r + 1) (fun l => if ((2 <=? l) && (m <=? l))%nat then g m l else 0)
     + (if (m <=? 1)%nat then g m 1%nat else 0))).
  - apply sumn_ext. intros m Hm. fold (g m).
    rewrite <- (Parseval.sumn_pick (r_lmax r + 1) 1 (fun l => if (m <=? 1)%nat then g m l else 0)) by lia. rewrite <- sumn_plus. apply sumn_ext. intros l Hl. fold (g m l).
    destruct (Nat.eq_dec l 1) as [->|N]; [cbn [Nat.leb Nat.eqb andb]; destruct (m <=? 1)%nat; ring|].
    replace (l =? 1)%nat with false by lia. replace (1 <=? l)%nat with ((2 <=? l)%nat || (l =? 1)%nat)%bool by lia. replace (l =? 1)%nat with false by lia. rewrite orb_false_r, Rplus_0_r. reflexivity.
  - rewrite sumn_plus. f_equal. rewrite sumn_two by (lia || (intros k Hk; replace (k <=? 1)%nat with false by lia; reflexivity)). cbn [Nat.leb]. unfold g, axis. cbn [sumn deg1_of].
    rewrite !Nlm_NU, NU_1_0, NU_1_1, SQ. change (INR 0) with 0. change (INR 1) with 1. rewrite Rmult_0_l, Rmult_1_l, cos_0, sin_0. ring.
Qed.
Lemma mass_ext r w Y Y' i j : (forall cs l m, (2 <= l)%nat -> Y cs l m = Y' cs l m) -> mass r w 2 Y i j = mass r w 2 Y' i j.
Proof. intros H. unfold mass. apply sumn_ext. intros m _. apply sumn_ext. intros l _. destruct (2 <=? l)%nat eqn:E; [|reflexivity]. cbn [andb]. rewrite !H by lia. reflexivity. Qed.
Definition field_of (r : run) (x : nat -> R) (t : nat) : coefs := fun cs l m => set_deg1 x (r_gsm r t) cs l m - r_gia r t cs l m - r_atm r t cs l m.
Lemma total_land r w x t i j : valid r w -> (j < List.length (r_lat r))%nat -> mass r w 1 (field_of r x t) i j = total r w (nth 1 w 0) x t i j.
Proof.
  intros V Hj. rewrite mass_split by assumption. unfold total. f_equal.
  - apply mass_ext. intros cs l m Hl. unfold field_of, set_deg1. replace (l =? 1)%nat with false by lia. reflexivity.
Qed.
Lemma sea_pos r : grid_ok (r_lon r) (r_lat r) -> spread r -> sea r (fun _ _ => 1) <> 0.
Proof.
  intros HG HS Z.
  assert (N : forall i j, (i < List.length (r_lon r))%nat -> (j < List.length (r_lat r))%nat -> 0 <= cell r j * (ocean_at r i j * 1)).
  { intros i j _ Hj. apply Rmult_le_pos; [now apply cell_pos|]. destruct (ocean01 r i j); lra. }
  assert (E : forall i j, (i < List.length (r_lon r))%nat -> (j < List.length (r_lat r))%nat -> cell r j * (ocean_at r i j * 1) = 0).
  { intros i j Hi Hj. pose proof (N i j Hi Hj). destruct (Rle_lt_or_eq_dec _ _ H) as [P|P]; [|auto]. exfalso.
    unfold sea, globe, grid_sum in Z. assert (PT : forall n (f : nat -> R), (forall k, (k < n)%nat -> 0 <= f k) -> 0 <= sumn n f /\ forall k, (k < n)%nat -> f k <= sumn n f).
    { induction n as [|n IH]; intros f F; cbn [sumn]; [split; [lra|lia]|]. destruct (IH f ltac:(intros; apply F; lia)) as [I1 I2]. specialize (F n ltac:(lia)) as F1. split; [lra|].
      intros k Hk. destruct (Nat.eq_dec k n) as [->|]; [lra|]. specialize (I2 k ltac:(lia)). lra. }
    destruct (PT (List.length (r_lat r)) (fun j => sumn (List.length (r_lon r)) (fun i => cell r j * (ocean_at r i j * 1)))) as [_ Q].
    { intros k Hk. apply PT. intros; now apply N. }
    specialize (Q j Hj). cbv beta in Q. destruct (PT (List.length (r_lon r)) (fun i => cell r j * (ocean_at r i j * 1))) as [_ Q2]; [intros; now apply N|]. specialize (Q2 i Hi). cbv beta in Q2. lra. }
  assert (1 = 0); [|lra]. apply (HS (fun _ => 1)) with (c := 0%nat); [|lia]. intros i j Hi Hj Cp O. specialize (E i j Hi Hj). rewrite O in E. lra.
Qed.
Lemma water1 r w : valid r w -> water r 1 <> 0 /\ cmwe_factor (kl r) 1 1 * water r 1 = 1 / (4 * PI).
Proof.
  intros V. destruct V as [_ _ VE VL _ _ V1 _]. specialize (V1 1%nat ltac:(lia)). unfold water, cmwe_factor, kl.
  change (rad_e (earth 1)) with (rad_e (earth (r_lmax r))). change (rho_e (earth 1)) with (rho_e (earth (r_lmax r))).
  pose proof (rho_e_pos (r_lmax r)). pose proof (rad_e_pos (r_lmax r)). pose proof PI_RGT_0. change (INR 1) with 1.
  set (rho := rho_e (earth (r_lmax r))) in *. set (a := rad_e (earth (r_lmax r))) in *. clearbody rho a. set (k1 := nth 1 _ 0) in *. clearbody k1. split.
  - intro E. assert (rho * a * (2 * 1 + 1) = 0). { replace (rho * a * (2 * 1 + 1)) with (rho * a * (2 * 1 + 1) / (3 * (1 + k1)) * (3 * (1 + k1))) by (field; lra). rewrite E. ring. } nra.
  - field. repeat split; lra.
Qed.
Lemma cmwe0 r w L : valid r w -> cmwe_factor (kl r) L 0 <> 0.
Proof.
  intros V. destruct V as [_ _ VE VL _ _ V1 _]. specialize (V1 0%nat ltac:(lia)). unfold cmwe_factor, kl. change (INR 0) with 0.
  pose proof (rho_e_pos L). pose proof (rad_e_pos L). pose proof PI_RGT_0. set (rho := rho_e (earth L)) in *. set (a := rad_e (earth L)) in *. clearbody rho a. set (k1 := nth 0 _ 0) in *. clearbody k1.
  assert (0 < PI * a * rho) by (apply Rmult_lt_0_compat; [apply Rmult_lt_0_compat|]; lra). intro E.
  assert (1 + k1 = 3 * (1 + k1) / (2 * 0 + 1) / (4 * PI * a * rho) * (4 * (PI * a * rho) / 3)) by (field; repeat split; lra). rewrite E in H3. lra.
Qed.
Section Month.
Context (r : run) (w : list R) (s : setup) (V : valid r w) (G : good r w s) (HS : spread r) (K : known (r_solver r)).
Context (O0 : get (clm (s_ocean0 s)) 0 0 0 = cmwe_factor (kl r) 1 0 * sea r (fun _ _ => 1)).
Context (O1 : forall c, (c < 3)%nat -> deg1_of (fun cs l m => if cs then get (slm (s_ocean0 s)) l m 0 else get (clm (s_ocean0 s)) l m 0) c = cmwe_factor (kl r) 1 1 * sea r (axis r c)).
Context (K0 : r_fingerprint r = true -> nth 0 (kl r) 0 = 0).

Lemma quad_cell trig l m f g : (forall i j, (i < List.length (r_lon r))%nat -> (j < List.length (r_lat r))%nat -> cell r j * f i j = cell r j * g i j) ->
  quad trig (r_lon r) (r_lat r) l m f = quad trig (r_lon r) (r_lat r) l m g.
Proof.
  intros H. unfold quad. apply grid_sum_ext. intros i j Hi Hj. cbv zeta. fold (cell r j).
  transitivity (Nlm l m (cos (colat (nth j (r_lat r) 0))) * trig (INR m * deg (nth i (r_lon r) 0)) * (cell r j * f i j)); [ring|]. rewrite H by assumption. ring.
Qed.
Lemma integral_globe f : integral (r_lon r) (r_lat r) f = globe r f.
Proof. unfold integral, quad, globe. apply grid_sum_ext. intros i j Hi Hj. cbv zeta. fold (cell r j). rewrite Nlm_NU, NU_0_0, Rmult_0_l, cos_0. ring. Qed.
Lemma eustatic_ok M lm : (forall i j, (i < List.length (r_lon r))%nat -> (j < List.length (r_lat r))%nat -> cell r j * lm i j = cell r j * M i j) ->
  exists e h, eustatic r s lm = Ok e /\ (forall c, (c < 3)%nat -> e c = sea r (fun i j => axis r c i j * h i j) / (4 * PI)) /\
    (if r_fingerprint r then fingerprint_of r M h else exists h0, forall i j, h i j = h0) /\
    globe r (fun i j => ocean_at r i j * h i j + land r i j * M i j) = 0.
Proof.
  intros HM. destruct G as (EP & _ & GR & GC & GN & GD & _). destruct (water1 r w V) as [W1 W2]. pose proof (sea_pos r (v_grid _ _ V) HS) as SP.
  assert (GM : globe r (fun i j => lm i j * land r i j) = globe r (fun i j => land r i j * M i j)).
  { apply globe_ext. intros i j Hi Hj. rewrite <- Rmult_assoc, HM by assumption. ring. }
  unfold eustatic. cbv zeta. destruct (r_fingerprint r) eqn:EF.
  - pose proof V as V0. destruct V0 as [VG VS VE VL VM [VH [VK VLL]] V1 VW].
    set (lnd := on_grid r (fun i j => lm i j * land r i j)).
    destruct (C47_water lnd (r_lon r) (r_lat r) (fun i j => lm i j * land r i j) 0 (r_exp r) None) with (h := hl r) (k := kl r) (ll := snd (r_love r)) as [(Y & EY & CY) _]; try assumption.
    { right. repeat split; assumption || reflexivity. } { cbn [upto_order]. lia. }
    assert (EL : (hl r, kl r, snd (r_love r)) = r_love r) by (unfold hl, kl; destruct (r_love r) as [[? ?] ?]; reflexivity).
    assert (EY' : gen_stokes lnd (r_lon r) (r_lat r) 0 (r_exp r) None (GCode 1) None (Some (r_love r)) = Ok Y) by (rewrite <- EL; exact EY).
    replace (gen_stokes lnd (r_lon r) (r_lat r) 0 (r_exp r) None (GCode 1) (Some (s_P s)) (Some (r_love r)))
      with (gen_stokes lnd (r_lon r) (r_lat r) 0 (r_exp r) None (GCode 1) None (Some (r_love r))) by (unfold gen_stokes; rewrite EP; reflexivity).
    rewrite EY'. cbn [bind]. destruct CY as (_ & _ & _ & _ & C1 & C2 & C3 & (S1 & S2 & S3) & CV). cbn [upto_order] in *.
    assert (OK : sle_ok (r_lon r) (r_lat r) (r_exp r) (clm Y) (slm Y) (on_grid r (land r)) (hl r) (kl r) true (BCode 0) (FCode 0)
        ((1 + 298 / 1000 - 604 / 1000) * (1 + nth 2 (kl r) 0) / (328475 / 348118 - 298 / 1000)) (/ 10 ^ 32)).
    { split; try assumption; try (split; assumption); try reflexivity.
      - intros _ k2b h2b klf E1 E2. cbn in E1, E2. assert (k2b = 298 / 1000) by congruence. assert (klf = 328475 / 348118) by congruence. lra.
      - split; reflexivity.
      - rewrite integral_globe. intro Z. apply SP. rewrite <- Z. apply globe_ext. intros. cbn [on_grid get]. unfold ocean_at. ring.
      - repeat split; congruence.
      - apply Rinv_neq_0_compat, pow_nonzero. lra. }
    destruct (C50_result _ _ _ _ _ _ _ _ (snd (r_love r)) _ _ _ _ _ 3%nat OK ltac:(lia)) as (lev & n & EV & L1 & L2 & L3 & LV & N1 & N2 & N3).
    replace (sea_level_equation (clm Y) (slm Y) (r_lon r) (r_lat r) (on_grid r (land r)) (r_exp r) (Some (r_love r)) (BCode 0) (FCode 0) true 3 (Some (s_P s)) 0 (/ 10 ^ 32)) with (Ok lev)
      by (rewrite <- EV, <- EL; unfold sea_level_equation; rewrite EP; reflexivity). cbn [bind].
    pose proof (C50_land _ _ _ _ _ _ _ _ (snd (r_love r)) _ _ _ _ _ 3%nat lev OK ltac:(lia) EV) as LZ. cbn [on_grid get] in LZ.
    pose proof (C50_mass _ _ _ _ _ _ _ _ (snd (r_love r)) _ _ _ _ _ 3%nat lev OK ltac:(lia) EV) as LM. rewrite integral_globe in LM.
    destruct (stokes1 r w (s_P s) lev (fun i j => get lev i j 0) V L1 L2 ltac:(reflexivity) EP) as (Z & -> & _ & Z1). fold (kl r) in Z1.
    cbn [bind]. eexists. exists (fun i j => get lev i j 0). split; [reflexivity|]. cbv beta.
    assert (OZ : forall i j, (i < List.length (r_lon r))%nat -> (j < List.length (r_lat r))%nat -> get lev i j 0 = ocean_at r i j * get lev i j 0).
    { intros i j Hi Hj. destruct (ocean01 r i j) as [E|E]; rewrite E; [|ring]. rewrite LZ; [ring|assumption|assumption|]. unfold ocean_at in E. lra. }
    split; [|split].
    + intros c Hc. rewrite (Z1 c Hc), (GD 1%nat) by lia.
      replace (globe r (fun i j => axis r c i j * get lev i j 0)) with (sea r (fun i j => axis r c i j * get lev i j 0)).
      2:{ apply globe_ext. intros i j Hi Hj. rewrite (OZ i j Hi Hj) at 2. ring. }
      transitivity (sea r (fun i j => axis r c i j * get lev i j 0) * (cmwe_factor (kl r) 1 1 * water r 1)); [ring|]. rewrite W2. unfold Rdiv. ring.
    + exists (clm Y), (slm Y), n. split; [exact N1|]. split; [|exact LV]. intros l m Hlm. destruct (CV l m 0%nat ltac:(lia) ltac:(lia)) as [CV1 _]. destruct (CV1 ltac:(lia)) as [-> ->].
      split; f_equal; apply quad_cell; intros; rewrite <- !Rmult_assoc, HM by assumption; ring.
    + rewrite globe_plus. replace (globe r (fun i j => ocean_at r i j * get lev i j 0)) with (globe r (fun i j => get lev i j 0)) by (apply globe_ext; intros i j Hi Hj; rewrite (OZ i j Hi Hj) at 1; ring).
      rewrite <- GM. destruct (CV 0%nat 0%nat 0%nat ltac:(lia) ltac:(lia)) as [CV1 _]. destruct (CV1 ltac:(lia)) as [C0 _]. unfold load_mass in LM. rewrite C0 in LM. fold (integral (r_lon r) (r_lat r) (fun i j => lm i j * land r i j)) in LM.
      rewrite integral_globe in LM. unfold cmwe_factor in LM. rewrite K0 in LM by reflexivity. change (INR 0) with 0 in LM.
      pose proof (rho_e_pos (r_exp r)). pose proof (rad_e_pos (r_exp r)). pose proof PI_RGT_0. set (rho := rho_e (earth (r_exp r))) in *. set (a := rad_e (earth (r_exp r))) in *. clearbody rho a.
      set (A := globe r (fun i j => get lev i j 0)) in *. set (B := globe r (fun i j => lm i j * land r i j)) in *. clearbody A B.
      assert (E : a ^ 2 * A = - (a ^ 2 * B)) by (rewrite LM; field; repeat split; lra). assert (Z0 : a ^ 2 * (A + B) = 0) by (rewrite Rmult_plus_distr_l, E; ring).
      apply Rmult_integral in Z0. destruct Z0 as [Z0|Z0]; [|exact Z0]. exfalso. revert Z0. apply pow_nonzero. lra.
  - destruct (stokes1 r w (s_P s) (on_grid r (fun i j => lm i j * land r i j)) (fun i j => lm i j * land r i j) V eq_refl eq_refl ltac:(reflexivity) EP) as (Y & -> & Y0 & _). cbn [bind]. fold (kl r) in Y0.
    set (h0 := - globe r (fun i j => land r i j * M i j) / sea r (fun _ _ => 1)).
    eexists. exists (fun _ _ => h0). split; [reflexivity|]. split; [|split].
    + intros c Hc. cbv beta. rewrite (O1 c Hc), Y0, O0, GM, (GD 1%nat) by apply (v_lmax _ _ V).
      replace (sea r (fun i j => axis r c i j * h0)) with (h0 * sea r (axis r c)) by (rewrite <- sea_scal; apply sea_ext; intros; ring).
      unfold h0. set (q := cmwe_factor (kl r) 1 1) in *. pose proof (cmwe0 r w 1 V) as Q0. set (q0 := cmwe_factor (kl r) 1 0) in *. set (S := sea r _) in *. set (B := sea r (axis r c)). set (L := globe r _). clearbody q q0 S B L.
      transitivity (B * (- L / S) * (q * water r 1)); [field; auto|]. rewrite W2. pose proof PI_RGT_0. field. split; lra || auto.
    + exists h0. reflexivity.
    + rewrite globe_plus. replace (globe r (fun i j => ocean_at r i j * h0)) with (h0 * sea r (fun _ _ => 1)) by (unfold sea; rewrite <- globe_scal; apply globe_ext; intros; ring). unfold h0. field. exact SP.
Qed.
Lemma month_ok x t : exists D h, month_step r s x t = Ok D /\
  (if r_fingerprint r then fingerprint_of r (total r w (nth 1 w 0) x t) h else exists h0, forall i j, h i j = h0) /\
  globe r (fun i j => ocean_at r i j * h i j + land r i j * total r w (nth 1 w 0) x t i j) = 0 /\
  forall c, (c < 3)%nat -> sea r (fun i j => axis r c i j * (mass r w 2 (anomaly r t) i j + sumn 3 (fun b => D b * axis r b i j))) = sea r (fun i j => axis r c i j * h i j).
Proof.
  unfold month_step. cbv zeta. fold (field_of r x t).
  destruct (eustatic_ok (total r w (nth 1 w 0) x t) (mass_grid r s 1 (field_of r x t))) as (e & h & -> & E & Hh & Hm).
  { intros i j Hi Hj. rewrite (mass_ok r w s V G) by (lia || assumption). rewrite total_land by assumption. reflexivity. }
  cbn [bind]. destruct (solve_ok r w s V G (fun c => e c - gmat r s t c) HS K) as (D & -> & HD). exists D, h. split; [reflexivity|]. split; [exact Hh|]. split; [exact Hm|].
  intros c Hc. specialize (HD c Hc). rewrite (E c Hc), (gmat_ok r w s V G t c Hc) in HD. pose proof four_pi as FP.
  assert (Q : rsum 3 (fun b => imat r s c b * D b) = sea r (fun i j => axis r c i j * sumn 3 (fun b => D b * axis r b i j)) / (4 * PI)).
  { cbn [rsum]. rewrite !(imat_ok r w s V G) by lia.
    replace (sea r (fun i j => axis r c i j * sumn 3 (fun b => D b * axis r b i j))) with
      (D 0%nat * sea r (fun i j => axis r c i j * axis r 0 i j) + D 1%nat * sea r (fun i j => axis r c i j * axis r 1 i j) + D 2%nat * sea r (fun i j => axis r c i j * axis r 2 i j)); [field; lra|].
    rewrite <- !sea_scal, <- !sea_plus. apply sea_ext. intros. cbn [sumn]. ring. }
  rewrite Q in HD. set (A := sea r (fun i j => axis r c i j * sumn 3 _)) in *. set (B := sea r (fun i j => axis r c i j * h i j)) in *. set (C := sea r (fun i j => axis r c i j * mass r w 2 (anomaly r t) i j)) in *.
  assert (E3 : A = B - C). { replace A with (A / (4 * PI) * (4 * PI)) by (field; lra). rewrite HD. field. lra. }
  transitivity (C + A); [|lra]. unfold C, A. rewrite <- sea_plus. apply sea_ext. intros. ring.
Qed.
End Month.

(** ** the iteration *)
Definition none : nat -> nat -> R := fun _ _ => 0.
Definition steps (r : run) (s : setup) (X X' raw : nat -> nat -> R) : Prop := exists L,
  mapM (fun t => month_step r s (fun c => X c t) t) (seq 0 (r_n r)) = Ok L /\ raw = restored r s (fun t => nth t L (fun _ => 0)) /\ X' = fun c t => raw c t - mean (r_n r) (raw c).
Lemma iterate_spec r s fuel : forall X done l raw, iterate r s (S fuel) X done = Ok (l, raw) -> exists news, l = (rev news ++ done)%list /\ (1 <= List.length news <= S fuel)%nat /\
  (forall q, (q < List.length news)%nat -> exists raw', steps r s (nth q (X :: news) none) (nth q news none) raw' /\ (S q = List.length news -> raw' = raw)) /\
  (forall q, (S q < List.length news)%nat -> continues r (nth q (X :: news) none) (nth q news none) = true) /\
  ((List.length news < S fuel)%nat -> continues r (nth (List.length news - 1) (X :: news) none) (nth (List.length news - 1) news none) = false).
Proof.
  induction fuel as [|k IH]; intros X done l raw E; cbn [iterate] in E.
  - destruct (mapM _ _) as [L|] eqn:EM; cbn [bind] in E; [|discriminate]. set (X' := fun c t => restored r s (fun t => nth t L (fun _ => 0)) c t - mean (r_n r) (restored r s (fun t => nth t L (fun _ => 0)) c)) in E.
    injection E as E1 E2. exists [X']. cbn [rev List.length app]. split; [auto|]. split; [lia|]. split; [|split; [lia|lia]].
    intros q Hq. assert (q = 0%nat) by lia. subst q. cbn [nth]. exists (restored r s (fun t => nth t L (fun _ => 0))). split; [exists L; auto|intros _; exact E2].
  - change (iterate r s (S k)) with (iterate r s (S k)) in E. destruct (mapM _ _) as [L|] eqn:EM; cbn [bind] in E; [|discriminate].
    set (X' := fun c t => restored r s (fun t => nth t L (fun _ => 0)) c t - mean (r_n r) (restored r s (fun t => nth t L (fun _ => 0)) c)) in E.
    assert (ST : steps r s X X' (restored r s (fun t => nth t L (fun _ => 0)))) by (exists L; auto).
    destruct (continues r X X') eqn:EC.
    + destruct (IH X' (X' :: done) l raw E) as (news & E1 & E2 & E3 & E4 & E5). exists (X' :: news). cbn [rev List.length]. split; [rewrite E1, <- app_assoc; reflexivity|]. split; [lia|]. split; [|split].
      * intros [|q] Hq; cbn [nth]; [eexists; split; [exact ST|intros; lia]|]. destruct (E3 q ltac:(lia)) as (raw' & Q1 & Q2). exists raw'. split; [exact Q1|]. intros; apply Q2; lia.
      * intros [|q] Hq; cbn [nth]; [exact EC|]. apply E4. lia.
      * intros H. specialize (E5 ltac:(lia)). destruct (List.length news) as [|n]; [lia|]. replace (S (S n) - 1)%nat with (S n) by lia. replace (S n - 1)%nat with n in E5 by lia. exact E5.
    + injection E as E1 E2. exists [X']. cbn [rev List.length app]. split; [auto|]. split; [lia|]. split; [|split; [lia|intros _; exact EC]].
      intros q Hq. assert (q = 0%nat) by lia. subst q. cbn [nth]. exists (restored r s (fun t => nth t L (fun _ => 0))). split; [exact ST|intros _; exact E2].
Qed.
Lemma iterate_total r s : (forall x t, exists D, month_step r s x t = Ok D) -> forall fuel X done, exists p, iterate r s fuel X done = Ok p.
Proof.
  intros H. induction fuel as [|k IH]; intros X done; cbn [iterate]; [eauto|].
  destruct (mapM_all (fun t => month_step r s (fun c => X c t) t) (seq 0 (r_n r))) as [L ->]; [intros; apply H|]. cbn [bind]. destruct k; [eauto|]. destruct (continues _ _ _); eauto.
Qed.
Lemma mean_zero n f : sumn n (fun t => f t - mean n f) = 0.
Proof.
  unfold Rminus. rewrite sumn_plus, FourierGenProofs.sumn_const. unfold mean. destruct n as [|n]; [cbn; ring|]. field. apply not_0_INR. lia.
Qed.

(** the coefficients change by more than one part in a million (root mean square over months and components) *)
Definition moved (r : run) (X X' : nat -> nat -> R) : Prop :=
  / 10 ^ 12 * sumn (r_n r) (fun t => X 0%nat t ^ 2 + X 1%nat t ^ 2 + X 2%nat t ^ 2) < sumn (r_n r) (fun t => (X 0%nat t - X' 0%nat t) ^ 2 + (X 1%nat t - X' 1%nat t) ^ 2 + (X 2%nat t - X' 2%nat t) ^ 2).
Lemma sumn_pos n f : (forall k, (k < n)%nat -> 0 <= f k) -> 0 <= sumn n f.
Proof. induction n as [|n IH]; intros H; cbn [sumn]; [lra|]. specialize (IH ltac:(intros; apply H; lia)). specialize (H n ltac:(lia)). lra. Qed.
Lemma continues_ok r X X' : continues r X X' = true <-> moved r X X'.
Proof.
  unfold continues, moved. cbv zeta. cbn [sumn].
  replace (sumn (r_n r) (fun t => (X 0%nat t - X' 0%nat t) ^ 2 + (X 1%nat t - X' 1%nat t) ^ 2 + (X 2%nat t - X' 2%nat t) ^ 2)) with
    (0 + sumn (r_n r) (fun t => (X 0%nat t - X' 0%nat t) ^ 2) + sumn (r_n r) (fun t => (X 1%nat t - X' 1%nat t) ^ 2) + sumn (r_n r) (fun t => (X 2%nat t - X' 2%nat t) ^ 2)) by (rewrite !sumn_plus; ring).
  assert (Sp : forall c, 0 <= sumn (r_n r) (fun t => (X c t - X' c t) ^ 2)) by (intros c; apply sumn_pos; intros; apply pow2_ge_0).
  pose proof (Sp 0%nat). pose proof (Sp 1%nat). pose proof (Sp 2%nat).
  assert (Pp : 0 <= sumn (r_n r) (fun t => X 0%nat t ^ 2 + X 1%nat t ^ 2 + X 2%nat t ^ 2)).
  { apply sumn_pos. intros t _. pose proof (pow2_ge_0 (X 0%nat t)). pose proof (pow2_ge_0 (X 1%nat t)). pose proof (pow2_ge_0 (X 2%nat t)). lra. }
  set (sg := 0 + _ + _ + _) in *. assert (0 <= sg) by (unfold sg; lra). clearbody sg. set (pw := sumn (r_n r) (fun t => X 0%nat t ^ 2 + X 1%nat t ^ 2 + X 2%nat t ^ 2)) in *. clearbody pw.
  destruct (Req_EM_T pw 0) as [->|N].
  - rewrite Rmult_0_r. destruct (Rlt_dec 0 sg); split; intros; auto; congruence || lra.
  - assert (0 < pw) by lra. assert (P1 : 0 < sqrt pw) by now apply sqrt_lt_R0.
    assert (E : / 10 ^ 6 < sqrt sg / sqrt pw <-> / 10 ^ 12 * pw < sg).
    { assert (A : / 10 ^ 12 * pw = (/ 10 ^ 6 * sqrt pw) ^ 2) by (rewrite Rpow_mult_distr, pow2_sqrt by lra; f_equal; field). assert (B : sg = sqrt sg ^ 2) by (rewrite pow2_sqrt; lra).
      assert (C : 0 < / 10 ^ 6) by lra. set (a := / 10 ^ 6) in *. clearbody a. pose proof (sqrt_pos sg) as SU. set (u := sqrt sg) in *. clearbody u. set (v := sqrt pw) in *. clearbody v. rewrite A, B.
      assert (AV : 0 < a * v) by nra. clear - P1 SU AV. set (z := a * v) in *. assert (Ez : a = z / v) by (unfold z; field; lra). clearbody z. subst a. split; intros Q.
      - apply Rmult_lt_compat_r with (r := v) in Q; [|exact P1]. replace (u / v * v) with u in Q by (field; lra). replace (z / v * v) with z in Q by (field; lra). nra.
      - assert (z < u) by nra. apply Rmult_lt_compat_r; [now apply Rinv_0_lt_compat|assumption]. }
    destruct (Rlt_dec (/ 10 ^ 6) (sqrt sg / sqrt pw)) as [Q|Q]; split; intros X1; auto; try discriminate; [now apply E|exfalso; apply Q; now apply E].
Qed.

Definition max_iter (r : run) : nat := if r_iterative r then 15 else 1.

(** ** Theorems *)
Theorem C96_balance : forall r w, valid r w -> r_obp r = false -> spread r -> known (r_solver r) -> (r_fingerprint r = true -> nth 0 (kl r) 0 = 0) ->
  exists deg1 aod its gac, calc_degree_one r = Ok (deg1, aod, its, gac) /\
    (1 <= List.length its <= max_iter r)%nat /\ deg1 = last its none /\
    (* every iteration closes every month, starting from the result of the one before it, up to a constant per component *)
    (forall q, (q < List.length its)%nat -> exists k, forall t, (t < r_n r)%nat -> closes r w (nth q (r_guess r :: its) none) (nth q its none) k t) /\
    (* and has zero mean *)
    (forall q c, (q < List.length its)%nat -> sumn (r_n r) (nth q its none c) = 0).
Proof.
  intros r w V OB HS K K0. destruct (prepare_ok r w V) as (s & EP & G & O0 & O1). rewrite OB in EP. unfold calc_degree_one. rewrite EP. cbn [bind].
  pose proof (month_ok r w s V G HS K O0 O1 K0) as MO.
  destruct (iterate_total r s ltac:(intros x t; destruct (MO x t) as (D & h & E & _); eauto) (max_iter r) (r_guess r) []) as [[l raw] EI].
  fold (max_iter r). rewrite EI. cbn [bind fst snd].
  assert (F : exists f, max_iter r = S f) by (unfold max_iter; destruct (r_iterative r); eauto). destruct F as [f Ef]. rewrite Ef in *.
  destruct (iterate_spec r s f _ _ _ _ EI) as (news & -> & N1 & N2 & _ & _). rewrite app_nil_r, rev_involutive.
  do 4 eexists. split; [reflexivity|]. split; [exact N1|]. split; [|split].
  - destruct (N2 (List.length news - 1)%nat ltac:(lia)) as (raw' & (L & E1 & E2 & E3) & Q). rewrite (Q ltac:(lia)) in E3.
    rewrite <- E3. destruct news as [|a news]; [cbn in N1; lia|]. clear. revert a. induction news as [|b t IH]; intros a; [reflexivity|]. specialize (IH b). cbn [List.length] in *. replace (S (S (List.length t)) - 1)%nat with (S (S (List.length t) - 1)) by lia. cbn [nth last] in *. exact IH.
  - intros q Hq. destruct (N2 q Hq) as (raw' & (L & E1 & E2 & E3) & _). exists (fun c => mean (r_n r) (raw' c)). intros t Ht.
    destruct (mapM_nth _ _ _ E1) as [LL MN]. rewrite seq_length in *. specialize (MN t 0%nat (fun _ => 0) Ht). rewrite seq_nth in MN by exact Ht. cbn [Nat.add] in MN.
    destruct (MO (fun c => nth q (r_guess r :: news) none c t) t) as (D & h & ED & Hh & Hm & Hc). assert (nth t L (fun _ => 0) = D) by congruence.
    exists h. split; [exact Hh|]. split; [exact Hm|]. intros c Cc. rewrite <- (Hc c Cc). apply sea_ext. intros i j Hi Hj. f_equal. f_equal. unfold total. f_equal.
    destruct G as (_ & _ & _ & _ & _ & GD & _). destruct (water1 r w V) as [W1 _]. rewrite E3, E2. unfold restored. rewrite H. rewrite (GD 1%nat) by apply (v_lmax _ _ V). cbn [sumn]. field. exact W1.
  - intros q c Hq. destruct (N2 q Hq) as (raw' & (L & E1 & E2 & E3) & _). rewrite E3. apply mean_zero.
Qed.

(** the iterations go on while the coefficients move, and stop when they do not *)
Theorem C96_stop : forall r deg1 aod its gac, calc_degree_one r = Ok (deg1, aod, its, gac) ->
  (1 <= List.length its <= max_iter r)%nat /\
  (forall q, (S q < List.length its)%nat -> moved r (nth q (r_guess r :: its) none) (nth q its none)) /\
  ((List.length its < max_iter r)%nat -> ~ moved r (nth (List.length its - 1) (r_guess r :: its) none) (last its none)).
Proof.
  intros r deg1 aod its gac E. unfold calc_degree_one in E. destruct (prepare r) as [s|]; cbn [bind] in E; [|discriminate]. fold (max_iter r) in E.
  assert (F : exists f, max_iter r = S f) by (unfold max_iter; destruct (r_iterative r); eauto). destruct F as [f Ef]. rewrite Ef in *.
  destruct (iterate r s (S f) (r_guess r) []) as [[l raw]|] eqn:EI; cbn [bind fst snd] in E; [|discriminate].
  destruct (iterate_spec r s f _ _ _ _ EI) as (news & -> & N1 & N2 & N3 & N4). rewrite app_nil_r, rev_involutive in E. assert (news = its) by congruence. subst news.
  split; [exact N1|]. split; [intros q Hq; apply continues_ok; now apply N3|]. intros H M. specialize (N4 H). apply continues_ok in M.
  replace (nth (List.length its - 1) its none) with (last its none) in N4; [congruence|].
  clear - N1. destruct its as [|a t]; [cbn in N1; lia|]. clear. revert a. induction t as [|b t IH]; intros a; [reflexivity|]. specialize (IH b). cbn [List.length] in *. replace (S (S (List.length t)) - 1)%nat with (S (S (List.length t) - 1)) by lia. cbn [nth last] in *. exact IH.
Qed.

(** with a uniform ocean layer, the coefficients that close a month are unique *)
Theorem C96_unique : forall r w X X1 X2 k1 k2 t, valid r w -> spread r -> r_fingerprint r = false ->
  closes r w X X1 k1 t -> closes r w X X2 k2 t -> forall c, (c < 3)%nat -> X1 c t + k1 c = X2 c t + k2 c.
Proof.
  intros r w X X1 X2 k1 k2 t V HS EF (h1 & S1 & M1 & C1) (h2 & S2 & M2 & C2). rewrite EF in *. destruct S1 as [a1 S1], S2 as [a2 S2].
  pose proof (sea_pos r (v_grid _ _ V) HS) as SP. destruct (prepare_ok r w V) as (s & _ & G & _). destruct (water1 r w V) as [W1 _].
  set (M := total r w (nth 1 w 0) (fun c => X c t) t) in *.
  assert (EA : forall h a, (forall i j, h i j = a) -> globe r (fun i j => ocean_at r i j * h i j + land r i j * M i j) = 0 -> a = - globe r (fun i j => land r i j * M i j) / sea r (fun _ _ => 1)).
  { intros h a Hh Z. rewrite globe_plus in Z. replace (globe r (fun i j => ocean_at r i j * h i j)) with (a * sea r (fun _ _ => 1)) in Z by (unfold sea; rewrite <- globe_scal; apply globe_ext; intros; rewrite Hh; ring).
    replace (globe r (fun i j => land r i j * M i j)) with (- (a * sea r (fun _ _ => 1))) by lra. field. exact SP. }
  assert (a1 = a2) by (rewrite (EA h1 a1 S1 M1), (EA h2 a2 S2 M2); reflexivity). subst a2.
  assert (Q : forall c, (c < 3)%nat -> sea r (fun i j => axis r c i j * total r w 1 (fun c => X1 c t + k1 c) t i j) = sea r (fun i j => axis r c i j * total r w 1 (fun c => X2 c t + k2 c) t i j)).
  { intros c Hc. rewrite C1, C2 by exact Hc. apply sea_ext. intros. rewrite S1, S2. reflexivity. }
  assert (U : forall b, (b < 3)%nat -> (fun c => water r 1 * (X1 c t + k1 c - deg1_of (r_gia r t) c - deg1_of (r_atm r t) c)) b = (fun c => water r 1 * (X2 c t + k2 c - deg1_of (r_gia r t) c - deg1_of (r_atm r t) c)) b).
  { apply (solve_uniq r w s V G); [exact HS|]. intros c Hc. specialize (Q c Hc). cbv beta.
    assert (T : forall x, rsum 3 (fun b => imat r s c b * (water r 1 * (x b - deg1_of (r_gia r t) b - deg1_of (r_atm r t) b)))
      = (sea r (fun i j => axis r c i j * total r w 1 x t i j) - sea r (fun i j => axis r c i j * mass r w 2 (anomaly r t) i j)) / (4 * PI)).
    { intros x. pose proof four_pi. cbn [rsum]. rewrite !(imat_ok r w s V G) by lia. unfold Rminus at 7.
      replace (sea r (fun i j => axis r c i j * total r w 1 x t i j)) with (sea r (fun i j => axis r c i j * mass r w 2 (anomaly r t) i j) +
        ((water r 1 * (x 0%nat - deg1_of (r_gia r t) 0 - deg1_of (r_atm r t) 0)) * sea r (fun i j => axis r c i j * axis r 0 i j) +
         (water r 1 * (x 1%nat - deg1_of (r_gia r t) 1 - deg1_of (r_atm r t) 1)) * sea r (fun i j => axis r c i j * axis r 1 i j) +
         (water r 1 * (x 2%nat - deg1_of (r_gia r t) 2 - deg1_of (r_atm r t) 2)) * sea r (fun i j => axis r c i j * axis r 2 i j))); [field; lra|].
      rewrite <- !sea_scal, <- !sea_plus. apply sea_ext. intros. unfold total, anomaly. cbn [sumn]. ring. }
    rewrite (T (fun c => X1 c t + k1 c)), (T (fun c => X2 c t + k2 c)), Q. reflexivity. }
  intros c Hc. specialize (U c Hc). cbv beta in U. apply Rmult_eq_reg_l in U; [lra|exact W1].
Qed.

(** coefficients that close every month by themselves and have zero mean are returned, after one iteration *)
Theorem C96_fixed_point : forall r w, valid r w -> r_obp r = false -> spread r -> known (r_solver r) -> r_fingerprint r = false -> (0 < r_n r)%nat ->
  (forall t, (t < r_n r)%nat -> closes r w (r_guess r) (r_guess r) (fun _ => 0) t) -> (forall c, sumn (r_n r) (r_guess r c) = 0) ->
  exists deg1 aod its gac, calc_degree_one r = Ok (deg1, aod, its, gac) /\ List.length its = 1%nat /\ forall c t, (c < 3)%nat -> (t < r_n r)%nat -> deg1 c t = r_guess r c t.
Proof.
  intros r w V OB HS K EF Hn HC HZ. destruct (C96_balance r w V OB HS K ltac:(congruence)) as (deg1 & aod & its & gac & E & L & D & B & Z).
  destruct (C96_stop _ _ _ _ _ E) as (_ & ST & _). exists deg1, aod, its, gac. split; [exact E|].
  destruct (B 0%nat ltac:(lia)) as [k HB]. cbn [nth] in HB. specialize (Z 0%nat).
  assert (EQ : forall c t, (c < 3)%nat -> (t < r_n r)%nat -> nth 0 its none c t = r_guess r c t).
  { assert (U : forall c t, (c < 3)%nat -> (t < r_n r)%nat -> nth 0 its none c t + k c = r_guess r c t + 0).
    { intros c t Hc Ht. exact (C96_unique r w (r_guess r) (nth 0 its none) (r_guess r) k (fun _ => 0) t V HS EF (HB t Ht) (HC t Ht) c Hc). }
    intros c t Hc Ht. assert (k c = 0); [|specialize (U c t Hc Ht); lra].
    assert (S0 : sumn (r_n r) (fun t => nth 0 its none c t + k c) = sumn (r_n r) (r_guess r c)) by (apply sumn_ext; intros i Hi; rewrite (U c i Hc Hi); ring).
    rewrite sumn_plus, FourierGenProofs.sumn_const, HZ in S0. specialize (Z c ltac:(lia)). rewrite Z in S0.
    assert (INR (r_n r) <> 0) by (apply not_0_INR; lia). assert (INR (r_n r) * k c = 0) by lra. apply Rmult_integral in H0. tauto. }
  assert (L1 : List.length its = 1%nat).
  { destruct (Nat.eq_dec (List.length its) 1) as [|N]; [assumption|exfalso]. specialize (ST 0%nat ltac:(lia)). cbn [nth] in ST. unfold moved in ST.
    rewrite (sumn_ext (r_n r) (fun t => (r_guess r 0%nat t - nth 0 its none 0%nat t) ^ 2 + (r_guess r 1%nat t - nth 0 its none 1%nat t) ^ 2 + (r_guess r 2%nat t - nth 0 its none 2%nat t) ^ 2) (fun _ => 0)) in ST.
    2:{ intros t Ht. rewrite !EQ by (lia || assumption). ring. }
    rewrite sumn_zero in ST.
    assert (Pp : 0 <= sumn (r_n r) (fun t => r_guess r 0%nat t ^ 2 + r_guess r 1%nat t ^ 2 + r_guess r 2%nat t ^ 2)).
    { apply sumn_pos. intros t _. pose proof (pow2_ge_0 (r_guess r 0%nat t)). pose proof (pow2_ge_0 (r_guess r 1%nat t)). pose proof (pow2_ge_0 (r_guess r 2%nat t)). lra. }
    assert (0 < / 10 ^ 12) by lra. nra. }
  split; [exact L1|]. intros c t Hc Ht. rewrite D. destruct its as [|a [|b l]]; cbn in L1; try lia. cbn [last nth] in *. now apply EQ.
Qed.

(** matrix inversion needs ocean cells that do not all lie on one great circle; otherwise LinAlgError *)
Theorem C96_singular : forall r w, valid r w -> r_obp r = false -> r_solver r = "inv"%string -> r_fingerprint r = false -> (0 < r_n r)%nat ->
  (~ spread r <-> calc_degree_one r = Err OtherExn).
Proof.
  intros r w V OB EI EF Hn. split.
  - intros NS. destruct (prepare_ok r w V) as (s & EP & G & _). rewrite OB in EP. unfold calc_degree_one. rewrite EP. cbn [bind].
    assert (I : inv 3 (imat r s) = Err OtherExn). { apply inv_singular. intros B HB. apply NS. apply (inv_spread r w s V G). apply inv_complete. eauto. }
    assert (M : forall x t, month_step r s x t = Err OtherExn).
    { intros x t. unfold month_step, eustatic. cbv zeta. rewrite EF. destruct G as (EPl & _).
      match goal with |- context [on_grid r ?D] => destruct (stokes1 r w (s_P s) (on_grid r D) D V eq_refl eq_refl ltac:(reflexivity) EPl) as (Y & -> & _) end. cbn [bind].
      unfold solve. rewrite EI. cbn [String.eqb Ascii.eqb Bool.eqb]. rewrite I. reflexivity. }
    destruct (r_n r) as [|n] eqn:En; [lia|]. destruct (r_iterative r); cbn [iterate]; rewrite En; cbn [seq mapM]; rewrite M; reflexivity.
  - intros E NS. destruct (C96_balance r w V OB NS) as (deg1 & aod & its & gac & E' & _); [left; auto|congruence|congruence].
Qed.

(** refuted: with any other solver name (among them the default None of the function) the data are not used: the result is the GIA and
    atmosphere coefficients less their mean *)
Theorem C96_unknown_solver_refuted : forall r w, valid r w -> r_obp r = false -> ~ known (r_solver r) -> r_fingerprint r = false ->
  exists deg1 aod its gac, calc_degree_one r = Ok (deg1, aod, its, gac) /\
    forall c t, (t < r_n r)%nat -> let g := fun t => deg1_of (r_gia r t) c + deg1_of (r_atm r t) c in deg1 c t = g t - mean (r_n r) g.
Proof.
  intros r w V OB NK EF. destruct (prepare_ok r w V) as (s & EP & G & _). rewrite OB in EP. unfold calc_degree_one. rewrite EP. cbn [bind].
  assert (M : forall x t, month_step r s x t = Ok (fun _ => 0)).
  { intros x t. unfold month_step, eustatic. cbv zeta. rewrite EF. destruct G as (EPl & _).
    match goal with |- context [on_grid r ?D] => destruct (stokes1 r w (s_P s) (on_grid r D) D V eq_refl eq_refl ltac:(reflexivity) EPl) as (Y & -> & _) end. cbn [bind].
    unfold solve. unfold known in NK. assert (forall S, In S ["inv"%string; "lstsq"%string; "gelsd"%string; "gelsy"%string; "gelss"%string] -> (r_solver r =? S)%string = false).
    { intros S I. apply String.eqb_neq. intros ES. apply NK. rewrite ES. exact I. }
    rewrite !H by (cbn; tauto). reflexivity. }
  destruct (iterate_total r s ltac:(intros; rewrite M; eauto) (max_iter r) (r_guess r) []) as [[l raw] EI].
  fold (max_iter r). rewrite EI. cbn [bind fst snd]. do 4 eexists. split; [reflexivity|].
  assert (F : exists f, max_iter r = S f) by (unfold max_iter; destruct (r_iterative r); eauto). destruct F as [f Ef]. rewrite Ef in *.
  destruct (iterate_spec r s f _ _ _ _ EI) as (news & -> & N1 & N2 & _ & _). destruct (N2 (List.length news - 1)%nat ltac:(lia)) as (raw' & (L & E1 & E2 & E3) & Q). rewrite (Q ltac:(lia)) in *.
  intros c t Ht. cbv zeta.
  assert (R0 : forall t, (t < r_n r)%nat -> raw c t = deg1_of (r_gia r t) c + deg1_of (r_atm r t) c).
  { intros t' Ht'. destruct (mapM_nth _ _ _ E1) as [LL MN]. rewrite seq_length in *. specialize (MN t' 0%nat (fun _ => 0) Ht'). rewrite M in MN. rewrite E2. unfold restored. assert (EN : nth t' L (fun _ => 0) = fun _ => 0) by congruence. rewrite EN. unfold Rdiv. ring. }
  rewrite R0 by exact Ht. unfold mean. rewrite (sumn_ext _ _ _ R0). reflexivity.
Qed.

(** refuted: an external ocean bottom pressure model cannot be used *)
Theorem C96_models_refuted : forall r w, valid r w -> r_obp r = true -> calc_degree_one r = Err TypeError.
Proof. intros r w V OB. destruct (prepare_ok r w V) as (s & EP & _). rewrite OB in EP. unfold calc_degree_one. rewrite EP. reflexivity. Qed.

(** the second file is the first plus the dealiasing coefficients *)
Theorem C96_dealiasing : forall r deg1 aod its gac, calc_degree_one r = Ok (deg1, aod, its, gac) -> forall c t, aod c t = deg1 c t + deg1_of (r_gac r t) c.
Proof.
  intros r deg1 aod its gac E c t. unfold calc_degree_one in E. destruct (prepare r) as [s|]; cbn [bind] in E; [|discriminate]. destruct (iterate _ _ _ _ _) as [p|]; cbn [bind] in E; [|discriminate].
  injection E as <- <- _ _. reflexivity.
Qed.
(** refuted: the dealiasing group of the netCDF file should hold the dealiasing coefficients; it holds them divided by the mass factor *)
Theorem C96_aod_group_refuted : forall r w deg1 aod its gac, valid r w -> calc_degree_one r = Ok (deg1, aod, its, gac) ->
  forall c t, gac c t = deg1_of (r_gac r t) c / water r 1.
Proof.
  intros r w deg1 aod its gac V E c t. destruct (prepare_ok r w V) as (s & EP & G & _). unfold calc_degree_one in E. rewrite EP in E. destruct (r_obp r); cbn [bind] in E; [discriminate|].
  destruct (iterate _ _ _ _ _) as [p|]; cbn [bind] in E; [|discriminate]. injection E as _ _ _ <-. destruct G as (_ & _ & _ & _ & _ & GD & _). rewrite (GD 1%nat) by apply (v_lmax _ _ V). unfold Rdiv. ring.
Qed.

(** degrees 0 and 1 of the GRACE fields are never used *)
Definition with_gsm (r : run) (g : nat -> coefs) : run :=
  mkrun (r_lon r) (r_lat r) (r_mask r) (r_lmax r) (r_mmax r) (r_exp r) (r_love r) (r_rad r) (r_n r) g (r_gia r) (r_atm r) (r_gac r) (r_guess r) (r_obp r) (r_fingerprint r) (r_iterative r) (r_solver r).
Lemma mass_grid_ext r s L0 Y Y' i j : (1 <= L0)%nat -> (forall cs l m, (L0 <= l)%nat -> (l = 1 -> m <= 1)%nat -> (l = 1 -> m = 0 -> cs = false)%nat -> Y cs l m = Y' cs l m) -> mass_grid r s L0 Y i j = mass_grid r s L0 Y' i j.
Proof.
  intros HL H. unfold mass_grid. cbv zeta. f_equal; apply sumn_ext; intros m _.
  - f_equal. apply sumn_ext. intros l _. destruct (L0 <=? l)%nat eqn:E; [|reflexivity]. unfold plmout. destruct ((1 <=? l) && (l <=? r_lmax r) && (m <=? Nat.min l (mm_of r)))%nat eqn:E2; [|ring]. rewrite (H false l m) by (intros; auto; lia). reflexivity.
  - destruct m as [|m]; [change (INR 0) with 0; rewrite Rmult_0_l, sin_0; ring|].
    f_equal. apply sumn_ext. intros l _. destruct (L0 <=? l)%nat eqn:E; [|reflexivity]. unfold plmout. destruct ((1 <=? l) && (l <=? r_lmax r) && (S m <=? Nat.min l (mm_of r)))%nat eqn:E2; [|ring]. rewrite (H true l (S m)) by (intros; lia). reflexivity.
Qed.
Theorem C96_ignores : forall r g g', (forall t cs l m, (2 <= l)%nat -> g t cs l m = g' t cs l m) -> calc_degree_one (with_gsm r g) = calc_degree_one (with_gsm r g').
Proof.
  intros r g g' H. unfold calc_degree_one. change (prepare (with_gsm r g')) with (prepare (with_gsm r g)). destruct (prepare (with_gsm r g)) as [s|]; [cbn [bind]|reflexivity].
  assert (M : forall x t, month_step (with_gsm r g) s x t = month_step (with_gsm r g') s x t).
  { intros x t. unfold month_step. cbv zeta. cbn [with_gsm r_gsm r_gia r_atm].
    assert (E1 : mass_grid (with_gsm r g) s 1 (fun cs l m => set_deg1 x (g t) cs l m - r_gia r t cs l m - r_atm r t cs l m) = mass_grid (with_gsm r g') s 1 (fun cs l m => set_deg1 x (g' t) cs l m - r_gia r t cs l m - r_atm r t cs l m)).
    { apply functional_extensionality. intros i. apply functional_extensionality. intros j. change (mass_grid (with_gsm r g')) with (mass_grid (with_gsm r g)). apply mass_grid_ext; [lia|]. intros cs l m Hl H1 H2. f_equal. f_equal. unfold set_deg1.
      destruct (Nat.eq_dec l 1) as [->|N]; [|replace (l =? 1)%nat with false by lia; apply H; lia]. cbn [Nat.eqb]. specialize (H1 eq_refl). specialize (H2 eq_refl). destruct m as [|[|m]]; [| |lia]; [rewrite (H2 eq_refl); reflexivity|destruct cs; reflexivity]. }
    rewrite E1. change (eustatic (with_gsm r g)) with (eustatic (with_gsm r g')). destruct (eustatic _ _ _) as [e|]; [cbn [bind]|reflexivity].
    change (solve (with_gsm r g)) with (solve (with_gsm r g')). f_equal. apply functional_extensionality. intros c. f_equal. unfold gmat. change (project (with_gsm r g)) with (project (with_gsm r g')). f_equal.
    apply functional_extensionality. intros i. apply functional_extensionality. intros j. change (mass_grid (with_gsm r g)) with (mass_grid (with_gsm r g')). apply mass_grid_ext; [lia|]. intros cs l m Hl _ _. unfold anomaly. cbn [with_gsm r_gsm r_gia r_atm]. now rewrite H by lia. }
  assert (I : forall fuel X done, iterate (with_gsm r g) s fuel X done = iterate (with_gsm r g') s fuel X done).
  { induction fuel as [|k IH]; intros X done; [reflexivity|]. cbn [iterate].
    replace (mapM (fun t => month_step (with_gsm r g) s (fun c => X c t) t) (seq 0 (r_n (with_gsm r g)))) with (mapM (fun t => month_step (with_gsm r g') s (fun c => X c t) t) (seq 0 (r_n (with_gsm r g')))).
    2:{ f_equal. apply functional_extensionality. intros t. symmetry. apply M. }
    destruct (mapM _ _) as [L|]; [cbn [bind]|reflexivity]. change (restored (with_gsm r g)) with (restored (with_gsm r g')). change (r_n (with_gsm r g)) with (r_n (with_gsm r g')). destruct k; [reflexivity|].
    change (continues (with_gsm r g)) with (continues (with_gsm r g')). destruct (continues _ _ _); [apply IH|reflexivity]. }
  rewrite I. reflexivity.
Qed.

(** an ordinary run: 4 x 3 grid with one land cell, LMAX = EXPANSION = 2, two months *)
Definition example_run : run :=
  mkrun [0; 90; 180; 270] [45; 0; -45] (mkarr 3 4 None (fun j i _ => if (i =? 0)%nat && (j =? 1)%nat then Some 1 else Some 0)) 2 None 2 ([0; 0; 0], [0; 0; 0], [0; 0; 0]) 0 2
    (fun t cs l m => INR t) (fun _ _ _ _ => 0) (fun _ _ _ _ => 0) (fun _ _ _ _ => 0) (fun _ _ => 0) false false true "inv".
Example C96_example : valid example_run (repeat 1 3) /\ spread example_run /\ known (r_solver example_run).
Proof.
  split; [|split; [|left; reflexivity]].
  - split; cbn [example_run r_lon r_lat r_exp r_lmax r_love r_rad List.length fst snd]; try lia.
    + repeat split; cbn; try lia. repeat constructor; lra.
    + unfold mm_of. cbn. lia.
    + intros l Hl. destruct l as [|[|[|l]]]; [..|lia]; cbn; lra.
    + unfold smoothing. destruct (Req_EM_T 0 0); [reflexivity|lra].
  - intros x Hx.
    assert (CP : forall j, (j < 3)%nat -> 0 < cell example_run j).
    { intros j Hj. unfold cell, cell_step, deg, colat. pose proof PI_RGT_0. cbn [example_run r_lon r_lat nth]. rewrite (Rabs_right (90 - 0)), (Rabs_left (0 - 45)) by lra.
      apply Rmult_lt_0_compat; [apply Rmult_lt_0_compat|]; try lra. apply sin_gt_0; destruct j as [|[|[|j]]]; cbn; try lia; lra. }
    assert (OC : forall i j, (i < 4)%nat -> (j < 3)%nat -> (i <> 0 \/ j <> 1)%nat -> ocean_at example_run i j = 1).
    { intros i j Hi Hj N. unfold ocean_at, land. cbn [example_run r_mask get]. replace ((i =? 0)%nat && (j =? 1)%nat) with false by lia. unfold is_land. destruct (Rle_dec 1 0); [lra|]. cbn. lra. }
    assert (A1 : forall i j, axis example_run 0 i j = sqrt 3 * cos (colat (nth j [45; 0; -45] 0))) by reflexivity.
    assert (S3 : 0 < sqrt 3) by (apply sqrt_lt_R0; lra).
    pose proof (Hx 1%nat 1%nat ltac:(cbn; lia) ltac:(cbn; lia) (CP 1%nat ltac:(lia)) (OC 1%nat 1%nat ltac:(lia) ltac:(lia) ltac:(lia))) as E1.
    pose proof (Hx 2%nat 1%nat ltac:(cbn; lia) ltac:(cbn; lia) (CP 1%nat ltac:(lia)) (OC 2%nat 1%nat ltac:(lia) ltac:(lia) ltac:(lia))) as E2.
    pose proof (Hx 2%nat 0%nat ltac:(cbn; lia) ltac:(cbn; lia) (CP 0%nat ltac:(lia)) (OC 2%nat 0%nat ltac:(lia) ltac:(lia) ltac:(lia))) as E3.
    unfold axis in E1, E2, E3. cbn [example_run r_lon r_lat nth] in E1, E2, E3. unfold colat, deg in E1, E2, E3.
    replace ((90 - 0) * PI / 180) with (PI / 2) in * by field. replace (90 * PI / 180) with (PI / 2) in * by field. replace (180 * PI / 180) with PI in * by field. replace ((90 - 45) * PI / 180) with (PI / 4) in * by field.
    rewrite cos_PI2, sin_PI2 in *. rewrite cos_PI, sin_PI in *. assert (C4 : 0 < cos (PI / 4)) by (apply cos_gt_0; pose proof PI_RGT_0; lra).
    assert (X2 : x 2%nat = 0). { assert (sqrt 3 * x 2%nat = 0) by lra. apply Rmult_integral in H. lra. }
    assert (X1 : x 1%nat = 0). { assert (sqrt 3 * x 1%nat = 0) by lra. apply Rmult_integral in H. lra. }
    rewrite X1, X2 in E3. assert (X0 : x 0%nat = 0). { assert (sqrt 3 * cos (PI / 4) * x 0%nat = 0) by lra. apply Rmult_integral in H. destruct H; [nra|assumption]. }
    intros c Hc. destruct c as [|[|[|c]]]; [assumption..|lia].
Qed.

(** the hypotheses of C96_fixed_point are met: fields that are GIA and atmosphere only, with the geocenter of the GIA and atmosphere as first guess *)
Theorem C96_gia_only : forall r w, valid r w -> r_obp r = false -> spread r -> known (r_solver r) -> r_fingerprint r = false -> (0 < r_n r)%nat ->
  (forall t cs l m, (2 <= l)%nat -> r_gsm r t cs l m = r_gia r t cs l m + r_atm r t cs l m) ->
  (forall c t, r_guess r c t = deg1_of (r_gia r t) c + deg1_of (r_atm r t) c) -> (forall c, sumn (r_n r) (r_guess r c) = 0) ->
  exists deg1 aod its gac, calc_degree_one r = Ok (deg1, aod, its, gac) /\ List.length its = 1%nat /\
    forall c t, (c < 3)%nat -> (t < r_n r)%nat -> deg1 c t = deg1_of (r_gia r t) c + deg1_of (r_atm r t) c.
Proof.
  intros r w V OB HS K EF Hn HG HX HZ.
  assert (T : forall f x t i j, (forall c, x c = deg1_of (r_gia r t) c + deg1_of (r_atm r t) c) -> total r w f x t i j = 0).
  { intros f x t i j E. unfold total. rewrite (mass_ext r w _ (fun _ _ _ => 0)) by (intros; rewrite HG by assumption; ring).
    unfold mass. rewrite (sumn_ext _ _ (fun _ => 0)); [rewrite sumn_zero; cbn [sumn]; rewrite !E; ring|]. intros m _. rewrite (sumn_ext _ _ (fun _ => 0)); [apply sumn_zero|]. intros l _. destruct (_ && _); ring. }
  assert (Z0 : forall F, (forall i j, F i j = 0) -> globe r F = 0).
  { intros F HF. unfold globe, grid_sum. rewrite (sumn_ext _ _ (fun _ => 0)); [apply sumn_zero|]. intros j _. rewrite (sumn_ext _ _ (fun _ => 0)); [apply sumn_zero|]. intros i _. rewrite HF. ring. }
  destruct (C96_fixed_point r w V OB HS K EF Hn) as (deg1 & aod & its & gac & E & L & Q); [|exact HZ|].
  - intros t Ht. exists (fun _ _ => 0). rewrite EF. split; [exists 0; reflexivity|]. split.
    + apply Z0. intros i j. rewrite T by (intros; apply HX). ring.
    + intros c Hc. unfold sea. rewrite !Z0; [reflexivity|intros; ring|]. intros i j. rewrite T by (intros; rewrite HX; ring). ring.
  - exists deg1, aod, its, gac. split; [exact E|]. split; [exact L|]. intros c t Hc Ht. rewrite (Q c t Hc Ht). apply HX.
Qed.
Print Assumptions C96_balance.

(** the cells counted as land are those whose value in the mask, at [latitude, longitude], is 1, 2 or 3 (or between); all others, and those without a value, are ocean *)
Theorem C96_mask : forall r i j,
  ((exists v, get (r_mask r) j i 0 = Some v /\ 1 <= v <= 3) -> land r i j = 1 /\ ocean_at r i j = 0) /\
  (~ (exists v, get (r_mask r) j i 0 = Some v /\ 1 <= v <= 3) -> land r i j = 0 /\ ocean_at r i j = 1).
Proof.
  intros r i j. unfold ocean_at, land. split; intros H.
  - destruct H as (v & -> & H). unfold is_land, b2r. destruct (Rle_dec 1 v); [|lra]. destruct (Rle_dec v 3); [|lra]. cbn. lra.
  - destruct (get (r_mask r) j i 0) as [v|]; unfold is_land, b2r; [|cbn; lra]. destruct (Rle_dec 1 v); [|cbn; lra]. destruct (Rle_dec v 3); [|cbn; lra]. exfalso. apply H. eauto.
Qed.
Print Assumptions C96_mask.
