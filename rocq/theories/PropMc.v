(** Property C114: the Monte Carlo errors of the geocenter (monte_carlo_degree_one.py).  Specification: that of C96 (DegreeOneProofs, PropDegreeOne: closes, mass, water, valid, spread, known),
    for the data plus the noise of the run. *)
From Coq Require Import Reals Lra Lia String List ZifyBool ZifyNat FunctionalExtensionality.
From Coquelicot Require Import Coquelicot.
From Verif Require Import Base UnitsModel UnitsProofs GaussModel Arr HarmModel LegendreSpec LegendreSpec2 LegendreModel LegendreProofs LegendreProofs2
  SummationModel SummationProofs LegendreOneModel LegendreOneProofs GenModel GenProofs PropGen LegendreFourier Parseval SleModel SleProofs PropSle DestripeModel DestripeProofs LinAlg Lstsq PropSmooth MasconFitModel DegreeOneModel DegreeOneProofs PropDegreeOne McModel.
Import ListNotations.
Close Scope Z_scope.
Close Scope string_scope.
Open Scope R_scope.

(** ** Specification *)
(** the data of a run: the GRACE fields plus the noise of that run; its first guess: the seasonal geocenter plus the noise of degree one *)
Definition disturbed (m : mc) (n : nat) : run :=
  mkrun (r_lon (m_run m)) (r_lat (m_run m)) (r_mask (m_run m)) (r_lmax (m_run m)) (r_mmax (m_run m)) (r_exp (m_run m)) (r_love (m_run m)) (r_rad (m_run m)) (r_n (m_run m))
    (fun t cs l o => r_gsm (m_run m) t cs l o + noise m n t cs l o) (r_gia (m_run m)) (r_atm (m_run m)) (r_gac (m_run m)) (r_guess (m_run m)) (r_obp (m_run m)) (r_fingerprint (m_run m)) (r_iterative (m_run m)) (r_solver (m_run m)).
Definition start (m : mc) (n : nat) (c t : nat) : R := seasonal (r_n (m_run m)) (m_time m) c t + deg1_of (noise m n t) c.
(** degree one of GIA and atmosphere *)
Definition removed (r : run) (c t : nat) : R := deg1_of (r_gia r t) c + deg1_of (r_atm r t) c.
Definition ordinary (m : mc) (w : list R) : Prop := valid (m_run m) w /\ (2 <= r_lmax (m_run m))%nat.

(** ** Lemmas *)
Definition upto (r : run) : run :=
  mkrun (r_lon r) (r_lat r) (r_mask r) (r_lmax r) (r_mmax r) (r_lmax r) (r_love r) (r_rad r) (r_n r) (r_gsm r) (r_gia r) (r_atm r) (r_gac r) (r_guess r) false (r_fingerprint r) (r_iterative r) (r_solver r).
Lemma upto_valid r w : valid r w -> (2 <= r_lmax r)%nat -> valid (upto r) w.
Proof. intros V L. pose proof V as V0. destruct V0 as [VG VS VE VL VM (V1 & V2 & V3) VK VW]. split; cbn [upto r_lon r_lat r_exp r_lmax r_love r_rad]; auto; try lia. intros l Hl. apply VK. lia. Qed.
Lemma mc_prepare_ok r w : valid r w -> (2 <= r_lmax r)%nat -> exists s, mc_prepare r = Ok s /\ good (upto r) w s /\
  get (clm (s_ocean0 s)) 0 0 0 = cmwe_factor (kl r) 1 0 * sea r (fun _ _ => 1) /\
  forall c, (c < 3)%nat -> deg1_of (fun cs l m => if cs then get (slm (s_ocean0 s)) l m 0 else get (clm (s_ocean0 s)) l m 0) c = cmwe_factor (kl r) 1 1 * sea r (axis r c).
Proof.
  intros V L. destruct (prepare_ok (upto r) w (upto_valid r w V L)) as (s & EP & G & O0 & O1). exists s. split; [|split; [exact G|split; [exact O0|exact O1]]].
  cbn [upto r_obp] in EP. rewrite <- EP. unfold mc_prepare, prepare. cbn [upto r_love r_lmax r_lat r_lon r_exp r_rad r_obp]. rewrite Nat.ltb_irrefl. reflexivity.
Qed.
Lemma quad_on r f g trig l m : (forall i j, (i < List.length (r_lon r))%nat -> (j < List.length (r_lat r))%nat -> cell r j * f i j = cell r j * g i j) ->
  quad trig (r_lon r) (r_lat r) l m f = quad trig (r_lon r) (r_lat r) l m g.
Proof.
  intros H. unfold quad. apply grid_sum_ext. intros i j Hi Hj. cbv zeta. fold (cell r j).
  transitivity (Nlm l m (cos (colat (nth j (r_lat r) 0))) * trig (INR m * deg (nth i (r_lon r) 0)) * (cell r j * f i j)); [ring|]. rewrite H by assumption. ring.
Qed.
Section Month.
Context (r : run) (w : list R) (s : setup) (V : valid r w) (L2 : (2 <= r_lmax r)%nat) (G : good (upto r) w s) (HS : spread r) (K : known (r_solver r)).
Context (O0 : get (clm (s_ocean0 s)) 0 0 0 = cmwe_factor (kl r) 1 0 * sea r (fun _ _ => 1)).
Context (O1 : forall c, (c < 3)%nat -> deg1_of (fun cs l m => if cs then get (slm (s_ocean0 s)) l m 0 else get (clm (s_ocean0 s)) l m 0) c = cmwe_factor (kl r) 1 1 * sea r (axis r c)).
Context (K0 : r_fingerprint r = true -> nth 0 (kl r) 0 = 0).
Lemma mc_eustatic_ok M lm : (forall i j, (i < List.length (r_lon r))%nat -> (j < List.length (r_lat r))%nat -> cell r j * lm i j = cell r j * M i j) ->
  exists e h, mc_eustatic r s lm = Ok e /\ (forall c, (c < 3)%nat -> e c = sea r (fun i j => axis r c i j * h i j) / (4 * PI)) /\
    (if r_fingerprint r then fingerprint_of r M h else exists h0, forall i j, h i j = h0) /\
    globe r (fun i j => ocean_at r i j * h i j + land r i j * M i j) = 0.
Proof.
  intros HM. pose proof (upto_valid r w V L2) as V'. destruct (r_fingerprint r) eqn:EF.
  2:{ destruct (eustatic_ok (upto r) w s V' G HS O0 O1) with (M := M) (lm := lm) as (e & h & E1 & E2 & E3 & E4); [cbn [upto r_fingerprint]; intros X; rewrite EF in X; discriminate|exact HM|].
      cbn [upto r_fingerprint] in E3. rewrite EF in E3. exists e, h. split; [|split; [exact E2|split; [exact E3|exact E4]]].
      unfold mc_eustatic, eustatic in *. cbn [upto r_fingerprint] in E1. rewrite EF in *. exact E1. }
  destruct G as (EP & _ & GR & GC & GN & GD & _). destruct (water1 r w V) as [W1 W2]. pose proof (sea_pos r (v_grid _ _ V) HS) as SP.
  assert (GM : globe r (fun i j => lm i j * land r i j) = globe r (fun i j => land r i j * M i j)).
  { apply globe_ext. intros i j Hi Hj. rewrite <- Rmult_assoc, HM by assumption. ring. }
  unfold mc_eustatic. cbv zeta. rewrite EF.
  pose proof V as V0. destruct V0 as [VG VS VE VL VM [VH [VK VLL]] V1 VW].
  set (lnd := on_grid r (fun i j => lm i j * land r i j)).
  destruct (C47_water lnd (r_lon r) (r_lat r) (fun i j => lm i j * land r i j) 0 (r_exp r) None) with (h := hl r) (k := kl r) (ll := snd (r_love r)) as [(Y & EY & CY) _]; try assumption.
  { right. repeat split; assumption || reflexivity. } { cbn [upto_order]. lia. }
  assert (EL : (hl r, kl r, snd (r_love r)) = r_love r) by (unfold hl, kl; destruct (r_love r) as [[? ?] ?]; reflexivity).
  assert (EY' : gen_stokes lnd (r_lon r) (r_lat r) 0 (r_exp r) None (GCode 1) None (Some (r_love r)) = Ok Y) by (rewrite <- EL; exact EY).
  rewrite EY'. cbn [bind]. destruct CY as (_ & _ & _ & _ & C1 & C2 & C3 & (S1 & S2 & S3) & CV). cbn [upto_order] in *.
  assert (OK : sle_ok (r_lon r) (r_lat r) (r_exp r) (clm Y) (slm Y) (on_grid r (land r)) (hl r) (kl r) true (BCode 0) (FCode 0)
      ((1 + 298 / 1000 - 604 / 1000) * (1 + nth 2 (kl r) 0) / (328475 / 348118 - 298 / 1000)) (/ 10 ^ 32)).
  { split; try assumption; try (split; assumption); try reflexivity.
    - intros _ k2b h2b klf E1 E2. cbn in E1, E2. assert (k2b = 298 / 1000) by congruence. assert (klf = 328475 / 348118) by congruence. lra.
    - split; reflexivity.
    - rewrite (integral_globe r). intro Z. apply SP. rewrite <- Z. apply globe_ext. intros. cbn [on_grid get]. unfold ocean_at. ring.
    - repeat split; congruence.
    - apply Rinv_neq_0_compat, pow_nonzero. lra. }
  destruct (C50_result _ _ _ _ _ _ _ _ (snd (r_love r)) _ _ _ _ _ 3%nat OK ltac:(lia)) as (lev & n & EV & L1 & L2' & L3 & LV & N1 & N2 & N3).
  replace (sea_level_equation (clm Y) (slm Y) (r_lon r) (r_lat r) (on_grid r (land r)) (r_exp r) (Some (r_love r)) (BCode 0) (FCode 0) true 3 None 0 (/ 10 ^ 32)) with (Ok lev)
    by (rewrite <- EV, <- EL; reflexivity). cbn [bind].
  pose proof (C50_land _ _ _ _ _ _ _ _ (snd (r_love r)) _ _ _ _ _ 3%nat lev OK ltac:(lia) EV) as LZ. cbn [on_grid get] in LZ.
  pose proof (C50_mass _ _ _ _ _ _ _ _ (snd (r_love r)) _ _ _ _ _ 3%nat lev OK ltac:(lia) EV) as LM. rewrite (integral_globe r) in LM.
  destruct (stokes1 (upto r) w (s_P s) lev (fun i j => get lev i j 0) V' L1 L2' ltac:(reflexivity) EP) as (Z & EZ & _ & Z1).
  change (gen_stokes lev (r_lon r) (r_lat r) 0 1 None (GCode 1) (Some (first_two (s_P s))) (Some (r_love r)) = Ok Z) in EZ. rewrite EZ.
  change (forall c, (c < 3)%nat -> deg1_of (fun cs l m => if cs then get (slm Z) l m 0 else get (clm Z) l m 0) c = cmwe_factor (kl r) 1 1 * globe r (fun i j => axis r c i j * get lev i j 0)) in Z1.
  change (forall l, (l <= r_lmax r)%nat -> nth l (s_df s) 0 = water r l) in GD.
  cbn [bind]. eexists. exists (fun i j => get lev i j 0). split; [reflexivity|]. cbv beta.
  assert (OZ : forall i j, (i < List.length (r_lon r))%nat -> (j < List.length (r_lat r))%nat -> get lev i j 0 = ocean_at r i j * get lev i j 0).
  { intros i j Hi Hj. destruct (ocean01 r i j) as [E|E]; rewrite E; [|ring]. rewrite LZ; [ring|assumption|assumption|]. unfold ocean_at in E. lra. }
  split; [|split].
  + intros c Hc. rewrite (Z1 c Hc), (GD 1%nat) by lia.
    replace (globe r (fun i j => axis r c i j * get lev i j 0)) with (sea r (fun i j => axis r c i j * get lev i j 0)).
    2:{ apply globe_ext. intros i j Hi Hj. rewrite (OZ i j Hi Hj) at 2. ring. }
    transitivity (sea r (fun i j => axis r c i j * get lev i j 0) * (cmwe_factor (kl r) 1 1 * water r 1)); [ring|]. rewrite W2. unfold Rdiv. ring.
  + exists (clm Y), (slm Y), n. split; [exact N1|]. split; [|exact LV]. intros l m Hlm. destruct (CV l m 0%nat ltac:(lia) ltac:(lia)) as [CV1 _]. destruct (CV1 ltac:(lia)) as [-> ->].
    split; f_equal; apply quad_on; intros; rewrite <- !Rmult_assoc, HM by assumption; ring.
  + rewrite globe_plus. replace (globe r (fun i j => ocean_at r i j * get lev i j 0)) with (globe r (fun i j => get lev i j 0)) by (apply globe_ext; intros i j Hi Hj; rewrite (OZ i j Hi Hj) at 1; ring).
    rewrite <- GM. destruct (CV 0%nat 0%nat 0%nat ltac:(lia) ltac:(lia)) as [CV1 _]. destruct (CV1 ltac:(lia)) as [C0 _]. unfold load_mass in LM. rewrite C0 in LM. fold (integral (r_lon r) (r_lat r) (fun i j => lm i j * land r i j)) in LM.
    rewrite (integral_globe r) in LM. unfold cmwe_factor in LM. rewrite K0 in LM by (reflexivity || assumption). change (INR 0) with 0 in LM.
    pose proof (rho_e_pos (r_exp r)). pose proof (rad_e_pos (r_exp r)). pose proof PI_RGT_0. set (rho := rho_e (earth (r_exp r))) in *. set (a := rad_e (earth (r_exp r))) in *. clearbody rho a.
    set (A := globe r (fun i j => get lev i j 0)) in *. set (B := globe r (fun i j => lm i j * land r i j)) in *. clearbody A B.
    assert (E : a ^ 2 * A = - (a ^ 2 * B)) by (rewrite LM; field; repeat split; lra). assert (Z0 : a ^ 2 * (A + B) = 0) by (rewrite Rmult_plus_distr_l, E; ring).
    apply Rmult_integral in Z0. destruct Z0 as [Z0|Z0]; [|exact Z0]. exfalso. revert Z0. apply pow_nonzero. lra.
Qed.
Lemma mc_solve_ok v : exists D, mc_solve r s v = Ok D /\ forall c, (c < 3)%nat -> rsum 3 (fun b => imat r s c b * D b) = v c.
Proof using V L2 G HS K.
  pose proof (upto_valid r w V L2) as V'. destruct (solve_ok (upto r) w s V' G v HS K) as (D & E & H). exists D. split; [|exact H]. unfold solve in E. unfold mc_solve. cbn [upto r_solver] in E.
  destruct K as [K'|[K'|[K'|[K'|[K'|[]]]]]]; rewrite <- K' in *; exact E.
Qed.
Lemma sea_sum3 (D : nat -> R) c : (c < 3)%nat -> rsum 3 (fun b => imat r s c b * D b) = sea r (fun i j => axis r c i j * sumn 3 (fun b => D b * axis r b i j)) / (4 * PI).
Proof using V L2 G. clear O0 O1 K0 K HS.
  intros Hc. pose proof (upto_valid r w V L2) as V'. pose proof four_pi as FP. cbn [rsum].
  assert (I : forall a b, (a < 3)%nat -> (b < 3)%nat -> imat r s a b = sea r (fun i j => axis r a i j * axis r b i j) / (4 * PI)) by exact (imat_ok (upto r) w s V' G).
  rewrite !I by lia.
  replace (sea r (fun i j => axis r c i j * sumn 3 (fun b => D b * axis r b i j))) with
    (D 0%nat * sea r (fun i j => axis r c i j * axis r 0 i j) + D 1%nat * sea r (fun i j => axis r c i j * axis r 1 i j) + D 2%nat * sea r (fun i j => axis r c i j * axis r 2 i j)); [field; lra|].
  rewrite <- !sea_scal, <- !sea_plus. apply sea_ext. intros. cbn [sumn]. ring.
Qed.
End Month.

Lemma deg1_plus Y Y' c : deg1_of (fun cs l o => Y cs l o + Y' cs l o) c = deg1_of Y c + deg1_of Y' c.
Proof. destruct c as [|[|c]]; reflexivity. Qed.
Lemma set_deg1_deg1 X Y c : deg1_of (set_deg1 X Y) c = X (match c with O => 0 | 1 => 1 | _ => 2 end)%nat.
Proof. destruct c as [|[|c]]; reflexivity. Qed.
Lemma three (f : nat -> R) c : (c < 3)%nat -> f (match c with O => 0 | 1 => 1 | _ => 2 end)%nat = f c.
Proof. destruct c as [|[|[|c]]]; [reflexivity..|lia]. Qed.

(** one month of one run *)
Definition field0 (r : run) (t : nat) : coefs := fun cs l o => r_gsm r t cs l o - r_gia r t cs l o - r_atm r t cs l o.
Lemma mc_month_ok m w s n t : ordinary m w -> good (upto (m_run m)) w s -> spread (m_run m) -> known (r_solver (m_run m)) ->
  get (clm (s_ocean0 s)) 0 0 0 = cmwe_factor (kl (m_run m)) 1 0 * sea (m_run m) (fun _ _ => 1) ->
  (forall c, (c < 3)%nat -> deg1_of (fun cs l m => if cs then get (slm (s_ocean0 s)) l m 0 else get (clm (s_ocean0 s)) l m 0) c = cmwe_factor (kl (m_run m)) 1 1 * sea (m_run m) (axis (m_run m) c)) ->
  (r_fingerprint (m_run m) = true -> nth 0 (kl (m_run m)) 0 = 0) ->
  exists D h, let r := disturbed m n in mc_month m s n t = Ok (fun c => D c + deg1_of (r_gia (m_run m) t) c + deg1_of (r_atm (m_run m) t) c) /\
  (if r_fingerprint r then fingerprint_of r (total r w (nth 1 w 0) (fun c => start m n c t) t) h else exists h0, forall i j, h i j = h0) /\
  globe r (fun i j => ocean_at r i j * h i j + land r i j * total r w (nth 1 w 0) (fun c => start m n c t) t i j) = 0 /\
  forall c, (c < 3)%nat -> sea r (fun i j => axis r c i j * (mass r w 2 (field0 r t) i j + sumn 3 (fun b => D b * axis r b i j))) = sea r (fun i j => axis r c i j * h i j).
Proof.
  intros [V L2] G HS K O0 O1 K0. set (r0 := m_run m) in *. pose proof (upto_valid r0 w V L2) as V'. unfold mc_month. fold r0. cbv zeta.
  set (Yl := fun cs l o => set_deg1 (fun c => seasonal (r_n r0) (m_time m) c t) (r_gsm r0 t) cs l o - r_gia r0 t cs l o - r_atm r0 t cs l o + noise m n t cs l o).
  set (Yo := fun cs l o => r_gsm r0 t cs l o - r_gia r0 t cs l o - r_atm r0 t cs l o + noise m n t cs l o).
  assert (HT : forall i j, (j < List.length (r_lat r0))%nat -> mass r0 w 1 Yl i j = total (disturbed m n) w (nth 1 w 0) (fun c => start m n c t) t i j).
  { intros i j Hj. rewrite (mass_split r0 w Yl i j V Hj). unfold total. cbn [disturbed r_gsm r_gia r_atm]. fold r0. f_equal.
    - etransitivity; [|apply (mass_ext r0 w)]; [reflexivity|]. intros cs l o Hl. unfold Yl, set_deg1. replace (l =? 1)%nat with false by lia. ring.
    - change (water (disturbed m n) 1) with (water r0 1). f_equal. apply sumn_ext. intros c Hc. change (axis (disturbed m n) c i j) with (axis r0 c i j). f_equal. unfold Yl, start. fold r0.
      rewrite deg1_plus. assert (Q : deg1_of (fun cs l o => set_deg1 (fun c => seasonal (r_n r0) (m_time m) c t) (r_gsm r0 t) cs l o - r_gia r0 t cs l o - r_atm r0 t cs l o) c = seasonal (r_n r0) (m_time m) c t - deg1_of (r_gia r0 t) c - deg1_of (r_atm r0 t) c).
      { destruct c as [|[|[|c]]]; [reflexivity..|lia]. } rewrite Q. ring. }
  destruct (mc_eustatic_ok r0 w s V L2 G HS O0 O1 K0 (total (disturbed m n) w (nth 1 w 0) (fun c => start m n c t) t) (mass_grid r0 s 1 Yl)) as (e & h & -> & E & Hh & Hm).
  { intros i j Hi Hj. rewrite <- HT by exact Hj. exact (mass_ok (upto r0) w s V' G 1 Yl i j (le_n 1) Hj). }
  cbn [bind]. destruct (mc_solve_ok r0 w s V L2 G HS K (fun c => e c - project r0 s c (mass_grid r0 s 2 Yo))) as (D & -> & HD). cbn [bind]. exists D, h. cbv zeta. split; [reflexivity|]. split; [exact Hh|]. split; [exact Hm|].
  intros c Hc. specialize (HD c Hc). rewrite (E c Hc), (sea_sum3 r0 w s V L2 G D c Hc) in HD.
  assert (EG : project r0 s c (mass_grid r0 s 2 Yo) = sea r0 (fun i j => axis r0 c i j * mass r0 w 2 (field0 (disturbed m n) t) i j) / (4 * PI)).
  { etransitivity; [exact (project_ok (upto r0) w s V' G c (mass_grid r0 s 2 Yo) Hc)|]. f_equal. apply (sea_ext r0). intros i j Hi Hj.
    change (axis (upto r0) c i j) with (axis r0 c i j). transitivity (axis r0 c i j * (cell r0 j * mass_grid r0 s 2 Yo i j)); [ring|].
    transitivity (axis r0 c i j * (cell r0 j * mass r0 w 2 Yo i j)); [f_equal; exact (mass_ok (upto r0) w s V' G 2 Yo i j ltac:(lia) Hj)|].
    rewrite (mass_ext r0 w Yo (field0 (disturbed m n) t)); [ring|]. intros cs l o _. unfold Yo, field0. cbn [disturbed r_gsm r_gia r_atm]. fold r0. ring. }
  rewrite EG in HD. pose proof four_pi as FP.
  change (sea (disturbed m n)) with (sea r0). change (axis (disturbed m n)) with (axis r0). change (mass (disturbed m n)) with (mass r0).
  set (A := sea r0 (fun i j => axis r0 c i j * sumn 3 _)) in *. set (B := sea r0 (fun i j => axis r0 c i j * h i j)) in *. set (C := sea r0 (fun i j => axis r0 c i j * mass r0 w 2 (field0 (disturbed m n) t) i j)) in *.
  assert (E3 : A = B - C). { replace A with (A / (4 * PI) * (4 * PI)) by (field; lra). rewrite HD. field. lra. }
  transitivity (C + A); [|lra]. unfold C, A. rewrite <- sea_plus. apply sea_ext. intros. ring.
Qed.

(** ** the runs *)
Definition value (m : mc) (s : setup) (n t c : nat) : R :=
  match mapM (mc_month m s n) (seq 0 (r_n (m_run m))) with Ok L => nth t L (fun _ => 0) c - removed (m_run m) c t | Err _ => 0 end.
Definition centred (N : nat) (f : nat -> R) (t : nat) : R := f t - mean N f.
Lemma mean_lin N f g a b : mean N (fun t => a * f t + b * g t) = a * mean N f + b * mean N g.
Proof. unfold mean. rewrite sumn_plus, !sumn_scal. unfold Rdiv. ring. Qed.
Lemma mean_ext N f g : (forall t, (t < N)%nat -> f t = g t) -> mean N f = mean N g.
Proof. intros H. unfold mean. now rewrite (sumn_ext N f g H). Qed.
Lemma mean_const N a : (0 < N)%nat -> mean N (fun _ => a) = a.
Proof. intros H. unfold mean. rewrite FourierGenProofs.sumn_const. field. apply not_0_INR. lia. Qed.
Lemma centred_lin N f g a b t : centred N (fun t => a * f t + b * g t) t = a * centred N f t + b * centred N g t.
Proof. unfold centred. rewrite mean_lin. ring. Qed.
Lemma centred_ext N f g t : (t < N)%nat -> (forall t, (t < N)%nat -> f t = g t) -> centred N f t = centred N g t.
Proof. intros Ht H. unfold centred. now rewrite (H t Ht), (mean_ext N f g H). Qed.

(** the response of the ocean moments to a field: linear *)
Definition moments (r : run) (w : list R) (Y : coefs) (c : nat) : R :=
  sea r (fun i j => axis r c i j * mass r w 2 Y i j) + globe r (fun i j => land r i j * mass r w 1 Y i j) / sea r (fun _ _ => 1) * sea r (axis r c).
Definition on_land (m : mc) (t : nat) : coefs := fun cs l o =>
  set_deg1 (fun c => seasonal (r_n (m_run m)) (m_time m) c t) (r_gsm (m_run m) t) cs l o - r_gia (m_run m) t cs l o - r_atm (m_run m) t cs l o.
Lemma mass_lin r w L Y Y' a b i j : mass r w L (fun cs l o => a * Y cs l o + b * Y' cs l o) i j = a * mass r w L Y i j + b * mass r w L Y' i j.
Proof.
  unfold mass. rewrite <- !sumn_scal, <- sumn_plus. apply sumn_ext. intros m _. rewrite <- !sumn_scal, <- sumn_plus. apply sumn_ext. intros l _. destruct (_ && _); ring.
Qed.
Lemma moments_lin r w Y Y' a b c : moments r w (fun cs l o => a * Y cs l o + b * Y' cs l o) c = a * moments r w Y c + b * moments r w Y' c.
Proof.
  unfold moments.
  replace (sea r (fun i j => axis r c i j * mass r w 2 (fun cs l o => a * Y cs l o + b * Y' cs l o) i j)) with (a * sea r (fun i j => axis r c i j * mass r w 2 Y i j) + b * sea r (fun i j => axis r c i j * mass r w 2 Y' i j)).
  2:{ rewrite <- !sea_scal, <- sea_plus. apply sea_ext. intros. rewrite mass_lin. ring. }
  replace (globe r (fun i j => land r i j * mass r w 1 (fun cs l o => a * Y cs l o + b * Y' cs l o) i j)) with (a * globe r (fun i j => land r i j * mass r w 1 Y i j) + b * globe r (fun i j => land r i j * mass r w 1 Y' i j)).
  2:{ rewrite <- !globe_scal, <- globe_plus. apply globe_ext. intros. rewrite mass_lin. ring. }
  unfold Rdiv. ring.
Qed.
Lemma runs_ok m w : ordinary m w -> spread (m_run m) -> known (r_solver (m_run m)) -> (r_fingerprint (m_run m) = true -> nth 0 (kl (m_run m)) 0 = 0) ->
  let r := m_run m in let W := water r 1 in
  exists s, mc_prepare r = Ok s /\ good (upto r) w s /\ W <> 0 /\
    (let nc := fun n c t => centred (r_n r) (fun t => value m s n t c + removed r c t) t / W in
     exists avg err nc', monte_carlo m = Ok (avg, err, nc') /\
      (forall n c t, (n < m_runs m)%nat -> nc' n c t = nc n c t) /\
      (forall c t, avg c t = if (m_runs m =? 0)%nat then None else Some (mean (m_runs m) (fun n => nc n c t))) /\
      (forall c t, err c t = if (m_runs m =? 0)%nat then None else Some (1 / W * sqrt (sumn (m_runs m) (fun n => (W * centred (m_runs m) (fun n => nc n c t) n) ^ 2) / INR (m_runs m))))) /\
    forall n t, (t < r_n r)%nat ->
      (exists h, let r := disturbed m n in
        (if r_fingerprint r then fingerprint_of r (total r w (nth 1 w 0) (fun c => start m n c t) t) h else exists h0, forall i j, h i j = h0) /\
        globe r (fun i j => ocean_at r i j * h i j + land r i j * total r w (nth 1 w 0) (fun c => start m n c t) t i j) = 0 /\
        forall c, (c < 3)%nat -> sea r (fun i j => axis r c i j * (mass r w 2 (field0 r t) i j + sumn 3 (fun b => value m s n t b * axis r b i j))) = sea r (fun i j => axis r c i j * h i j)) /\
      (r_fingerprint r = false -> forall c, (c < 3)%nat -> rsum 3 (fun b => imat r s c b * value m s n t b) = - moments r w (fun cs l o => on_land m t cs l o + noise m n t cs l o) c / (4 * PI)).
Proof.
  intros O HS K K0. cbv zeta. pose proof O as [V L2]. destruct (mc_prepare_ok (m_run m) w V L2) as (s & EP & G & O0 & O1). exists s. split; [exact EP|]. split; [exact G|].
  destruct (water1 _ w V) as [W1 _]. split; [exact W1|].
  pose proof (fun n t => mc_month_ok m w s n t O G HS K O0 O1 K0) as MO.
  assert (ML : forall n, exists L, mapM (mc_month m s n) (seq 0 (r_n (m_run m))) = Ok L).
  { intros n. apply mapM_all. intros t _. destruct (MO n t) as (D & h & E & _). eauto. }
  assert (VAL : forall n t, (t < r_n (m_run m))%nat -> forall L, mapM (mc_month m s n) (seq 0 (r_n (m_run m))) = Ok L -> mc_month m s n t = Ok (nth t L (fun _ => 0))).
  { intros n t Ht L EL. destruct (mapM_nth _ _ _ EL) as [_ MN]. rewrite seq_length in MN. specialize (MN t 0%nat (fun _ => 0) Ht). rewrite seq_nth in MN by exact Ht. exact MN. }
  split.
  - assert (ON0 : forall n, exists f, mc_one m s n = Ok f /\ forall c t, f c t = centred (r_n (m_run m)) (fun t => value m s n t c + removed (m_run m) c t) t).
    { intros n. destruct (ML n) as [L EL]. unfold mc_one. rewrite EL. cbn [bind]. eexists. split; [reflexivity|]. intros c t. cbv beta. unfold centred, value. rewrite EL.
      f_equal; [ring|]. apply mean_ext. intros. ring. }
    destruct (mapM_all (mc_one m s) (seq 0 (m_runs m))) as [LL ELL]; [intros n _; destruct (ON0 n) as (f & E & _); eauto|].
    destruct (mapM_nth _ _ _ ELL) as [LN MN]. rewrite seq_length in LN, MN.
    assert (IT : forall n c t, (n < m_runs m)%nat -> nth n LL (fun _ _ => 0) c t = centred (r_n (m_run m)) (fun t => value m s n t c + removed (m_run m) c t) t).
    { intros n c t Hn. specialize (MN n 0%nat (fun _ _ => 0) Hn). rewrite seq_nth in MN by exact Hn. destruct (ON0 n) as (f & E & F). cbn [Nat.add] in MN. rewrite <- F. congruence. }
    unfold monte_carlo. rewrite EP. cbn [bind]. rewrite ELL. cbn [bind]. do 3 eexists. split; [reflexivity|]. cbv beta.
    assert (GD : nth 1 (s_df s) 0 = water (m_run m) 1). { destruct G as (_ & _ & _ & _ & _ & GD & _). apply GD. cbn [upto r_lmax]. lia. }
    rewrite GD. set (W := water (m_run m) 1) in *. clearbody W. split; [|split].
    + intros n c t Hn. rewrite IT by exact Hn. reflexivity.
    + intros c t. destruct (m_runs m =? 0)%nat; [reflexivity|]. f_equal. rewrite (mean_ext (m_runs m) (fun n => nth n LL (fun _ _ => 0) c t) _ (fun n Hn => IT n c t Hn)).
      unfold mean, Rdiv. rewrite (sumn_ext (m_runs m) (fun n => centred _ _ t * / W) (fun n => / W * centred (r_n (m_run m)) (fun t => value m s n t c + removed (m_run m) c t) t)) by (intros; ring). rewrite sumn_scal. ring.
    + intros c t. destruct (m_runs m =? 0)%nat; [reflexivity|]. f_equal. f_equal. f_equal. unfold Rdiv at 1 2. f_equal. apply sumn_ext. intros n Hn. rewrite IT by exact Hn.
      rewrite (mean_ext (m_runs m) (fun n => nth n LL (fun _ _ => 0) c t) _ (fun n Hn => IT n c t Hn)). f_equal.
      unfold centred at 2. set (g := fun n => centred (r_n (m_run m)) (fun t => value m s n t c + removed (m_run m) c t) t).
      change (g n - mean (m_runs m) g = W * (g n / W - mean (m_runs m) (fun n => g n / W))).
      replace (mean (m_runs m) (fun n => g n / W)) with (mean (m_runs m) g / W); [field; exact W1|].
      unfold mean, Rdiv. rewrite (sumn_ext (m_runs m) (fun n => g n * / W) (fun n => / W * g n)) by (intros; ring). rewrite sumn_scal. ring.
  - intros n t Ht. destruct (MO n t) as (D & h & E & H1 & H2 & H3). destruct (ML n) as [L EL]. pose proof (VAL n t Ht L EL) as E2.
    assert (ED : forall b, value m s n t b = D b). { intros b. unfold value. rewrite EL. assert (EE : nth t L (fun _ => 0) = fun c => D c + deg1_of (r_gia (m_run m) t) c + deg1_of (r_atm (m_run m) t) c) by congruence. rewrite EE. unfold removed. ring. }
    split.
    + exists h. cbv zeta. split; [exact H1|]. split; [exact H2|]. intros c Hc. rewrite <- (H3 c Hc). apply sea_ext. intros i j _ _. cbn [sumn]. rewrite !ED. reflexivity.
    + intros EF c Hc. rewrite (rsum_ext 3 _ (fun b => imat (m_run m) s c b * D b)) by (intros; now rewrite ED). rewrite (sea_sum3 (m_run m) w s V L2 G D c Hc).
      specialize (H3 c Hc). cbn [disturbed r_fingerprint] in H1. rewrite EF in H1. destruct H1 as [h0 H1]. set (r := m_run m) in *.
      change (sea (disturbed m n)) with (sea r) in *. change (axis (disturbed m n)) with (axis r) in *. change (mass (disturbed m n)) with (mass r) in *. change (globe (disturbed m n)) with (globe r) in *. change (ocean_at (disturbed m n)) with (ocean_at r) in *. change (land (disturbed m n)) with (land r) in *.
      pose proof (sea_pos r (v_grid _ _ V) HS) as SP. pose proof four_pi as FP.
      unfold moments.
      assert (TL : forall i j, (j < List.length (r_lat r))%nat -> total (disturbed m n) w (nth 1 w 0) (fun c => start m n c t) t i j = mass r w 1 (fun cs l o => on_land m t cs l o + noise m n t cs l o) i j).
      { intros i j Hj. rewrite (mass_split r w _ i j V Hj). unfold total. cbn [disturbed r_gsm r_gia r_atm]. fold r. change (mass (disturbed m n)) with (mass r). change (water (disturbed m n)) with (water r). change (axis (disturbed m n)) with (axis r). f_equal.
        - apply (mass_ext r w). intros cs l o Hl. unfold on_land, set_deg1. replace (l =? 1)%nat with false by lia. fold r. ring.
        - f_equal. apply sumn_ext. intros b Hb. f_equal. rewrite deg1_plus. unfold start. fold r. destruct b as [|[|[|b]]]; [| | |lia]; cbn [deg1_of]; unfold on_land, set_deg1; cbn [Nat.eqb]; fold r; ring. }
      assert (HH : h0 = - (globe r (fun i j => land r i j * mass r w 1 (fun cs l o => on_land m t cs l o + noise m n t cs l o) i j) / sea r (fun _ _ => 1))).
      { rewrite globe_plus in H2. replace (globe r (fun i j => ocean_at r i j * h i j)) with (h0 * sea r (fun _ _ => 1)) in H2 by (unfold sea; rewrite <- globe_scal; apply globe_ext; intros; rewrite H1; ring).
        replace (globe r (fun i j => land r i j * total (disturbed m n) w (nth 1 w 0) (fun c => start m n c t) t i j)) with (globe r (fun i j => land r i j * mass r w 1 (fun cs l o => on_land m t cs l o + noise m n t cs l o) i j)) in H2 by (apply globe_ext; intros; rewrite TL by assumption; reflexivity).
        set (A := globe r _) in *. set (B := sea r _) in *. apply (Rmult_eq_reg_r B); [|exact SP]. replace (- (A / B) * B) with (- A) by (field; exact SP). lra. }
      replace (sea r (fun i j => axis r c i j * h i j)) with (h0 * sea r (axis r c)) in H3 by (rewrite <- sea_scal; apply sea_ext; intros; rewrite H1; ring).
      rewrite HH in H3. set (Q := globe r _ / sea r _) in *.
      replace (sea r (fun i j => axis r c i j * (mass r w 2 (field0 (disturbed m n) t) i j + sumn 3 (fun b => D b * axis r b i j)))) with
        (sea r (fun i j => axis r c i j * mass r w 2 (fun cs l o => on_land m t cs l o + noise m n t cs l o) i j) + sea r (fun i j => axis r c i j * sumn 3 (fun b => D b * axis r b i j))) in H3.
      2:{ rewrite <- sea_plus. apply sea_ext. intros i j _ _. rewrite (mass_ext r w (field0 (disturbed m n) t) (fun cs l o => on_land m t cs l o + noise m n t cs l o)); [ring|].
          intros cs l o Hl. unfold field0, on_land, set_deg1. cbn [disturbed r_gsm r_gia r_atm]. replace (l =? 1)%nat with false by lia. fold r. ring. }
      set (A := sea r (fun i j => axis r c i j * sumn 3 _)) in *. set (B := sea r (fun i j => axis r c i j * mass r w 2 _ i j)) in *. unfold Rdiv. f_equal. lra.
Qed.
