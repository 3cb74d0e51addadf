(** Property C50: sea_level_equation.py.  Specification: the fixed-point iteration
    of Kendall et al. in terms of the grid functions only. *)
From Coq Require Import Reals Lra Lia String ZifyBool ZifyNat.
From Coquelicot Require Import Coquelicot.
From Verif Require Import Base UnitsModel UnitsProofs GaussModel Arr HarmModel LegendreSpec LegendreSpec2 LegendreModel LegendreProofs LegendreProofs2
  SummationModel SummationProofs PropLegendre PropSummation LegendreOneModel LegendreOneProofs GenModel GenProofs PropGen SleModel SleProofs.
Close Scope Z_scope.
Close Scope string_scope.
Open Scope R_scope.

(** ** Specification *)
(** response of the solid earth and of the rotation axis at degree l, order m;
    [polar] is 0 without rotational feedback *)
Definition earth_resp (h k : list R) (polar : R) (l m : nat) : R :=
  1 + nth l k 0 - nth l h 0 + (if (l =? 2)%nat && (m =? 1)%nat then polar else 0).
(** factor of the water layer and of the load coefficients *)
Definition water_factor (LMAX : nat) (h k : list R) (polar : R) (l m : nat) : R :=
  3 * earth_resp h k polar l m / (rho_e (earth LMAX) * (2 * INR l + 1)).
Definition load_factor (h k : list R) (polar : R) (l m : nat) : R := earth_resp h k polar l m / (1 + nth l k 0).
Definition polar_factor (POLAR : bool) (B : body_arg) (F : fluid_arg) (k : list R) : option R :=
  if POLAR then match body_tide B, fluid_love F with
                | Some (k2b, h2b), Some klf => Some ((1 + k2b - h2b) * (1 + nth 2 k 0) / (klf - k2b))
                | _, _ => None end
  else Some 0.
(** mass of the load, grams *)
Definition load_mass (LMAX : nat) (loadC : arr R) : R := 4 / 3 * PI * rad_e (earth LMAX) ^ 3 * rho_e (earth LMAX) * get loadC 0 0 0.
(** sea level after n rounds: [level_at] (SleProofs) starts from the uniform layer
    and applies [next_level], i.e. evaluates the series at the ocean cells and adds
    the uniform shift that conserves mass *)
Definition sea_level_at lon lat LMAX loadC loadS land h k polar : nat -> nat -> nat -> R :=
  level_at lon lat LMAX loadC loadS land (water_factor LMAX h k polar) (load_factor h k polar) (load_mass LMAX loadC).
Definition has_converged lon lat LMAX loadC loadS land h k polar (n : nat) : Prop :=
  let S := fun n => power_of lon lat LMAX (sea_level_at lon lat LMAX loadC loadS land h k polar n) in
  Rabs (S n - S (n - 1)%nat) <= 1 / 10 ^ 4 * S (n - 1)%nat.

(** valid arguments; the divisions of the code are by non-zero numbers *)
Record sle_ok (lon lat : list R) (LMAX : nat) (loadC loadS land : arr R) (h k : list R) (POLAR : bool) (B : body_arg) (F : fluid_arg) (polar SC : R) : Prop := {
  s_grid : grid_ok lon lat;
  s_square : List.length lon <> List.length lat;
  s_lmax : (2 <= LMAX)%nat;
  s_love : (LMAX < List.length h)%nat /\ (LMAX < List.length k)%nat;
  s_kl : forall l, (l <= LMAX)%nat -> 1 + nth l k 0 <> 0;
  s_polar : polar_factor POLAR B F k = Some polar;
  s_klf : POLAR = true -> forall k2b h2b klf, body_tide B = Some (k2b, h2b) -> fluid_love F = Some klf -> klf <> k2b;
  s_land : rows land = List.length lon /\ cols land = List.length lat;
  s_ocean : integral lon lat (fun i j => 1 - get land i j 0) <> 0;
  s_load : rows loadC = (LMAX + 1)%nat /\ cols loadC = (LMAX + 1)%nat /\ rows loadS = (LMAX + 1)%nat /\ cols loadS = (LMAX + 1)%nat;
  s_scale : SC <> 0 }.

Lemma a_pos L : 0 < a_axis (earth L).
Proof. cbn. unfold a_default. lra. Qed.
Lemma rho_e_pos L : rho_e (earth L) > 0.
Proof. apply rho_pos, a_pos. Qed.
Lemma rad_e_pos L : rad_e (earth L) > 0.
Proof. apply rad_pos, a_pos. Qed.

(** the coefficients above the diagonal do not matter *)
Section Ext.
Context (lon lat : list R) (LMAX : nat) (loadC loadS land : arr R) (ch cp ch' cp' : nat -> nat -> R) (tmass : R).
Hypothesis E1 : forall l m, (l <= LMAX)%nat -> (m <= l)%nat -> ch l m = ch' l m.
Hypothesis E2 : forall l m, (l <= LMAX)%nat -> (m <= l)%nat -> cp l m = cp' l m.
Lemma response_ext g g' i j : (forall l m, (l <= LMAX)%nat -> hc lon lat g l m = hc lon lat g' l m /\ hs lon lat g l m = hs lon lat g' l m) ->
  response lon lat LMAX loadC loadS ch cp g i j = response lon lat LMAX loadC loadS ch' cp' g' i j.
Proof.
  intros H. unfold response, series. apply sumn_ext. intros m Hm. apply sumn_ext. intros l Hl. cbn [Nat.leb]. destruct (le_dec m l) as [X|X].
  - rewrite E1, E2 by lia. destruct (H l m) as [-> ->]; [lia|]. reflexivity.
  - rewrite Nlm_high by lia. ring.
Qed.
Lemma level_ext n : forall i j, level_at lon lat LMAX loadC loadS land ch cp tmass n i j = level_at lon lat LMAX loadC loadS land ch' cp' tmass n i j.
Proof.
  induction n as [|n IH]; intros i j; [reflexivity|]. cbn [level_at]. unfold next_level.
  assert (R : forall i j, raw_level lon lat LMAX loadC loadS land ch cp (level_at lon lat LMAX loadC loadS land ch cp tmass n) i j =
     raw_level lon lat LMAX loadC loadS land ch' cp' (level_at lon lat LMAX loadC loadS land ch' cp' tmass n) i j).
  { intros a b. unfold raw_level. destruct (Req_EM_T _ _); [reflexivity|]. apply response_ext. intros l m Hl. unfold hc, hs.
    split; f_equal; apply quad_ext; intros; apply IH. }
  rewrite R. f_equal. f_equal. f_equal. f_equal. apply quad_ext. intros; apply R.
Qed.
End Ext.

(** ** Results *)
Theorem C50_result : forall lon lat LMAX loadC loadS land h k ll POLAR B F polar SC ITERATIONS,
  sle_ok lon lat LMAX loadC loadS land h k POLAR B F polar SC -> (1 <= ITERATIONS)%nat ->
  exists level n, sea_level_equation loadC loadS lon lat land LMAX (Some (h, k, ll)) B F POLAR ITERATIONS None 0 SC = Ok level /\
    rows level = List.length lon /\ cols level = List.length lat /\ depth level = None /\
    (forall i j, (i < List.length lon)%nat -> (j < List.length lat)%nat -> get level i j 0 = sea_level_at lon lat LMAX loadC loadS land h k polar n i j) /\
    (* at least one round, at most ITERATIONS, stopping at the first round that converged *)
    (1 <= n <= ITERATIONS)%nat /\ (forall i, (1 <= i < n)%nat -> ~ has_converged lon lat LMAX loadC loadS land h k polar i) /\
    (n = ITERATIONS \/ has_converged lon lat LMAX loadC loadS land h k polar n).
Proof.
  intros lon lat LMAX loadC loadS land h k ll POLAR B F polar SC IT OK HI. destruct OK as [HG HN HL [HH HK] KL HPo KF [L1 L2] HOc (D1 & D2 & D3 & D4) HSC].
  unfold sea_level_equation. replace ((List.length k <? LMAX + 1)%nat || (List.length h <? LMAX + 1)%nat) with false by lia.
  replace (2 <=? LMAX)%nat with true by lia. rewrite andb_true_r.
  assert (PO : exists p, (if POLAR then match body_tide B, fluid_love F with
          | Some (k2b, h2b), Some klf => Ok (Some (coefpmf k2b h2b klf (nth 2 k 0))) | _, _ => Err UnboundLocalError end else Ok None) = Ok p /\
     forall l m, (l <= LMAX)%nat -> (m <= l)%nat -> coefh (rho_e (earth LMAX)) h k p l m = water_factor LMAX h k polar l m /\ coefp h k p l m = load_factor h k polar l m).
  { unfold polar_factor in HPo. assert (RP : rho_e (earth LMAX) <> 0) by (apply Rgt_not_eq, rho_e_pos). destruct POLAR.
    - destruct (body_tide B) as [[k2b h2b]|]; [|discriminate]. destruct (fluid_love F) as [klf|]; [|discriminate].
      assert (EP : (1 + k2b - h2b) * (1 + nth 2 k 0) / (klf - k2b) = polar) by congruence. eexists. split; [reflexivity|].
      intros l m Hl Hm. unfold coefh, coefp, water_factor, load_factor, earth_resp. replace (m <=? l)%nat with true by lia. unfold coefpmf. rewrite EP.
      assert (P2 : 2 * INR l + 1 <> 0) by (pose proof (pos_INR l); lra). specialize (KL l Hl). rewrite (Rplus_comm (nth l k 0) 1).
      destruct ((l =? 2)%nat && (m =? 1)%nat); split; field; auto.
    - assert (EP : polar = 0) by congruence. eexists. split; [reflexivity|].
      intros l m Hl Hm. unfold coefh, coefp, water_factor, load_factor, earth_resp. replace (m <=? l)%nat with true by lia. rewrite EP.
      assert (P2 : 2 * INR l + 1 <> 0) by (pose proof (pos_INR l); lra). specialize (KL l Hl). rewrite (Rplus_comm (nth l k 0) 1).
      destruct ((l =? 2)%nat && (m =? 1)%nat); split; field; auto. }
  destruct PO as (p & -> & PC). cbn [bind].
  destruct (holmes_gives LMAX lat HL) as (P & EP & _). rewrite EP. cbn [bind]. rewrite L1, L2, D1, D2, D3, D4, !Nat.eqb_refl. cbn [andb negb].
  destruct (harm_of_ok lon lat LMAX P HG HL EP HN (ocean land) L1 L2) as (OY & -> & HO). cbn [bind]. cbn [ocean amap get] in HO.
  set (tmass := 4 * PI * rad_e (earth LMAX) ^ 3 * rho_e (earth LMAX) * get loadC 0 0 0 / 3).
  assert (TM : tmass = load_mass LMAX loadC) by (unfold tmass, load_mass; field).
  pose proof (area_ok lon lat LMAX HL HN land (fun _ _ => 0) (fun _ _ => 0) OY L1 L2 HO) as AR. rewrite AR.
  destruct (scale_ok lon lat LMAX OY (fun i j => 1 - get land i j 0) (- tmass / 1 / rad_e (earth LMAX) ^ 2 / integral lon lat (fun i j => 1 - get land i j 0)) HO) as (H0 & E0 & HH0).
  rewrite E0. cbn [bind]. rewrite <- AR.
  destruct (loop_ok lon lat LMAX P HG HL EP HN loadC loadS land SC (coefh (rho_e (earth LMAX)) h k p) (coefp h k p) tmass OY HSC L1 L2 HO IT 0 H0 None) as (n & r & ER & _ & Q).
  { eapply harm_ext; [|exact HH0]. intros i j Hi Hj. cbn [level_at]. f_equal. f_equal. unfold Rdiv. rewrite Rinv_1. ring. }
  rewrite ER. cbn [bind]. destruct (Q ltac:(lia)) as (Q1 & Q2 & Q3 & level & -> & V1 & V2 & V3 & V).
  destruct (Req_EM_T 0 0) as [_|N]; [|lra].
  assert (LE : forall n i j, level_at lon lat LMAX loadC loadS land (coefh (rho_e (earth LMAX)) h k p) (coefp h k p) tmass n i j = sea_level_at lon lat LMAX loadC loadS land h k polar n i j).
  { intros. unfold sea_level_at. rewrite TM. apply level_ext; intros; now apply PC. }
  assert (PE : forall n, power_of lon lat LMAX (level_at lon lat LMAX loadC loadS land (coefh (rho_e (earth LMAX)) h k p) (coefp h k p) tmass n) =
     power_of lon lat LMAX (sea_level_at lon lat LMAX loadC loadS land h k polar n)).
  { intros m. unfold power_of. apply sumn_ext. intros l _. apply sumn_ext. intros mm _. unfold hc, hs. f_equal. f_equal; f_equal; f_equal; apply quad_ext; intros; apply LE. }
  exists level, n. split; [reflexivity|]. repeat (split; [assumption|]). split; [intros i j Hi Hj; rewrite V by assumption; apply LE|].
  split; [lia|]. unfold converged in Q2, Q3. unfold has_converged. cbv zeta. split.
  - intros i Hi X. apply (Q2 i ltac:(lia)). rewrite !PE. exact X.
  - destruct Q3 as [Q3|Q3]; [left; lia|right]. rewrite !PE in Q3. exact Q3.
Qed.
Print Assumptions C50_result.

(** mass: the integral of the sea level over the grid times the squared radius is
    minus the mass of the load (water density 1), after every number of rounds *)
Lemma level_integral lon lat LMAX loadC loadS land ch cp tmass n : integral lon lat (fun i j => 1 - get land i j 0) <> 0 ->
  integral lon lat (level_at lon lat LMAX loadC loadS land ch cp tmass n) = - tmass / rad_e (earth LMAX) ^ 2.
Proof.
  intros H. destruct n as [|n]; cbn [level_at].
  - unfold integral in *. rewrite quad_scal. unfold Rdiv. rewrite Rmult_assoc, Rinv_l by assumption. ring.
  - unfold integral in *. unfold next_level.
    set (r := raw_level _ _ _ _ _ _ _ _ _). set (c := _ / integral lon lat _).
    rewrite (quad_lin cos lon lat 0 0 c r (fun i j => 1 - get land i j 0)). unfold c, integral. field. split; (assumption || (apply Rgt_not_eq, rad_e_pos)).
Qed.
Theorem C50_mass : forall lon lat LMAX loadC loadS land h k ll POLAR B F polar SC ITERATIONS level,
  sle_ok lon lat LMAX loadC loadS land h k POLAR B F polar SC -> (1 <= ITERATIONS)%nat ->
  sea_level_equation loadC loadS lon lat land LMAX (Some (h, k, ll)) B F POLAR ITERATIONS None 0 SC = Ok level ->
  rad_e (earth LMAX) ^ 2 * integral lon lat (fun i j => get level i j 0) = - load_mass LMAX loadC.
Proof.
  intros lon lat LMAX loadC loadS land h k ll POLAR B F polar SC IT level OK HI E.
  destruct (C50_result _ _ _ _ _ _ _ _ ll _ _ _ _ _ _ OK HI) as (level' & n & E' & _ & _ & _ & V & _). assert (level' = level) by congruence. subst level'.
  unfold integral. rewrite (quad_ext cos lon lat 0 0 _ _ V). unfold sea_level_at. fold (integral lon lat (level_at lon lat LMAX loadC loadS land (water_factor LMAX h k polar) (load_factor h k polar) (load_mass LMAX loadC) n)).
  rewrite level_integral by (apply OK). field. apply Rgt_not_eq, rad_e_pos.
Qed.

(** zero on land (land function 1) *)
Theorem C50_land : forall lon lat LMAX loadC loadS land h k ll POLAR B F polar SC ITERATIONS level,
  sle_ok lon lat LMAX loadC loadS land h k POLAR B F polar SC -> (1 <= ITERATIONS)%nat ->
  sea_level_equation loadC loadS lon lat land LMAX (Some (h, k, ll)) B F POLAR ITERATIONS None 0 SC = Ok level ->
  forall i j, (i < List.length lon)%nat -> (j < List.length lat)%nat -> get land i j 0 = 1 -> get level i j 0 = 0.
Proof.
  intros lon lat LMAX loadC loadS land h k ll POLAR B F polar SC IT level OK HI E i j Hi Hj HLd.
  destruct (C50_result _ _ _ _ _ _ _ _ ll _ _ _ _ _ _ OK HI) as (level' & n & E' & _ & _ & _ & V & Hn & _). assert (level' = level) by congruence. subst level'.
  rewrite V by assumption. unfold sea_level_at. destruct n as [|n]; [lia|]. cbn [level_at]. unfold next_level, raw_level. cbv beta.
  destruct (Req_EM_T (1 - get land i j 0) 0) as [Q|Q]; [rewrite Q; ring|lra].
Qed.

(** fill value: the cells with a non-zero land function get it, the others keep the sea level *)
Theorem C50_fill : forall lon lat LMAX loadC loadS land LOVE POLAR B F SC ITERATIONS PLM FILL level, FILL <> 0 ->
  sea_level_equation loadC loadS lon lat land LMAX LOVE B F POLAR ITERATIONS PLM 0 SC = Ok level ->
  exists level', sea_level_equation loadC loadS lon lat land LMAX LOVE B F POLAR ITERATIONS PLM FILL SC = Ok level' /\
    rows level' = rows level /\ cols level' = cols level /\
    forall i j, (get land i j 0 <> 0 -> get level' i j 0 = FILL) /\ (get land i j 0 = 0 -> get level' i j 0 = get level i j 0).
Proof.
  intros lon lat LMAX loadC loadS land LOVE POLAR B F SC IT PLM FILL level HF E. unfold sea_level_equation in *.
  destruct LOVE as [[[h k] ll]|]; [|discriminate]. destruct (_ || _); [discriminate|]. destruct (if POLAR && _ then _ else _) as [p|]; [|discriminate]. cbn [bind] in *.
  destruct (holmes_or PLM LMAX lat) as [P|]; [|discriminate]. cbn [bind] in *. destruct (negb _); [discriminate|].
  destruct (gen_harmonics _ _ _ _ _ _) as [OY|]; [|discriminate]. cbn [bind] in *. destruct (scale _ _) as [H|]; [|discriminate]. cbn [bind] in *.
  destruct (sle_loop _ _ _ _ _ _ _ _ _ _ _ _ _ _ _ _ _) as [[lv|]|]; [|discriminate|discriminate]. cbn [bind] in *.
  destruct (Req_EM_T 0 0) as [_|N]; [|lra]. assert (lv = level) by congruence. subst lv. destruct (Req_EM_T FILL 0) as [X|X]; [contradiction|].
  eexists. split; [reflexivity|]. cbn [rows cols get]. split; [reflexivity|]. split; [reflexivity|]. intros i j. destruct (Req_EM_T (get land i j 0) 0) as [Y|Y]; split; intros Q; congruence || contradiction.
Qed.

(** ITERATIONS = 0 raises, whatever the fill value *)
Theorem C50_no_iterations : forall lon lat LMAX loadC loadS land h k ll POLAR B F polar SC FILL,
  sle_ok lon lat LMAX loadC loadS land h k POLAR B F polar SC ->
  sea_level_equation loadC loadS lon lat land LMAX (Some (h, k, ll)) B F POLAR 0 None FILL SC = Err UnboundLocalError.
Proof.
  intros lon lat LMAX loadC loadS land h k ll POLAR B F polar SC FILL OK.
  destruct (C50_result _ _ _ _ _ _ _ _ ll _ _ _ _ _ 1%nat OK (le_n _)) as (level & n & E & _). unfold sea_level_equation in *.
  destruct (_ || _); [discriminate|]. destruct (if POLAR && _ then _ else _) as [p|]; [|discriminate]. cbn [bind] in *.
  destruct (holmes_or None LMAX lat) as [P|]; [|discriminate]. cbn [bind] in *. destruct (negb _); [discriminate|].
  destruct (gen_harmonics _ _ _ _ _ _) as [OY|]; [|discriminate]. cbn [bind] in *. destruct (scale _ _) as [H|]; [|discriminate]. reflexivity.
Qed.

(** ** scaling the load scales the sea level *)
Section Scaling.
Context (lon lat : list R) (LMAX : nat) (loadC loadS loadC' loadS' land : arr R) (ch cp : nat -> nat -> R) (tmass c : R).
Hypothesis EC : forall l m, get loadC' l m 0 = c * get loadC l m 0.
Hypothesis ES : forall l m, get loadS' l m 0 = c * get loadS l m 0.
Lemma level_scaled n : forall i j, level_at lon lat LMAX loadC' loadS' land ch cp (c * tmass) n i j = c * level_at lon lat LMAX loadC loadS land ch cp tmass n i j.
Proof.
  induction n as [|n IH]; intros i j; cbn [level_at]; [unfold Rdiv; ring|]. unfold next_level.
  set (g' := level_at lon lat LMAX loadC' loadS' land ch cp (c * tmass) n) in *. set (g := level_at lon lat LMAX loadC loadS land ch cp tmass n) in *.
  assert (R : forall i j, raw_level lon lat LMAX loadC' loadS' land ch cp g' i j = c * raw_level lon lat LMAX loadC loadS land ch cp g i j).
  { intros a b. unfold raw_level. destruct (Req_EM_T _ _); [ring|]. unfold response, series. rewrite <- sumn_scal. apply sumn_ext. intros m Hm. rewrite <- sumn_scal. apply sumn_ext.
    intros l Hl. cbn [Nat.leb]. rewrite EC, ES. unfold hc, hs. rewrite (quad_ext cos lon lat l m g' (fun i j => c * g i j)) by (intros; apply IH).
    rewrite (quad_ext sin lon lat l m g' (fun i j => c * g i j)) by (intros; apply IH). rewrite !quad_scal. ring. }
  rewrite R. unfold integral. rewrite (quad_ext cos lon lat 0 0 (raw_level lon lat LMAX loadC' loadS' land ch cp g') (fun i j => c * raw_level lon lat LMAX loadC loadS land ch cp g i j)) by (intros; apply R).
  rewrite quad_scal. unfold Rdiv. ring.
Qed.
Lemma power_scaled g : power_of lon lat LMAX (fun i j => c * g i j) = Rabs c * power_of lon lat LMAX g.
Proof.
  unfold power_of. rewrite <- sumn_scal. apply sumn_ext. intros l _. rewrite <- sumn_scal. apply sumn_ext. intros m _. unfold hc, hs. rewrite !quad_scal.
  replace ((1 / (4 * PI) * (c * quad cos lon lat l m g)) ^ 2 + (1 / (4 * PI) * (c * quad sin lon lat l m g)) ^ 2) with
    (Rsqr c * ((1 / (4 * PI) * quad cos lon lat l m g) ^ 2 + (1 / (4 * PI) * quad sin lon lat l m g) ^ 2)) by (unfold Rsqr; ring).
  rewrite sqrt_mult_alt by apply Rle_0_sqr. now rewrite sqrt_Rsqr_abs.
Qed.
End Scaling.

Theorem C50_homogeneous : forall lon lat LMAX loadC loadS land h k ll POLAR B F polar SC ITERATIONS c level loadC' loadS',
  sle_ok lon lat LMAX loadC loadS land h k POLAR B F polar SC -> (1 <= ITERATIONS)%nat -> c <> 0 ->
  same_shape loadC loadC' -> same_shape loadS loadS' ->
  (forall l m, get loadC' l m 0 = c * get loadC l m 0) -> (forall l m, get loadS' l m 0 = c * get loadS l m 0) ->
  sea_level_equation loadC loadS lon lat land LMAX (Some (h, k, ll)) B F POLAR ITERATIONS None 0 SC = Ok level ->
  exists level', sea_level_equation loadC' loadS' lon lat land LMAX (Some (h, k, ll)) B F POLAR ITERATIONS None 0 SC = Ok level' /\
    forall i j, (i < List.length lon)%nat -> (j < List.length lat)%nat -> get level' i j 0 = c * get level i j 0.
Proof.
  intros lon lat LMAX loadC loadS land h k ll POLAR B F polar SC IT c level loadC' loadS' OK HI Hc SH1 SH2 EC ES E.
  assert (OK' : sle_ok lon lat LMAX loadC' loadS' land h k POLAR B F polar SC).
  { destruct OK. destruct SH1 as (Q1 & Q2 & _), SH2 as (Q3 & Q4 & _). split; try assumption. destruct s_load0 as (A1 & A2 & A3 & A4). repeat split; congruence. }
  destruct (C50_result _ _ _ _ _ _ _ _ ll _ _ _ _ _ _ OK HI) as (lv & n & E1 & _ & _ & _ & V & N1 & N2 & N3). assert (lv = level) by congruence. subst lv.
  destruct (C50_result _ _ _ _ _ _ _ _ ll _ _ _ _ _ _ OK' HI) as (level' & n' & E2 & _ & _ & _ & V' & N1' & N2' & N3').
  assert (LS : forall n i j, sea_level_at lon lat LMAX loadC' loadS' land h k polar n i j = c * sea_level_at lon lat LMAX loadC loadS land h k polar n i j).
  { intros. unfold sea_level_at. replace (load_mass LMAX loadC') with (c * load_mass LMAX loadC) by (unfold load_mass; rewrite EC; ring). now apply level_scaled. }
  assert (CV : forall n, has_converged lon lat LMAX loadC' loadS' land h k polar n <-> has_converged lon lat LMAX loadC loadS land h k polar n).
  { intros q. unfold has_converged. cbv zeta.
    assert (PS : forall q, power_of lon lat LMAX (sea_level_at lon lat LMAX loadC' loadS' land h k polar q) = Rabs c * power_of lon lat LMAX (sea_level_at lon lat LMAX loadC loadS land h k polar q)).
    { intros r. rewrite <- power_scaled. unfold power_of. apply sumn_ext. intros l _. apply sumn_ext. intros m _. unfold hc, hs. f_equal. f_equal; f_equal; f_equal; apply quad_ext; intros; apply LS. }
    rewrite !PS. set (A := power_of _ _ _ _). set (B0 := power_of _ _ _ _). rewrite <- Rmult_minus_distr_l, Rabs_mult, Rabs_Rabsolu.
    pose proof (Rabs_pos_lt c Hc) as PC. split; intros X.
    - apply Rmult_le_reg_l with (Rabs c); [exact PC|]. rewrite <- (Rmult_assoc (Rabs c) (1 / 10 ^ 4)), (Rmult_comm (Rabs c) (1 / 10 ^ 4)), Rmult_assoc. exact X.
    - apply Rmult_le_compat_l with (r := Rabs c) in X; [|lra]. rewrite <- (Rmult_assoc (Rabs c) (1 / 10 ^ 4)), (Rmult_comm (Rabs c) (1 / 10 ^ 4)), Rmult_assoc in X. exact X. }
  assert (NN : n = n').
  { destruct (lt_eq_lt_dec n n') as [[X|X]|X]; [|exact X|]; exfalso.
    - destruct N3 as [N3|N3]; [lia|]. apply (N2' n ltac:(lia)). now apply CV.
    - destruct N3' as [N3'|N3']; [lia|]. apply (N2 n' ltac:(lia)). now apply CV. }
  subst n'. exists level'. split; [exact E2|]. intros i j Hi Hj. rewrite V', V by assumption. apply LS.
Qed.

(** no load, no sea level change *)
Theorem C50_zero_load : forall lon lat LMAX loadC loadS land h k ll POLAR B F polar SC ITERATIONS,
  sle_ok lon lat LMAX loadC loadS land h k POLAR B F polar SC -> (1 <= ITERATIONS)%nat ->
  (forall l m, get loadC l m 0 = 0) -> (forall l m, get loadS l m 0 = 0) ->
  exists level, sea_level_equation loadC loadS lon lat land LMAX (Some (h, k, ll)) B F POLAR ITERATIONS None 0 SC = Ok level /\
    forall i j, (i < List.length lon)%nat -> (j < List.length lat)%nat -> get level i j 0 = 0.
Proof.
  intros lon lat LMAX loadC loadS land h k ll POLAR B F polar SC IT OK HI ZC ZS.
  destruct (C50_result _ _ _ _ _ _ _ _ ll _ _ _ _ _ _ OK HI) as (level & n & E & _ & _ & _ & V & _). exists level. split; [exact E|]. intros i j Hi Hj. rewrite V by assumption.
  unfold sea_level_at. replace (load_mass LMAX loadC) with (0 * 0) by (unfold load_mass; rewrite ZC; ring).
  rewrite (level_scaled lon lat LMAX loadC loadS loadC loadS land _ _ 0 0); [ring|intros; rewrite ZC; ring|intros; rewrite ZS; ring].
Qed.

(** valid arguments exist: 4 x 3 grid with one land cell, LMAX = 2, default rotation constants *)
Example C50_example : let land := mkarr 4 3 None (fun i j _ => if (i =? 0)%nat && (j =? 1)%nat then 1 else 0) in
  let load := mkarr 3 3 None (fun l m _ => if (l =? 0)%nat && (m =? 0)%nat then 1 else 0) in
  sle_ok [0; 90; 180; 270] [90; 0; -90] 2 load load land [0; 0; 0] [0; 0; 0] true (BCode 0) (FCode 3) ((1 + 298 / 1000 - 604 / 1000) * (1 + 0) / (942 / 1000 - 298 / 1000)) 1.
Proof.
  cbv zeta. split.
  - repeat split; cbn; try lia. repeat constructor; lra.
  - cbn. lia.
  - lia.
  - cbn. lia.
  - intros l Hl. destruct l as [|[|[|l]]]; [..|lia]; cbn; lra.
  - reflexivity.
  - intros _ k2b h2b klf E1 E2. cbn in E1, E2. injection E1 as <- <-. injection E2 as <-. lra.
  - split; reflexivity.
  - unfold integral, quad, grid_sum. cbn [List.length sumn nth INR get Nat.eqb andb]. rewrite !Rmult_0_l, cos_0.
    assert (Z : forall x, Nlm 0 0 x = 1) by (intro; now rewrite Nlm_NU, NU_0_0). rewrite !Z.
    unfold cell_step, colat, deg. cbn [nth]. replace ((90 - 90) * PI / 180) with 0 by field. replace ((90 - 0) * PI / 180) with (PI / 2) by field.
    replace ((90 - -90) * PI / 180) with PI by field. rewrite sin_0, sin_PI2, sin_PI. rewrite (Rabs_right (90 - 0)), (Rabs_left (0 - 90)) by lra.
    match goal with |- ?t <> 0 => replace t with (3 / 4 * (PI * PI)) by field end. pose proof PI_RGT_0. nra.
  - cbn. lia.
  - lra.
Qed.
