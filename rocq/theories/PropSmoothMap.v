(** C92: Gaussian smoothing of the coefficients is the Gaussian-weighted average of the field over the sphere
    (gauss_weights.py, clenshaw_summation.py, harmonic_summation.py stokes_summation). *)
From Coq Require Import Reals Lra Lia String ZifyBool ZifyNat.
From Coquelicot Require Import Coquelicot.
From Verif Require Import Base GaussModel Arr LegendreSpec LegendreSpec2 SummationModel SummationProofs PropLegendre GaussProofs PropGauss PropSummation PropFactors
  LegendreOrtho LegendreFourier FourierLegProofs Addition FunkHecke GenProofs PropLoadField.
Close Scope Z_scope.
Close Scope string_scope.
Open Scope R_scope.

(** ** Specification *)
(** weight of a point at angular distance gamma, x = cos gamma: exp(-b (1 - x)), scaled so that the weights of the whole sphere integrate to 1 *)
Definition gauss_kernel (b x : R) : R := exp (- b * (1 - x)) / (2 * PI * RInt (fun t => exp (- b * (1 - t))) (-1) 1).
(** cosine of the angle between the points of colatitude and longitude (th, phi) and (th', phi') in radians: scalar product of the unit vectors *)
Definition cos_between (th phi th' phi' : R) : R :=
  (sin th * cos phi) * (sin th' * cos phi') + (sin th * sin phi) * (sin th' * sin phi') + cos th * cos th'.
(** the weighted average of the field F around the point (th, phi): integral over colatitude t and longitude p with the surface element sin t dt dp *)
Definition sphere_average (w : R -> R) (F : R -> R -> R) (th phi : R) (v : R) : Prop :=
  (forall t, 0 <= t <= PI -> ex_RInt (fun p => w (cos_between th phi t p) * F t p) 0 (2 * PI)) /\
  is_RInt (fun t => RInt (fun p => w (cos_between th phi t p) * F t p) 0 (2 * PI) * sin t) 0 PI v.

(** ** Proofs *)
Lemma between_dist th phi t p : cos_between th phi t p = cosdist th t (phi - p).
Proof. unfold cos_between, cosdist. rewrite cos_minus. ring. Qed.

(** substitution t = cos th *)
Lemma lam_cos (f : R -> R) : (forall x, continuous f x) -> is_RInt (fun t => f (cos t) * sin t) 0 PI (RInt f (-1) 1).
Proof.
  intros C. assert (E : is_RInt (fun y => scal (- sin y) (f (cos y))) 0 PI (RInt f (cos 0) (cos PI))).
  { apply (@is_RInt_comp R_CompleteNormedModule f cos (fun y => - sin y) 0 PI).
    - intros x _. apply C.
    - intros x _. split; [apply is_derive_cos|]. apply (continuous_opp (V := R_NormedModule) sin), continuous_sin. }
  rewrite cos_0, cos_PI in E. apply (@is_RInt_opp R_NormedModule) in E.
  rewrite <- (opp_RInt_swap f) in E by (apply (@ex_RInt_continuous R_CompleteNormedModule); intros; apply C).
  replace (RInt f (-1) 1) with (- - RInt f (-1) 1) by ring.
  eapply is_RInt_ext; [|exact E]. intros x _. cbn. unfold scal, opp. cbn. unfold mult. cbn. ring.
Qed.

Lemma kernel_cont b : forall x, continuous (gauss_kernel b) x.
Proof. intros x. apply (ex_derive_continuous (gauss_kernel b)). unfold gauss_kernel. auto_derive. exact I. Qed.
Lemma exp_cont b : forall x : R, continuous (fun t => exp (- b * (1 - t))) x.
Proof. intros x. apply (ex_derive_continuous (fun t => exp (- b * (1 - t)))). auto_derive. exact I. Qed.
Lemma mass_pos b : 0 < RInt (fun t => exp (- b * (1 - t))) (-1) 1.
Proof. apply RInt_gt_0; [lra|intros; apply exp_pos|intros; apply exp_cont]. Qed.
Lemma kernel_lam b l : 2 * PI * lamK (gauss_kernel b) l = jekeli b l.
Proof.
  pose proof (mass_pos b) as M. pose proof PI_RGT_0 as P. unfold jekeli, lamK.
  set (f := fun t => exp (- b * (1 - t)) * legP l t). assert (Cf : forall x, continuous f x) by (intros x; apply mul_cont; [apply exp_cont|apply legP_cont]).
  pose proof (lam_cos f Cf) as E. set (m := RInt (fun t => exp (- b * (1 - t))) (-1) 1) in *.
  assert (V : RInt (fun t => gauss_kernel b (cos t) * legP l (cos t) * sin t) 0 PI = / (2 * PI * m) * RInt f (-1) 1).
  { apply int_val. eapply is_RInt_ext; [|apply (int_scal _ (/ (2 * PI * m)) _ _ _ _ E); reflexivity]. intros x _. req. unfold gauss_kernel, f. fold m. field. split; lra. }
  rewrite V. field. split; lra.
Qed.
Lemma kernel_spheric b : spheric (gauss_kernel b).
Proof.
  pose proof (mass_pos b) as M. pose proof PI_RGT_0 as P. set (m := RInt (fun t => exp (- b * (1 - t))) (-1) 1) in *.
  apply (spheric_ext (fun x => (exp (- b) / (2 * PI * m)) * exp (b * x) + 0 * exp (b * x))); [|apply spheric_lin; apply spheric_exp].
  intros x. unfold gauss_kernel. fold m. replace (- b * (1 - x)) with (- b + b * x) by ring. rewrite exp_plus. field. split; lra.
Qed.

(** the field of the coefficients with the degree-l terms multiplied by jekeli b l is the Gaussian average of the field *)
Lemma series_average b c s L th phi : 0 <= th <= PI ->
  sphere_average (gauss_kernel b) (series c s 0 L L) th phi (series (fun l m => jekeli b l * c l m) (fun l m => jekeli b l * s l m) 0 L L th phi).
Proof.
  intros Hth. pose proof PI_RGT_0 as P.
  assert (F : forall t p, 0 <= t <= PI -> series c s 0 L L t p = sumn (L + 1) (fun m => sumn (L + 1) (fun l => NT l m t * wave m (c l m) (s l m) p))).
  { intros t p Ht. unfold series. apply sumn_ext. intros m _. apply sumn_ext. intros l _. cbn [Nat.leb]. rewrite <- NT_Nlm by exact Ht. reflexivity. }
  assert (IN : forall t, 0 <= t <= PI -> is_RInt (fun p => gauss_kernel b (cos_between th phi t p) * series c s 0 L L t p) 0 (2 * PI)
     (sumn (L + 1) (fun m => sumn (L + 1) (fun l => NT l m t * ring_avg (gauss_kernel b) th phi m (c l m) (s l m) t)))).
  { intros t Ht. apply (is_RInt_ext (fun p => sumn (L + 1) (fun m => sumn (L + 1) (fun l => NT l m t * (gauss_kernel b (cosdist th t (phi - p)) * wave m (c l m) (s l m) p))))).
    - intros p _. req. rewrite F by exact Ht. rewrite between_dist, <- sumn_scal. apply sumn_ext. intros m _. rewrite <- sumn_scal. apply sumn_ext. intros l _. ring.
    - apply is_RInt_sumn. intros m _. apply is_RInt_sumn. intros l _. apply (int_scal _ (NT l m t) _ _ (ring_avg (gauss_kernel b) th phi m (c l m) (s l m) t)); [|reflexivity].
      unfold ring_avg. apply int_cont. apply ring_cont, kernel_cont. }
  split; [intros t Ht; eexists; apply IN; exact Ht|].
  apply (is_RInt_ext (fun t => sumn (L + 1) (fun m => sumn (L + 1) (fun l => ring_avg (gauss_kernel b) th phi m (c l m) (s l m) t * NT l m t * sin t)))).
  - intros t Ht. rewrite Rmin_left, Rmax_right in Ht by lra. req. rewrite (int_val _ _ _ _ (IN t ltac:(lra))). rewrite Rmult_comm, <- sumn_scal. apply sumn_ext. intros m _. rewrite <- sumn_scal. apply sumn_ext. intros l _. ring.
  - unfold series. apply is_RInt_sumn. intros m Hm. apply is_RInt_sumn. intros l Hl. cbn [Nat.leb]. destruct (le_dec m l) as [Lm|Lm].
    + destruct (kernel_spheric b) as [_ H]. specialize (H l m th phi (c l m) (s l m) Lm). rewrite kernel_lam in H.
      replace (Nlm l m (cos th) * _) with (jekeli b l * (NT l m th * wave m (c l m) (s l m) phi)); [exact H|]. rewrite NT_Nlm by exact Hth. unfold wave. ring.
    + rewrite Nlm_high by lia. rewrite Rmult_0_l. apply (is_RInt_ext (fun _ => 0)).
      * intros t Ht. rewrite Rmin_left, Rmax_right in Ht by lra. req. rewrite NT_Nlm by lra. rewrite Nlm_high by lia. ring.
      * apply (FTCr (fun _ => 0)); [ring|intros; apply @is_derive_const|intros; apply continuous_const].
Qed.

(** the kernel: positive, weights of the whole sphere sum to one, half the central weight at the smoothing radius, never larger farther away *)
Theorem C92_kernel : forall b RAD, cos (RAD / 6371) <> 1 -> half_weight b RAD ->
  (forall x, 0 < gauss_kernel b x) /\
  (forall th phi, 0 <= th <= PI -> sphere_average (gauss_kernel b) (fun _ _ => 1) th phi 1) /\
  gauss_kernel b (cos (RAD / 6371)) = 1 / 2 * gauss_kernel b (cos 0) /\
  (forall g g', 0 <= g -> g < g' -> g' <= PI -> gauss_kernel b (cos g') < gauss_kernel b (cos g)).
Proof.
  intros b RAD HC HW. pose proof (mass_pos b) as M. pose proof PI_RGT_0 as P. set (m := RInt (fun t => exp (- b * (1 - t))) (-1) 1) in *.
  assert (KP : forall x, 0 < gauss_kernel b x).
  { intros x. unfold gauss_kernel. fold m. apply Rdiv_lt_0_compat; [apply exp_pos|]. apply Rmult_lt_0_compat; lra. }
  repeat split.
  - exact KP.
  - intros t Ht. exists (RInt (fun p => gauss_kernel b (cos_between th phi t p) * 1) 0 (2 * PI)). apply int_cont. intros p.
    apply (continuous_ext (fun p => gauss_kernel b (cosdist th t (phi - p)) * wave 0 1 0 p)).
    + intros q. rewrite between_dist. unfold wave. cbn [INR]. rewrite Rmult_0_l, cos_0, sin_0. req. ring.
    + apply ring_cont, kernel_cont.
  - destruct (series_average b (fun _ _ => 1) (fun _ _ => 0) 0 th phi H) as [_ E].
    assert (S0 : forall t p, series (fun _ _ => 1) (fun _ _ => 0) 0 0 0 t p = 1).
    { intros t p. unfold series. cbn [sumn Nat.add Nat.leb INR]. rewrite Nlm_NU, NU_0_0, Rmult_0_l, cos_0, sin_0. ring. }
    assert (S1 : series (fun l _ => jekeli b l * 1) (fun l _ => jekeli b l * 0) 0 0 0 th phi = 1).
    { unfold series. cbn [sumn Nat.add Nat.leb INR]. rewrite Nlm_NU, NU_0_0, Rmult_0_l, cos_0, sin_0. rewrite <- kernel_lam.
      assert (J : lamK (gauss_kernel b) 0 = / (2 * PI)). 2:{ rewrite J. field. lra. }
      apply int_val. pose proof (lam_cos _ (exp_cont b)) as Q. fold m in Q. eapply is_RInt_ext; [|apply (int_scal _ (/ (2 * PI * m)) _ _ _ _ Q); req; change (/ (2 * PI * m) * m = / (2 * PI)); field; split; lra].
      intros x _. req. cbn [legP]. unfold gauss_kernel. fold m. field. split; lra. }
    rewrite S1 in E. eapply is_RInt_ext; [|exact E]. intros t _. cbv beta. f_equal. apply RInt_ext. intros p _. rewrite S0. reflexivity.
  - unfold half_weight in HW. unfold gauss_kernel. fold m. rewrite HW, cos_0. replace (- b * (1 - 1)) with 0 by ring. rewrite exp_0. field. split; lra.
  - intros g g' G1 G2 G3. pose proof (cos_decreasing_1 g g' ltac:(lra) ltac:(lra) ltac:(lra) ltac:(lra) G2) as D.
    assert (Bp : 0 < b). { rewrite (half_unique b RAD HC HW). apply gauss_b_pos, HC. }
    unfold gauss_kernel. fold m. unfold Rdiv. apply Rmult_lt_compat_r; [apply Rinv_0_lt_compat; apply Rmult_lt_0_compat; lra|]. apply exp_increasing.
    apply (Rmult_lt_compat_l b) in D; lra.
Qed.

(** the unsmoothed field at colatitude t and longitude p (radians): what clenshaw_summation returns there with radius 0 *)
Definition unsmoothed (c1 s1 : arr R) (U : unit_arg) (LMAX : nat) LOVE (SC t p : R) : R :=
  match clenshaw_summation c1 s1 [p * 180 / PI] [90 - t * 180 / PI] 0 U LMAX LOVE SC with Ok [v] => v | _ => 0 end.
Lemma unsmoothed_series c1 s1 U LMAX LOVE SC df t p : (1 <= LMAX)%nat -> SC <> 0 -> degree_factor LMAX U LOVE = Ok df -> List.length df = (LMAX + 1)%nat ->
  (LMAX < rows c1)%nat -> (LMAX < cols c1)%nat -> (LMAX < rows s1)%nat -> (LMAX < cols s1)%nat -> 0 <= t <= PI ->
  unsmoothed c1 s1 U LMAX LOVE SC t p = series (fun l m => nth l df 0 * cf c1 l m) (fun l m => nth l df 0 * cf s1 l m) 0 LMAX LMAX t p.
Proof.
  intros HL HS Hd Ld A1 A2 A3 A4 Ht. pose proof PI_RGT_0 as P.
  destruct (C45_smoothing 0 LMAX HL) as [SM _]. specialize (SM eq_refl).
  destruct (C45_values c1 s1 [p * 180 / PI] [90 - t * 180 / PI] 0 U LMAX LOVE SC _ df HL HS eq_refl SM Hd Ld ltac:(apply repeat_length) A1 A2 A3 A4) as (out & E & Lo & V).
  unfold unsmoothed. rewrite E. assert (B : -90 <= 90 - t * 180 / PI <= 90).
  { assert (0 <= t * 180 / PI <= 180); [|lra]. split; [apply Rmult_le_pos; [lra|left; apply Rinv_0_lt_compat; lra]|]. apply (Rmult_le_reg_r PI); [lra|]. unfold Rdiv. rewrite Rmult_assoc, Rinv_l by lra. lra. }
  specialize (V 0%nat _ _ eq_refl eq_refl B). destruct out as [|v [|w out]]; cbn [List.length] in Lo; try lia. cbn [nth_error] in V. injection V as ->.
  assert (C : colat (90 - t * 180 / PI) = t) by (unfold colat; field; lra). assert (D : deg (p * 180 / PI) = p) by (unfold deg; field; lra). rewrite C, D.
  unfold series. apply sumn_ext. intros m Hm. apply sumn_ext. intros l Hl. cbn [Nat.leb]. rewrite (nth_indep (repeat 1 (LMAX + 1)) 0 1) by (rewrite repeat_length; lia). rewrite nth_repeat. ring.
Qed.

Lemma jekeli_pos b RAD l : cos (RAD / 6371) <> 1 -> half_weight b RAD -> 0 < jekeli b l.
Proof.
  intros HC HW. assert (Bp : 0 < b) by (rewrite (half_unique b RAD HC HW); apply gauss_b_pos, HC). unfold jekeli. rewrite <- W_jekeli by exact Bp. apply W_pos, Bp.
Qed.

(** clenshaw_summation with a smoothing radius returns the Gaussian average of the unsmoothed field around every point, up to the floor of gauss_weights:
    the terms of the degrees whose exact weight is below 2e-10 pi enter with at most 2e-10 pi of their amplitude *)
Theorem C92_average : forall c1 s1 lon lat RAD U LMAX LOVE SC df b, (1 <= LMAX)%nat -> SC <> 0 -> List.length lat = List.length lon ->
  degree_factor LMAX U LOVE = Ok df -> List.length df = (LMAX + 1)%nat ->
  (LMAX < rows c1)%nat -> (LMAX < cols c1)%nat -> (LMAX < rows s1)%nat -> (LMAX < cols s1)%nat ->
  / 10 ^ 10 <= RAD -> cos (RAD / 6371) <> 1 -> half_weight b RAD ->
  exists out e, clenshaw_summation c1 s1 lon lat RAD U LMAX LOVE SC = Ok out /\ List.length out = List.length lon /\
    (forall l : nat, 0 <= e l <= 2 * PI / 10 ^ 10 /\ ((l <= 1)%nat \/ 2 * PI / 10 ^ 10 <= jekeli b l -> e l = 0)) /\
    forall i x y, nth_error lon i = Some x -> nth_error lat i = Some y -> -90 <= y <= 90 ->
      exists v, sphere_average (gauss_kernel b) (unsmoothed c1 s1 U LMAX LOVE SC) (colat y) (deg x) v /\
        nth_error out i = Some (v + series (fun l m => e l * (nth l df 0 * cf c1 l m)) (fun l m => e l * (nth l df 0 * cf s1 l m)) 0 LMAX LMAX (colat y) (deg x)).
Proof.
  intros c1 s1 lon lat RAD U LMAX LOVE SC df b HL HS Hlen Hd Ld A1 A2 A3 A4 HR HC HW. pose proof PI_RGT_0 as P.
  destruct (C45_smoothing RAD LMAX HL) as [_ SM]. destruct (SM b HR HC HW) as (w & Ew & Lw & W1 & W2).
  destruct (C45_values c1 s1 lon lat RAD U LMAX LOVE SC w df HL HS Hlen Ew Hd Ld Lw A1 A2 A3 A4) as (out & E & Lo & V).
  set (e l := if (l <=? 1)%nat then 0 else Rmax (jekeli b l) (2 * PI / 10 ^ 10) - jekeli b l).
  assert (F0 : 0 < 2 * PI / 10 ^ 10) by lra.
  exists out, e. split; [exact E|]. split; [exact Lo|]. split.
  { intros l. unfold e. pose proof (jekeli_pos b RAD l HC HW). destruct (Nat.leb_spec l 1); [split; [lra|reflexivity]|].
    unfold Rmax. destruct (Rle_dec _ _); split; try lra; intros [?|?]; try lia; lra. }
  intros i x y Hx Hy Hb. specialize (V i x y Hx Hy Hb). pose proof (colat_range y Hb) as Ct.
  set (c l m := nth l df 0 * cf c1 l m). set (s l m := nth l df 0 * cf s1 l m).
  destruct (series_average b c s LMAX (colat y) (deg x) Ct) as [X I1].
  exists (series (fun l m => jekeli b l * c l m) (fun l m => jekeli b l * s l m) 0 LMAX LMAX (colat y) (deg x)). split; [split|].
  - intros t Ht. destruct (X t Ht) as [v Iv]. exists v. eapply is_RInt_ext; [|exact Iv]. intros p _. cbv beta. rewrite (unsmoothed_series c1 s1 U LMAX LOVE SC df t p) by assumption. reflexivity.
  - eapply is_RInt_ext; [|exact I1]. intros t Ht. rewrite Rmin_left, Rmax_right in Ht by lra. cbv beta. f_equal. apply RInt_ext. intros p _.
    rewrite (unsmoothed_series c1 s1 U LMAX LOVE SC df t p) by (assumption || lra). reflexivity.
  - rewrite V. f_equal. unfold series. rewrite <- sumn_plus. apply sumn_ext. intros m Hm. rewrite <- sumn_plus. apply sumn_ext. intros l Hl. cbn [Nat.leb].
    assert (We : nth l w 0 = jekeli b l + e l).
    { unfold e. destruct (Nat.leb_spec l 1) as [Q|Q]; [rewrite (nth_error_nth _ _ 0 (W1 l Q)); ring|]. rewrite (nth_error_nth _ _ 0 (W2 l ltac:(lia))). ring. }
    rewrite We. unfold c, s. ring.
Qed.

(** when no weight reaches the floor, smoothing never overshoots: bounds of the unsmoothed field bound the smoothed field *)
Theorem C92_bounds : forall c1 s1 lon lat RAD U LMAX LOVE SC df b A B out i x y v, (1 <= LMAX)%nat -> SC <> 0 -> List.length lat = List.length lon ->
  degree_factor LMAX U LOVE = Ok df -> List.length df = (LMAX + 1)%nat ->
  (LMAX < rows c1)%nat -> (LMAX < cols c1)%nat -> (LMAX < rows s1)%nat -> (LMAX < cols s1)%nat ->
  / 10 ^ 10 <= RAD -> cos (RAD / 6371) <> 1 -> half_weight b RAD -> (forall l, (2 <= l <= LMAX)%nat -> 2 * PI / 10 ^ 10 <= jekeli b l) ->
  (forall t p, 0 <= t <= PI -> 0 <= p <= 2 * PI -> A <= unsmoothed c1 s1 U LMAX LOVE SC t p <= B) ->
  clenshaw_summation c1 s1 lon lat RAD U LMAX LOVE SC = Ok out ->
  nth_error lon i = Some x -> nth_error lat i = Some y -> -90 <= y <= 90 -> nth_error out i = Some v -> A <= v <= B.
Proof.
  intros c1 s1 lon lat RAD U LMAX LOVE SC df b A B out i x y v HL HS Hlen Hd Ld A1 A2 A3 A4 HR HC HW NF HB EO Hx Hy Hb Hv. pose proof PI_RGT_0 as P.
  destruct (C92_average c1 s1 lon lat RAD U LMAX LOVE SC df b HL HS Hlen Hd Ld A1 A2 A3 A4 HR HC HW) as (out' & e & EO' & _ & He & V).
  assert (out' = out) by congruence. subst out'. destruct (V i x y Hx Hy Hb) as (v' & [X I1] & E).
  assert (v = v').
  { rewrite Hv in E. injection E as ->. unfold series. rewrite (sumn_ext _ _ (fun _ => 0)); [rewrite sumn_zero; ring|]. intros m Hm.
    rewrite (sumn_ext _ _ (fun _ => 0)); [apply sumn_zero|]. intros l Hl. cbn [Nat.leb]. destruct (He l) as [_ Z]. rewrite Z; [ring|]. destruct (le_dec l 1); [left; assumption|right; apply NF; lia]. }
  subst v'. destruct (C92_kernel b RAD HC HW) as (KP & KN & _). destruct (KN (colat y) (deg x) (colat_range y Hb)) as [X1 N1]. set (th := colat y) in *. set (phi := deg x) in *.
  assert (BND : forall t, 0 < t < PI ->
     A * (RInt (fun p => gauss_kernel b (cos_between th phi t p) * 1) 0 (2 * PI) * sin t) <= RInt (fun p => gauss_kernel b (cos_between th phi t p) * unsmoothed c1 s1 U LMAX LOVE SC t p) 0 (2 * PI) * sin t <=
     B * (RInt (fun p => gauss_kernel b (cos_between th phi t p) * 1) 0 (2 * PI) * sin t)).
  { intros t Ht. destruct (X t ltac:(lra)) as [g Ig]. destruct (X1 t ltac:(lra)) as [k Ik]. rewrite (int_val _ _ _ _ Ig), (int_val _ _ _ _ Ik).
    assert (S0 : 0 <= sin t) by (left; apply sin_gt_0; lra).
    assert (Q : A * k <= g <= B * k).
    { split.
      - apply (is_RInt_le (fun p => A * (gauss_kernel b (cos_between th phi t p) * 1)) (fun p => gauss_kernel b (cos_between th phi t p) * unsmoothed c1 s1 U LMAX LOVE SC t p) 0 (2 * PI)); [lra|apply (int_scal _ A _ _ k); [exact Ik|reflexivity]|exact Ig|].
        intros p Hp. pose proof (KP (cos_between th phi t p)). destruct (HB t p ltac:(lra) ltac:(lra)). nra.
      - apply (is_RInt_le (fun p => gauss_kernel b (cos_between th phi t p) * unsmoothed c1 s1 U LMAX LOVE SC t p) (fun p => B * (gauss_kernel b (cos_between th phi t p) * 1)) 0 (2 * PI)); [lra|exact Ig|apply (int_scal _ B _ _ k); [exact Ik|reflexivity]|].
        intros p Hp. pose proof (KP (cos_between th phi t p)). destruct (HB t p ltac:(lra) ltac:(lra)). nra. }
    destruct Q as [Q1 Q2]. rewrite <- !Rmult_assoc. split; apply Rmult_le_compat_r; assumption. }
  split.
  - replace A with (A * 1) by ring. eapply (is_RInt_le _ _ 0 PI); [lra|apply (int_scal _ A _ _ _ _ N1); reflexivity|exact I1|]. intros t Ht. cbv beta. apply BND. exact Ht.
  - replace B with (B * 1) by ring. eapply (is_RInt_le _ _ 0 PI); [lra|exact I1|apply (int_scal _ B _ _ _ _ N1); reflexivity|]. intros t Ht. cbv beta. apply BND. exact Ht.
Qed.
Print Assumptions C92_bounds.

(** the hypotheses of C92_bounds hold for a degree 2 field and a radius of about 2400 km (b = 10) *)
Example C92_example : let RAD := 6371 * acos (1 - ln 2 / 10) in / 10 ^ 10 <= RAD /\ cos (RAD / 6371) <> 1 /\ half_weight 10 RAD /\
  forall l, (2 <= l <= 2)%nat -> 2 * PI / 10 ^ 10 <= jekeli 10 l.
Proof.
  cbv zeta. assert (L2 : 0 < ln 2 < 1). { split; [rewrite <- ln_1; apply ln_increasing; lra|]. rewrite <- (ln_exp 1). apply ln_increasing; [lra|]. pose proof (exp_ineq1 1 ltac:(lra)). lra. }
  assert (C : cos (6371 * acos (1 - ln 2 / 10) / 6371) = 1 - ln 2 / 10).
  { replace (6371 * acos (1 - ln 2 / 10) / 6371) with (acos (1 - ln 2 / 10)) by field. apply cos_acos. lra. }
  assert (HW : half_weight 10 (6371 * acos (1 - ln 2 / 10))).
  { unfold half_weight. rewrite C. replace (- (10) * (1 - (1 - ln 2 / 10))) with (- ln 2) by field. rewrite exp_Ropp, exp_ln by lra. lra. }
  repeat split.
  - set (a := acos (1 - ln 2 / 10)). assert (A0 : 0 <= a <= PI) by apply acos_bound.
    destruct (Rle_or_lt (/ 10 ^ 10) (6371 * a)) as [Q|Q]; [exact Q|exfalso].
    assert (E : cos a = 1 - ln 2 / 10) by (apply cos_acos; lra).
    assert (LL : 1 / 2 <= ln 2). { destruct (Rle_or_lt (1 / 2) (ln 2)) as [K|K]; [exact K|]. apply exp_increasing in K. rewrite exp_ln in K by lra. pose proof (exp_ineq1_le (-(1/2))) as X. rewrite exp_Ropp in X. pose proof (exp_pos (1 / 2)). assert (exp (1 / 2) * (1 / 2) <= 1); [|lra]. apply (Rmult_le_compat_l (exp (1 / 2))) in X; [|lra]. rewrite Rinv_r in X by lra. lra. }
    assert (B : 0 < a). { destruct A0 as [[A0|A0] _]; [exact A0|]. rewrite <- A0, cos_0 in E. lra. }
    pose proof (PropLoad.cos_quadratic a B) as K. assert (a < 1) by lra. assert (a * a < 1 / 100); [|lra]. assert (a < 1 / 10) by lra. nra.
  - rewrite C. lra.
  - exact HW.
  - intros l Hl. replace l with 2%nat by lia. unfold jekeli. rewrite <- W_jekeli by lra. rewrite W_rec by lra. change (INR 2) with 2. rewrite W_0. pose proof (W_dec 10 0 ltac:(lra)) as D. rewrite W_0 in D. pose proof PI_4. lra.
Qed.
