(** The Funk-Hecke theorem for continuous zonal kernels that are uniform limits of polynomials, in particular exp(b t):
    averaging a spherical harmonic with a zonal kernel multiplies it by the Legendre transform of the kernel. *)
From Coq Require Import Reals Lra Lia ZifyBool ZifyNat Bool Arith.
From Coquelicot Require Import Coquelicot.
From Verif Require Import Base LegendreSpec LegendreSpec2 LegendreOrtho SummationModel SummationProofs LegendreFourier FourierLegProofs FourierGenProofs Addition.
Close Scope Z_scope.
Open Scope R_scope.
Local Arguments LD : simpl never.

(** ** integrals of continuous real functions *)
Lemma int_cont (f : R -> R) a b : (forall x, continuous f x) -> is_RInt f a b (RInt f a b).
Proof. intros H. apply (@RInt_correct R_CompleteNormedModule f a b), (@ex_RInt_continuous R_CompleteNormedModule). intros x _. apply H. Qed.
Lemma int_val (f : R -> R) a b v : is_RInt f a b v -> RInt f a b = v.
Proof. intros H. apply (@is_RInt_unique R_CompleteNormedModule). exact H. Qed.
Lemma int_bound (f : R -> R) a b v B : a <= b -> (forall x, a <= x <= b -> Rabs (f x) <= B) -> is_RInt f a b v -> Rabs v <= (b - a) * B.
Proof. intros Hab H E. apply (@norm_RInt_le_const R_NormedModule f a b v B); assumption. Qed.

(** ** trigonometric orthogonality over a full circle *)
Lemma circle_cos a (p : Z) : is_RInt (fun x => cos (a + IZR p * x)) 0 (2 * PI) (if (p =? 0)%Z then 2 * PI * cos a else 0).
Proof.
  destruct (Z.eqb_spec p 0) as [->|N].
  - apply (is_RInt_ext (fun _ => cos a)); [intros; req; rewrite Rmult_0_l, Rplus_0_r; reflexivity|]. apply (FTCr (fun x => x * cos a)); [ring|intros; auto_derive; [exact I|ring]|intros; apply continuous_const].
  - assert (NP : IZR p <> 0) by (apply not_0_IZR; exact N). apply (FTCr (fun x => sin (a + IZR p * x) / IZR p)).
    + replace (a + IZR p * (2 * PI)) with (a + 2 * (IZR p * PI)) by ring. rewrite sin_2kpi, Rmult_0_r, Rplus_0_r. field. exact NP.
    + intros x. auto_derive; [exact I|]. field. exact NP.
    + intros x. apply (ex_derive_continuous (fun x => cos (a + IZR p * x))). auto_derive. exact I.
Qed.
Lemma circle_pair k m phi c s : is_RInt (fun p => cos (INR k * (phi - p)) * (c * cos (INR m * p) + s * sin (INR m * p))) 0 (2 * PI)
  (if (k =? m)%nat then 2 * PI / eps_m m * (c * cos (INR m * phi) + s * sin (INR m * phi)) else 0).
Proof.
  set (P := Z.of_nat k). set (Q := Z.of_nat m).
  pose proof (circle_cos (INR k * phi) (Q - P)) as A1. pose proof (circle_cos (INR k * phi) (- Q - P)) as A2.
  pose proof (circle_cos (INR k * phi + - PI / 2) (- P + Q)) as B1. pose proof (circle_cos (- (INR k * phi) + - PI / 2) (P + Q)) as B2.
  evar_last.
  { apply (is_RInt_ext (fun p => c / 2 * cos (INR k * phi + IZR (Q - P) * p) + c / 2 * cos (INR k * phi + IZR (- Q - P) * p) + (s / 2 * cos (INR k * phi + - PI / 2 + IZR (- P + Q) * p) + s / 2 * cos (- (INR k * phi) + - PI / 2 + IZR (P + Q) * p)))).
    - intros p _. req. unfold P, Q. rewrite !minus_IZR, !plus_IZR, !opp_IZR, <- !INR_IZR_INZ.
      set (K := INR k). set (M := INR m).
      replace (K * phi + (M - K) * p) with (K * (phi - p) + M * p) by ring. replace (K * phi + (- M - K) * p) with (K * (phi - p) - M * p) by ring.
      replace (K * phi + - PI / 2 + (- K + M) * p) with (- (PI / 2 - (K * (phi - p) + M * p))) by field. replace (- (K * phi) + - PI / 2 + (K + M) * p) with (- (PI / 2 - (M * p - K * (phi - p)))) by field.
      rewrite !cos_neg, !cos_shift, cos_plus, cos_minus, sin_plus, sin_minus. field.
    - apply (@is_RInt_plus R_NormedModule); apply int_lin; eassumption. }
  unfold plus; cbn -[INR PI]. unfold P, Q, eps_m. destruct (Nat.eqb_spec k m) as [->|N].
  - rewrite Z.sub_diag, Z.add_opp_diag_l. cbn [Z.eqb]. destruct (Nat.eqb_spec m 0) as [->|M0].
    + change (INR 0) with 0. cbn [Z.of_nat Z.add Z.opp Z.sub Z.eqb]. rewrite Rmult_0_l, Ropp_0, Rplus_0_l, sin_0. replace (cos (- PI / 2)) with 0 by (replace (- PI / 2) with (- (PI / 2)) by field; rewrite cos_neg; symmetry; apply cos_PI2). field.
    + replace (- Z.of_nat m - Z.of_nat m =? 0)%Z with false by lia. replace (Z.of_nat m + Z.of_nat m =? 0)%Z with false by lia.
      replace (INR m * phi + - PI / 2) with (- (PI / 2 - INR m * phi)) by field. rewrite cos_neg, cos_shift. field.
  - replace (Z.of_nat m - Z.of_nat k =? 0)%Z with false by lia. replace (- Z.of_nat k + Z.of_nat m =? 0)%Z with false by lia.
    replace (- Z.of_nat m - Z.of_nat k =? 0)%Z with false by lia. replace (Z.of_nat k + Z.of_nat m =? 0)%Z with false by lia. ring.
Qed.
(** ** kernels *)
Definition wave (m : nat) (c s p : R) : R := c * cos (INR m * p) + s * sin (INR m * p).
Definition lamK (K : R -> R) (l : nat) : R := RInt (fun t => K (cos t) * legP l (cos t) * sin t) 0 PI.
(** average over the longitude *)
Definition ring_avg (K : R -> R) (th phi : R) (m : nat) (c s t : R) : R := RInt (fun p => K (cosdist th t (phi - p)) * wave m c s p) 0 (2 * PI).
Definition spheric (K : R -> R) : Prop := (forall x, continuous K x) /\
  forall l m th phi c s, (m <= l)%nat -> is_RInt (fun t => ring_avg K th phi m c s t * NT l m t * sin t) 0 PI (2 * PI * lamK K l * (NT l m th * wave m c s phi)).
Lemma dist_cont th t phi p : continuous (fun p => cosdist th t (phi - p)) p.
Proof. apply (ex_derive_continuous (fun p => cosdist th t (phi - p))). unfold cosdist. auto_derive. exact I. Qed.
Lemma wave_cont m c s p : continuous (wave m c s) p.
Proof. apply (ex_derive_continuous (wave m c s)). unfold wave. auto_derive. exact I. Qed.
Lemma mul_cont (f g : R -> R) x : continuous f x -> continuous g x -> continuous (fun x => f x * g x) x.
Proof. intros A B. apply (continuous_mult (K := R_AbsRing) f g); assumption. Qed.
Lemma ring_cont K th phi m c s t : (forall x, continuous K x) -> forall p, continuous (fun p => K (cosdist th t (phi - p)) * wave m c s p) p.
Proof.
  intros HK p. apply mul_cont; [|apply wave_cont]. apply (continuous_comp (fun p => cosdist th t (phi - p)) K); [apply dist_cont|apply HK].
Qed.
Lemma lam_cont K l : (forall x, continuous K x) -> forall t, continuous (fun t => K (cos t) * legP l (cos t) * sin t) t.
Proof.
  intros HK t. apply mul_cont; [|apply continuous_sin]. apply mul_cont; [apply (continuous_comp cos K); [apply continuous_cos|apply HK]|apply (continuous_comp cos (legP l)); [apply continuous_cos|apply legP_cont]].
Qed.
Lemma spheric_ext K K' : (forall x, K x = K' x) -> spheric K -> spheric K'.
Proof.
  intros E [C H]. split; [intros x; apply (continuous_ext K); [exact E|apply C]|]. intros l m th phi c s Hm.
  assert (L : lamK K' l = lamK K l). { apply int_val. apply (is_RInt_ext (fun t => K (cos t) * legP l (cos t) * sin t)); [intros; req; rewrite E; reflexivity|]. apply int_cont, lam_cont, C. }
  rewrite L. apply (is_RInt_ext (fun t => ring_avg K th phi m c s t * NT l m t * sin t)); [|apply H; exact Hm].
  intros t _. req. f_equal. f_equal. unfold ring_avg. symmetry. apply int_val. apply (is_RInt_ext (fun p => K (cosdist th t (phi - p)) * wave m c s p)); [intros; req; rewrite E; reflexivity|]. apply int_cont, ring_cont, C.
Qed.
Lemma spheric_lin a b K K' : spheric K -> spheric K' -> spheric (fun x => a * K x + b * K' x).
Proof.
  intros [C H] [C' H'].
  assert (C2 : forall x, continuous (fun x => a * K x + b * K' x) x).
  { intros x. apply (continuous_plus (V := R_NormedModule) (fun x => a * K x) (fun x => b * K' x)); apply mul_cont; try apply continuous_const; [apply C|apply C']. }
  split; [exact C2|]. intros l m th phi c s Hm.
  assert (L : lamK (fun x => a * K x + b * K' x) l = a * lamK K l + b * lamK K' l).
  { apply int_val. apply (is_RInt_ext (fun t => a * (K (cos t) * legP l (cos t) * sin t) + b * (K' (cos t) * legP l (cos t) * sin t))); [intros; req; ring|]. apply int_lin; apply int_cont, lam_cont; assumption. }
  rewrite L. evar_last. { apply (is_RInt_ext (fun t => a * (ring_avg K th phi m c s t * NT l m t * sin t) + b * (ring_avg K' th phi m c s t * NT l m t * sin t))).
    - intros t _. req. assert (R : ring_avg (fun x => a * K x + b * K' x) th phi m c s t = a * ring_avg K th phi m c s t + b * ring_avg K' th phi m c s t).
      { apply int_val. apply (is_RInt_ext (fun p => a * (K (cosdist th t (phi - p)) * wave m c s p) + b * (K' (cosdist th t (phi - p)) * wave m c s p))); [intros; req; ring|]. apply int_lin; apply int_cont, ring_cont; assumption. }
      rewrite R. ring.
    - apply int_lin; [apply (H l m th phi c s Hm)|apply (H' l m th phi c s Hm)]. }
  ring.
Qed.
(** Legendre polynomials *)
Lemma lam_leg n l : lamK (legP n) l = if (l =? n)%nat then 2 / (2 * INR l + 1) else 0.
Proof.
  apply int_val. pose proof (ip_is n l 0) as E. rewrite orthonormal in E by lia. pose proof (pos_INR n) as Pn. pose proof (pos_INR l) as Pl.
  pose proof (sqrt_lt_R0 (2 * INR n + 1) ltac:(lra)) as S1. pose proof (sqrt_lt_R0 (2 * INR l + 1) ltac:(lra)) as S2.
  evar_last. { apply (is_RInt_ext (fun t => / (sqrt (2 * INR n + 1) * sqrt (2 * INR l + 1)) * (NT n 0 t * NT l 0 t * sin t))).
    - intros t _. req. unfold NT. rewrite !NU_zonal. field. lra.
    - apply (int_scal _ _ _ _ _ _ E eq_refl). }
  rewrite Nat.eqb_sym. destruct (Nat.eqb_spec l n) as [->|N]; [|ring]. rewrite sqrt_sqrt by lra. unfold eps_m. cbn [Nat.eqb]. field. lra.
Qed.
Lemma spheric_leg n : spheric (legP n).
Proof.
  split; [intros x; apply legP_cont|]. intros l m th phi c s Hm. pose proof (pos_INR n) as Pn.
  assert (R : forall t, ring_avg (legP n) th phi m c s t = if (m <=? n)%nat then 2 * PI / eps_m m / (2 * INR n + 1) * (NT n m th * NT n m t * wave m c s phi) else 0).
  { intros t. apply int_val. evar_last.
    { apply (is_RInt_ext (fun p => sumn (n + 1) (fun k => NT n k th * NT n k t / (2 * INR n + 1) * (cos (INR k * (phi - p)) * wave m c s p)))).
      - intros p _. req. transitivity (wave m c s p / (2 * INR n + 1) * (sumn (n + 1) (fun k => NT n k th * NT n k t * cos (INR k * (phi - p))))).
        + rewrite <- sumn_scal. apply sumn_ext. intros k _. unfold Rdiv. ring.
        + rewrite addition. field. lra.
      - apply is_RInt_sumn. intros k _. apply (int_scal _ _ _ _ _ _ (circle_pair k m phi c s) eq_refl). }
    cbv beta. destruct (Nat.leb_spec m n) as [Q|Q].
    - rewrite (sumn_ext _ _ (fun k => if (k =? m)%nat then 2 * PI / eps_m m / (2 * INR n + 1) * (NT n m th * NT n m t * wave m c s phi) else 0)); [apply sumn_single; lia|].
      intros k _. destruct (Nat.eqb_spec k m) as [->|]; [|ring]. unfold wave. pose proof (eps_pos m). field. lra.
    - apply sumn_all0. intros k Hk. replace (k =? m)%nat with false by lia. ring. }
  rewrite lam_leg. destruct (Nat.leb_spec m n) as [Q|Q].
  - evar_last. { apply (is_RInt_ext (fun t => 2 * PI / eps_m m / (2 * INR n + 1) * NT n m th * wave m c s phi * (NT n m t * NT l m t * sin t))).
      - intros t _. req. rewrite R. ring.
      - apply (int_scal _ _ _ _ _ _ (ip_is n l m) eq_refl). }
    rewrite orthonormal by lia. rewrite Nat.eqb_sym. destruct (Nat.eqb_spec l n) as [->|N]; [|ring]. pose proof (eps_pos m). field. lra.
  - replace (l =? n)%nat with false by lia. rewrite Rmult_0_r, Rmult_0_l. apply (is_RInt_ext (fun t => 0)); [intros t _; req; rewrite R; ring|]. apply (FTCr (fun _ => 0)); [ring|intros; apply @is_derive_const|intros; apply continuous_const].
Qed.
(** powers and polynomials *)
Lemma spheric_pow_leg n : forall k, spheric (fun x => x ^ n * legP k x).
Proof.
  induction n as [|n IH]; intros k.
  - apply (spheric_ext (legP k)); [intros; cbn [pow]; ring|apply spheric_leg].
  - destruct k as [|k].
    + apply (spheric_ext (fun x => x ^ n * legP 1 x)); [intros; cbn [pow legP]; ring|apply IH].
    + apply (spheric_ext (fun x => (INR k + 2) / (2 * INR k + 3) * (x ^ n * legP (S (S k)) x) + (INR k + 1) / (2 * INR k + 3) * (x ^ n * legP k x))).
      * intros x. rewrite legP_SS. cbn [pow]. pose proof (pos_INR k). field. lra.
      * apply spheric_lin; apply IH.
Qed.
Lemma spheric_pow n : spheric (fun x => x ^ n).
Proof. apply (spheric_ext (fun x => x ^ n * legP 0 x)); [intros; cbn [legP]; ring|apply spheric_pow_leg]. Qed.
Lemma spheric_sum (a : nat -> R) n : spheric (fun x => sum_f_R0 (fun k => a k * x ^ k) n).
Proof.
  induction n as [|n IH].
  - apply (spheric_ext (fun x => a 0%nat * x ^ 0 + 0 * x ^ 0)); [intros; cbn [sum_f_R0]; ring|]. apply spheric_lin; apply spheric_pow.
  - apply (spheric_ext (fun x => 1 * sum_f_R0 (fun k => a k * x ^ k) n + a (S n) * x ^ (S n))); [intros; cbn [sum_f_R0]; ring|]. apply spheric_lin; [exact IH|apply spheric_pow].
Qed.
(** ** uniform limits *)
Lemma LD_bounded m : forall l, exists B, 0 <= B /\ forall x, -1 <= x <= 1 -> Rabs (LD m l x) <= B.
Proof.
  induction m as [|m IH].
  - apply (two_step (fun l => exists B, 0 <= B /\ forall x, -1 <= x <= 1 -> Rabs (LD 0 l x) <= B)).
    + exists 1. split; [lra|]. intros x _. change (LD 0 0 x) with 1. rewrite Rabs_R1. lra.
    + exists 1. split; [lra|]. intros x H. change (LD 0 1 x) with x. apply Rabs_le. lra.
    + intros k (B0 & P0 & H0) (B1 & P1 & H1). exists (((2 * INR k + 3) * B1 + (INR k + 1) * B0) / (INR k + 2)). pose proof (pos_INR k) as Pk.
      assert (0 < / (INR k + 2)) by (apply Rinv_0_lt_compat; lra). split; [apply Rmult_le_pos; [nra|lra]|].
      intros x Hx. change (LD 0 (S (S k)) x) with (legP (S (S k)) x). rewrite legP_SS. specialize (H0 x Hx). specialize (H1 x Hx). change (LD 0 k x) with (legP k x) in H0. change (LD 0 (S k) x) with (legP (S k) x) in H1.
      unfold Rdiv. rewrite Rabs_mult, (Rabs_right (/ (INR k + 2))) by lra. apply Rmult_le_compat_r; [lra|].
      eapply Rle_trans; [apply Rabs_triang|]. rewrite Rabs_Ropp, !Rabs_mult, (Rabs_right (2 * INR k + 3)), (Rabs_right (INR k + 1)) by lra.
      assert (Rabs x <= 1) by (apply Rabs_le; lra). pose proof (Rabs_pos x). pose proof (Rabs_pos (legP (S k) x)).
      assert (Rabs x * Rabs (legP (S k) x) <= B1) by nra. nra.
  - apply (two_step (fun l => exists B, 0 <= B /\ forall x, -1 <= x <= 1 -> Rabs (LD (S m) l x) <= B)).
    + exists 0. split; [lra|]. intros x _. rewrite LD_S_0, Rabs_R0. lra.
    + destruct (IH 0%nat) as (B & P & H). exists B. split; [exact P|]. intros x Hx. rewrite LD_S_1. apply H. exact Hx.
    + intros k (B0 & P0 & H0) _. destruct (IH (S k)) as (B1 & P1 & H1). pose proof (pos_INR k) as Pk. exists (B0 + (2 * INR k + 3) * B1). split; [nra|].
      intros x Hx. rewrite LD_S_SS. eapply Rle_trans; [apply Rabs_triang|]. rewrite Rabs_mult, (Rabs_right (2 * INR k + 3)) by lra. specialize (H0 x Hx). specialize (H1 x Hx). nra.
Qed.
Lemma NT_bounded l m : exists B, 0 <= B /\ forall t, Rabs (NT l m t) <= B.
Proof.
  destruct (LD_bounded m l) as (B & P & H). unfold NT, NU. set (q := sqrt _). exists (q * B). assert (Pq : 0 <= q) by apply sqrt_pos. split; [apply Rmult_le_pos; assumption|].
  intros t. rewrite !Rabs_mult, (Rabs_right q) by lra. assert (A1 : Rabs (sin t ^ m) <= 1).
  { rewrite <- RPow_abs. rewrite <- (pow1 m). apply pow_incr. split; [apply Rabs_pos|]. apply Rabs_le. pose proof (SIN_bound t). lra. }
  specialize (H (cos t) (COS_bound t)). pose proof (Rabs_pos (sin t ^ m)). pose proof (Rabs_pos (LD m l (cos t))).
  rewrite Rmult_assoc. apply Rmult_le_compat_l; [exact Pq|]. nra.
Qed.
Lemma dist_range th t psi : -1 <= cosdist th t psi <= 1.
Proof.
  unfold cosdist. pose proof (sin2_cos2 th) as A. pose proof (sin2_cos2 t) as B. unfold Rsqr in A, B. pose proof (COS_bound psi) as C.
  set (a := sin th) in *. set (b := cos th) in *. set (c := sin t) in *. set (d := cos t) in *. set (e := cos psi) in *. clearbody a b c d e.
  assert (Q1 : (a * c) * e <= Rabs (a * c)) by (destruct (Rcase_abs (a * c)); [rewrite Rabs_left|rewrite Rabs_right]; nra).
  assert (Q2 : - Rabs (a * c) <= (a * c) * e) by (destruct (Rcase_abs (a * c)); [rewrite Rabs_left|rewrite Rabs_right]; nra).
  assert (Q3 : Rabs (a * c) <= (a * a + c * c) / 2) by (apply Rabs_le; pose proof (Rle_0_sqr (a - c)); pose proof (Rle_0_sqr (a + c)); unfold Rsqr in *; split; lra).
  assert (Q4 : b * d <= (b * b + d * d) / 2) by (pose proof (Rle_0_sqr (b - d)); unfold Rsqr in *; lra). assert (Q5 : - ((b * b + d * d) / 2) <= b * d) by (pose proof (Rle_0_sqr (b + d)); unfold Rsqr in *; lra). split; lra.
Qed.
Lemma wave_bound m c s p : Rabs (wave m c s p) <= Rabs c + Rabs s.
Proof.
  unfold wave. eapply Rle_trans; [apply Rabs_triang|]. rewrite !Rabs_mult.
  assert (A : Rabs (cos (INR m * p)) <= 1) by (apply Rabs_le, COS_bound). assert (B : Rabs (sin (INR m * p)) <= 1) by (apply Rabs_le, SIN_bound).
  pose proof (Rabs_pos c). pose proof (Rabs_pos s). nra.
Qed.
Lemma ring_close K K' th phi m c s t e : (forall x, continuous K x) -> (forall x, continuous K' x) -> 0 <= e -> (forall x, -1 <= x <= 1 -> Rabs (K x - K' x) <= e) ->
  Rabs (ring_avg K th phi m c s t - ring_avg K' th phi m c s t) <= 2 * PI * (e * (Rabs c + Rabs s)).
Proof.
  intros C C' He H. pose proof PI_RGT_0. replace (2 * PI * (e * (Rabs c + Rabs s))) with ((2 * PI - 0) * (e * (Rabs c + Rabs s))) by ring.
  apply (int_bound (fun p => K (cosdist th t (phi - p)) * wave m c s p - K' (cosdist th t (phi - p)) * wave m c s p)); [lra| |].
  - intros p _. rewrite <- Rmult_minus_distr_r, Rabs_mult. apply Rmult_le_compat; [apply Rabs_pos|apply Rabs_pos|apply H, dist_range|apply wave_bound].
  - apply (@is_RInt_minus R_NormedModule); apply int_cont, ring_cont; assumption.
Qed.
Lemma lam_close K K' l e : (forall x, continuous K x) -> (forall x, continuous K' x) -> 0 <= e -> (forall x, -1 <= x <= 1 -> Rabs (K x - K' x) <= e) ->
  forall B, (forall x, -1 <= x <= 1 -> Rabs (legP l x) <= B) -> Rabs (lamK K l - lamK K' l) <= PI * (e * B).
Proof.
  intros C C' He H B HB. pose proof PI_RGT_0. replace (PI * (e * B)) with ((PI - 0) * (e * B)) by ring.
  apply (int_bound (fun t => K (cos t) * legP l (cos t) * sin t - K' (cos t) * legP l (cos t) * sin t)); [lra| |].
  - intros t _. replace (K (cos t) * legP l (cos t) * sin t - K' (cos t) * legP l (cos t) * sin t) with ((K (cos t) - K' (cos t)) * legP l (cos t) * sin t) by ring. rewrite !Rabs_mult.
    assert (S1 : Rabs (sin t) <= 1) by (apply Rabs_le, SIN_bound). pose proof (H (cos t) (COS_bound t)) as A. pose proof (HB (cos t) (COS_bound t)) as D.
    pose proof (Rabs_pos (K (cos t) - K' (cos t))). pose proof (Rabs_pos (legP l (cos t))). pose proof (Rabs_pos (sin t)).
    assert (Rabs (K (cos t) - K' (cos t)) * Rabs (legP l (cos t)) <= e * B) by (apply Rmult_le_compat; assumption). eapply Rle_trans; [apply Rmult_le_compat_l; [apply Rmult_le_pos; assumption|exact S1]|]. lra.
  - apply (@is_RInt_minus R_NormedModule); apply int_cont, lam_cont; assumption.
Qed.
Lemma spheric_lim (Kn : nat -> R -> R) (K : R -> R) : (forall n, spheric (Kn n)) -> (forall x, continuous K x) ->
  (forall e, 0 < e -> exists N, forall n, (N <= n)%nat -> forall x, -1 <= x <= 1 -> Rabs (Kn n x - K x) <= e) -> spheric K.
Proof.
  intros HS C U. split; [exact C|]. intros l m th phi c s Hm. pose proof PI_RGT_0 as Pi.
  destruct (NT_bounded l m) as (B & PB & HB). destruct (LD_bounded 0 l) as (D & PD & HD). change (LD 0 l) with (legP l) in HD.
  set (Bw := Rabs c + Rabs s). assert (PW : 0 <= Bw) by (unfold Bw; pose proof (Rabs_pos c); pose proof (Rabs_pos s); lra).
  set (Y := NT l m th * wave m c s phi).
  destruct (@filterlim_RInt nat R_CompleteNormedModule (fun n t => ring_avg (Kn n) th phi m c s t * NT l m t * sin t) 0 PI Hierarchy.eventually _ (fun t => ring_avg K th phi m c s t * NT l m t * sin t)
     (fun n => 2 * PI * lamK (Kn n) l * Y)) as (v & L1 & E).
  - intros n. destruct (HS n) as [_ H]. apply (H l m th phi c s Hm).
  - apply filterlim_locally. intros eps. set (k := 2 * PI * Bw * B + 1). assert (Pk : 0 < k) by (unfold k; assert (0 <= 2 * PI * Bw) by nra; nra).
    destruct (U (eps / k)) as (N & HN); [apply Rdiv_lt_0_compat; [apply cond_pos|exact Pk]|]. exists N. intros n Ln t. apply (norm_compat1 (V := R_NormedModule)).
    change (Rabs (ring_avg (Kn n) th phi m c s t * NT l m t * sin t - ring_avg K th phi m c s t * NT l m t * sin t) < eps).
    replace (ring_avg (Kn n) th phi m c s t * NT l m t * sin t - ring_avg K th phi m c s t * NT l m t * sin t) with ((ring_avg (Kn n) th phi m c s t - ring_avg K th phi m c s t) * NT l m t * sin t) by ring.
    rewrite !Rabs_mult. assert (E0 : 0 < eps / k) by (apply Rdiv_lt_0_compat; [apply cond_pos|exact Pk]).
    destruct (HS n) as [Cn _]. pose proof (ring_close (Kn n) K th phi m c s t (eps / k) Cn C ltac:(lra) (HN n Ln)) as A. fold Bw in A. specialize (HB t).
    assert (S1 : Rabs (sin t) <= 1) by (apply Rabs_le, SIN_bound). pose proof (Rabs_pos (ring_avg (Kn n) th phi m c s t - ring_avg K th phi m c s t)) as Q1. pose proof (Rabs_pos (NT l m t)) as Q2. pose proof (Rabs_pos (sin t)) as Q3.
    set (r := Rabs (ring_avg (Kn n) th phi m c s t - ring_avg K th phi m c s t)) in *. set (q := Rabs (NT l m t)) in *. set (z := Rabs (sin t)) in *. clearbody r q z.
    assert (r * q <= 2 * PI * (eps / k * Bw) * B) by (apply Rmult_le_compat; assumption). apply Rle_lt_trans with (2 * PI * (eps / k * Bw) * B); [eapply Rle_trans; [apply Rmult_le_compat_l; [apply Rmult_le_pos; assumption|exact S1]|]; lra|].
    assert (K1 : eps / k * k = eps) by (field; lra). unfold k in K1 at 2. nra.
  - replace (2 * PI * lamK K l * Y) with v; [exact E|].
    assert (L2 : is_lim_seq (fun n => 2 * PI * lamK (Kn n) l * Y) (2 * PI * lamK K l * Y)).
    { apply (is_lim_seq_ext (fun n => (2 * PI * Y) * lamK (Kn n) l)); [intros; ring|]. replace (2 * PI * lamK K l * Y) with ((2 * PI * Y) * lamK K l) by ring.
      apply (is_lim_seq_scal_l _ (2 * PI * Y) (lamK K l)). apply is_lim_seq_spec. intros eps. set (k := PI * D + 1). assert (Pk : 0 < k) by (unfold k; nra).
      assert (E0 : 0 < eps / k) by (apply Rdiv_lt_0_compat; [apply cond_pos|exact Pk]). destruct (U (eps / k) E0) as (N & HN). exists N. intros n Ln. destruct (HS n) as [Cn _].
      pose proof (lam_close (Kn n) K l (eps / k) Cn C ltac:(lra) (HN n Ln) D HD) as A. eapply Rle_lt_trans; [exact A|]. assert (K1 : eps / k * k = eps) by (field; lra). unfold k in K1 at 2. nra. }
    apply is_lim_seq_unique in L2. assert (L3 : is_lim_seq (fun n => 2 * PI * lamK (Kn n) l * Y) v) by exact L1. apply is_lim_seq_unique in L3. congruence.
Qed.
(** the exponential *)
Lemma E1_close B x n : Rabs x <= B -> Rabs (exp x - E1 x n) <= exp B - E1 B n.
Proof.
  intros H. assert (M : forall k, Rabs (E1 x (n + k) - E1 x n) <= E1 B (n + k) - E1 B n).
  { induction k as [|k IH]; [rewrite Nat.add_0_r, !Rminus_diag_eq by reflexivity; rewrite Rabs_R0; lra|].
    rewrite Nat.add_succ_r. unfold E1 in *. cbn [sum_f_R0]. set (p := S (n + k)).
    assert (T : Rabs (/ INR (fact p) * x ^ p) <= / INR (fact p) * B ^ p).
    { rewrite Rabs_mult, <- RPow_abs, Rabs_right by (left; apply Rinv_0_lt_compat, lt_0_INR, lt_O_fact). apply Rmult_le_compat_l; [left; apply Rinv_0_lt_compat, lt_0_INR, lt_O_fact|]. apply pow_incr. split; [apply Rabs_pos|exact H]. }
    match goal with |- Rabs ?a <= _ => replace a with ((sum_f_R0 (fun k0 => / INR (fact k0) * x ^ k0) (n + k) - sum_f_R0 (fun k0 => / INR (fact k0) * x ^ k0) n) + / INR (fact p) * x ^ p) by ring end.
    eapply Rle_trans; [apply Rabs_triang|]. lra. }
  assert (L : forall y, is_lim_seq (fun k => E1 y (n + k)) (exp y)).
  { intros y. apply (is_lim_seq_ext (fun k => E1 y (k + n))); [intros k; f_equal; lia|]. apply is_lim_seq_incr_n. apply is_lim_seq_Reals. apply E1_cvg. }
  assert (A : is_lim_seq (fun k => Rabs (E1 x (n + k) - E1 x n)) (Rabs (exp x - E1 x n))).
  { apply (is_lim_seq_abs _ (exp x - E1 x n)). apply (is_lim_seq_minus' _ _ (exp x) (E1 x n)); [apply L|apply is_lim_seq_const]. }
  assert (A' : is_lim_seq (fun k => E1 B (n + k) - E1 B n) (exp B - E1 B n)).
  { apply (is_lim_seq_minus' _ _ (exp B) (E1 B n)); [apply L|apply is_lim_seq_const]. }
  exact (is_lim_seq_le _ _ (Rabs (exp x - E1 x n)) (exp B - E1 B n) M A A').
Qed.
Theorem spheric_exp b : spheric (fun x => exp (b * x)).
Proof.
  apply (spheric_lim (fun n x => E1 (b * x) n)).
  - intros n. apply (spheric_ext (fun x => sum_f_R0 (fun k => / INR (fact k) * b ^ k * x ^ k) n)); [|apply (spheric_sum (fun k => / INR (fact k) * b ^ k))].
    intros x. unfold E1. apply sum_eq. intros k _. rewrite Rpow_mult_distr. ring.
  - intros x. apply (ex_derive_continuous (fun x => exp (b * x))). auto_derive. exact I.
  - intros e He. pose proof (E1_cvg (Rabs b) e He) as (N & HN). exists N. intros n Ln x Hx. specialize (HN n Ln). unfold R_dist in HN.
    rewrite Rabs_minus_sym. eapply Rle_trans; [apply (E1_close (Rabs b))|].
    + rewrite Rabs_mult. assert (Rabs x <= 1) by (apply Rabs_le; lra). pose proof (Rabs_pos b). nra.
    + rewrite Rabs_minus_sym in HN. left. eapply Rle_lt_trans; [apply Rle_abs|exact HN].
Qed.
