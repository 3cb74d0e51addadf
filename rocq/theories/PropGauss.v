(** Property C41: gauss_weights (gravity_toolkit/gauss_weights.py). *)
From Coq Require Import Reals Lra.
From Coquelicot Require Import Coquelicot.
From Verif Require Import Base GaussModel LegendreSpec GaussProofs.
Close Scope Z_scope.
Open Scope R_scope.

(** Jekeli (1981): degree-l Legendre coefficient of the averaging kernel
    exp(-b (1 - cos psi)), normalised to 1 at degree 0 (t = cos psi). *)
Definition jekeli (b : R) (l : nat) : R :=
  RInt (fun t => exp (- b * (1 - t)) * legP l t) (-1) 1 / RInt (fun t => exp (- b * (1 - t))) (-1) 1.
(** the kernel parameter: weight 1/2 at distance [hw] kilometres *)
Definition half_weight (b hw : R) : Prop := exp (- b * (1 - cos (hw / 6371))) = 1 / 2.

Lemma gauss_b_half hw : cos (hw / 6371) <> 1 -> half_weight (gauss_b hw) hw.
Proof.
  intros H. unfold half_weight, gauss_b, rad_earth_km.
  replace (- (ln 2 / (1 - cos (hw / 6371))) * (1 - cos (hw / 6371))) with (- ln 2) by (field; lra).
  rewrite exp_Ropp, exp_ln by lra. lra.
Qed.
Lemma half_unique b hw : cos (hw / 6371) <> 1 -> half_weight b hw -> b = gauss_b hw.
Proof.
  intros H E. unfold half_weight in E. apply (f_equal ln) in E. rewrite ln_exp in E.
  replace (1 / 2) with (/ 2) in E by lra. rewrite ln_Rinv in E by lra.
  unfold gauss_b, rad_earth_km. assert (E' : ln 2 = b * (1 - cos (hw / 6371))) by lra. rewrite E'. field. lra.
Qed.

(** complete description: the weights are Jekeli's, divided by 2 pi, floored at
    the cut-off from degree 2 on *)
Theorem C41_values : forall hw LMAX cut b, cut <= hw -> (1 <= LMAX)%nat -> cos (hw / 6371) <> 1 -> half_weight b hw ->
  exists wl, gauss_weights hw LMAX cut = Ok wl /\ length wl = (LMAX + 1)%nat /\
    (forall l, (l <= 1)%nat -> nth_error wl l = Some (jekeli b l / (2 * PI))) /\
    (forall l, (2 <= l <= LMAX)%nat -> nth_error wl l = Some (Rmax (jekeli b l / (2 * PI)) cut)).
Proof.
  intros hw LMAX cut b Hc HL Hcos Hb. pose proof (half_unique _ _ Hcos Hb). subst b.
  pose proof (gauss_b_pos hw Hcos) as Bp. assert (Pi : PI <> 0) by (pose proof PI_RGT_0; lra).
  destruct (gauss_exact hw LMAX cut Hc HL Hcos) as (wl & E & L & E0 & E1 & E2). exists wl.
  split; [exact E|]. split; [lia|].
  assert (JW : forall l, jekeli (gauss_b hw) l / (2 * PI) = w0 * W (gauss_b hw) l).
  { intros l. rewrite (W_jekeli _ l Bp). fold (jekeli (gauss_b hw) l). unfold w0. field. exact Pi. }
  split; intros l Hl; rewrite JW; rewrite (nth_error_nth' wl 0) by lia; f_equal.
  - destruct l as [|[|l]]; [|exact E1|lia]. rewrite E0, W_0. ring.
  - now apply E2.
Qed.
Print Assumptions C41_values.

(** degree 0 always keeps its amplitude: 2 pi w[0] = 1 *)
Theorem C41_degree_zero : forall hw LMAX cut wl, gauss_weights hw LMAX cut = Ok wl ->
  exists w, nth_error wl 0 = Some w /\ 2 * PI * w = 1 /\ length wl = (LMAX + 1)%nat.
Proof.
  intros hw LMAX cut wl E. assert (Pi : PI <> 0) by (pose proof PI_RGT_0; lra).
  exists (1 / (2 * PI)). unfold gauss_weights in E. destruct (Rlt_dec hw cut).
  - injection E as <-. rewrite repeat_length, Nat.add_1_r. cbn. split; [reflexivity|]. split; [field; lra|lia].
  - destruct LMAX as [|k]; [discriminate|]. cbv zeta in E. injection E as <-.
    match goal with |- context[gauss_loop _ _ _ _ ?w] => set (wl0 := w) end.
    assert (Ln : length wl0 = (2 + k)%nat) by (unfold wl0; cbn [length]; rewrite ?upd_length, ?repeat_length; cbn [length]; rewrite ?repeat_length; lia).
    destruct (gauss_loop_spec cut (gauss_b hw) k 2 wl0 ltac:(lia) Ln) as (L & P & _).
    split; [|split; [field; lra|lia]]. rewrite (nth_error_nth' _ 0) by lia. f_equal. rewrite P by lia.
    unfold wl0. cbn. reflexivity.
Qed.
Print Assumptions C41_degree_zero.

(** radius below the cut-off: no smoothing *)
Theorem C41_no_smoothing : forall hw LMAX cut, hw < cut ->
  exists wl, gauss_weights hw LMAX cut = Ok wl /\ length wl = (LMAX + 1)%nat /\
    forall l, (l <= LMAX)%nat -> nth_error wl l = Some (1 / (2 * PI)).
Proof.
  intros hw LMAX cut H. unfold gauss_weights. destruct (Rlt_dec hw cut) as [_|X]; [|lra].
  eexists. split; [reflexivity|]. split; [apply repeat_length|]. intros l Hl.
  rewrite (nth_error_nth' _ (1 / (2 * PI))) by (rewrite repeat_length; lia). now rewrite nth_repeat.
Qed.

(** normalised weights: strictly positive, at most 1, strictly below 1 after
    degree 0, never below the cut-off after degree 1 *)
Theorem C41_bounds : forall hw LMAX cut, cut <= hw -> (1 <= LMAX)%nat -> cos (hw / 6371) <> 1 -> cut < 1 / (2 * PI) ->
  exists wl, gauss_weights hw LMAX cut = Ok wl /\
    forall l w, nth_error wl l = Some w -> 0 < w /\ 2 * PI * w <= 1 /\ ((1 <= l)%nat -> 2 * PI * w < 1) /\ ((2 <= l)%nat -> cut <= w).
Proof.
  intros hw LMAX cut Hc HL Hcos Hcut. pose proof (gauss_b_pos hw Hcos) as Bp. pose proof PI_RGT_0 as Pi.
  destruct (gauss_exact hw LMAX cut Hc HL Hcos) as (wl & E & L & E0 & E1 & E2). exists wl. split; [exact E|].
  intros l w Hw. assert (Hl : (l <= LMAX)%nat) by (assert (nth_error wl l <> None) by congruence; apply nth_error_Some in H; lia).
  apply (nth_error_nth _ _ 0) in Hw. pose proof w0_pos as Wp.
  assert (W1 : 2 * PI * w0 = 1) by (unfold w0; field; lra).
  destruct l as [|[|l]].
  - rewrite E0 in Hw. subst w. repeat split; try lra; intros; lia.
  - rewrite E1 in Hw. subst w. pose proof (W_pos (gauss_b hw) 1 Bp). pose proof (W_dec (gauss_b hw) 0 Bp). rewrite W_0 in H0.
    assert (2 * PI * (w0 * W (gauss_b hw) 1) < 1) by (rewrite <- Rmult_assoc, W1; lra).
    split; [apply Rmult_lt_0_compat; assumption|]. split; [lra|]. split; [intros; lra|intros; lia].
  - rewrite E2 in Hw by lia. subst w. set (l' := S (S l)). pose proof (W_pos (gauss_b hw) l' Bp).
    pose proof (W_mono (gauss_b hw) 1 l' Bp ltac:(unfold l'; lia)). pose proof (W_dec (gauss_b hw) 0 Bp) as D0. rewrite W_0 in D0.
    pose proof (Rmax_l (w0 * W (gauss_b hw) l') cut). pose proof (Rmax_r (w0 * W (gauss_b hw) l') cut).
    assert (Hlt : Rmax (w0 * W (gauss_b hw) l') cut < w0).
    { apply Rmax_lub_lt; [|exact Hcut]. replace w0 with (w0 * 1) at 2 by ring. apply Rmult_lt_compat_l; lra. }
    assert (2 * PI * Rmax (w0 * W (gauss_b hw) l') cut < 1) by (rewrite <- W1; apply Rmult_lt_compat_l; lra).
    split; [pose proof (Rmult_lt_0_compat _ _ Wp H); lra|]. split; [lra|]. split; intros; lra.
Qed.
Print Assumptions C41_bounds.

Lemma W1_lower b : 0 < b -> b / (b + 3) < W b 1.
Proof.
  intros Hb. pose proof (W_dec b 1 Hb) as H. rewrite (W_rec b 0 Hb), W_0 in H. cbn [INR] in H.
  assert (K : (1 - 2 * (1 + 1)) / b = - (3 / b)) by (field; lra). rewrite K in H.
  assert (P : 0 < / b) by now apply Rinv_0_lt_compat.
  apply Rmult_lt_reg_r with (b + 3); [lra|]. replace (b / (b + 3) * (b + 3)) with (b * 1) by (field; lra).
  assert (b * 1 < b * (W b 1 + 3 / b * W b 1)) by (apply Rmult_lt_compat_l; lra).
  replace (b * (W b 1 + 3 / b * W b 1)) with (W b 1 * (b + 3)) in H0 by (field; lra). lra.
Qed.

(** the weights never increase with degree (for any cut-off up to 1/200, far
    above the default 1e-10) *)
Theorem C41_monotone : forall hw LMAX cut, cut <= hw -> (1 <= LMAX)%nat -> cos (hw / 6371) <> 1 -> cut <= 1 / 200 ->
  exists wl, gauss_weights hw LMAX cut = Ok wl /\
    forall i j v w, (i <= j)%nat -> nth_error wl i = Some v -> nth_error wl j = Some w -> w <= v.
Proof.
  intros hw LMAX cut Hc HL Hcos Hcut. pose proof (gauss_b_pos hw Hcos) as Bp. pose proof PI_RGT_0 as Pi. pose proof PI_4 as Pi4.
  pose proof (gauss_b_min hw Hcos) as Bm. pose proof ln_lt_2 as L2.
  destruct (gauss_exact hw LMAX cut Hc HL Hcos) as (wl & E & L & E0 & E1 & E2). exists wl. split; [exact E|].
  pose proof w0_pos as Wp. set (b := gauss_b hw) in *.
  assert (W0l : 1 / 8 <= w0).
  { unfold w0, Rdiv. rewrite !Rmult_1_l. apply Rinv_le_contravar; lra. }
  assert (B1 : 1 / 25 <= W b 1).
  { pose proof (W1_lower b Bp). apply Rle_trans with (b / (b + 3)); [|lra].
    apply Rmult_le_reg_r with (b + 3); [lra|]. replace (b / (b + 3) * (b + 3)) with b by (field; lra). lra. }
  assert (C1 : cut <= w0 * W b 1).
  { apply Rle_trans with (1 / 8 * (1 / 25)); [lra|]. apply Rmult_le_compat; lra. }
  assert (S1 : forall i, (i < LMAX)%nat -> nth (S i) wl 0 <= nth i wl 0).
  { intros i Hi. destruct i as [|[|i]].
    - rewrite E0, E1. pose proof (W_dec b 0 Bp) as D. rewrite W_0 in D. replace w0 with (w0 * 1) at 2 by ring.
      apply Rmult_le_compat_l; lra.
    - rewrite E1, E2 by lia. apply Rmax_lub; [|exact C1]. apply Rmult_le_compat_l; [lra|]. pose proof (W_dec b 1 Bp); lra.
    - rewrite !E2 by lia. apply Rle_max_compat_r. apply Rmult_le_compat_l; [lra|]. pose proof (W_dec b (S (S i)) Bp); lra. }
  intros i j v w Hij Hv Hw.
  assert (Hj : (j <= LMAX)%nat) by (assert (nth_error wl j <> None) by congruence; apply nth_error_Some in H; lia).
  apply (nth_error_nth _ _ 0) in Hv, Hw. subst v w. clear - Hij Hj S1. induction Hij as [|j Hij IH]; [lra|].
  specialize (IH ltac:(lia)). specialize (S1 j ltac:(lia)). lra.
Qed.
Print Assumptions C41_monotone.
(** for larger cut-offs the tail can exceed the degree 1 weight *)
Theorem C41_monotone_large_cutoff_refuted : forall hw LMAX, 1 / (2 * PI) <= hw -> (2 <= LMAX)%nat -> cos (hw / 6371) <> 1 ->
  exists wl w1 w2, gauss_weights hw LMAX (1 / (2 * PI)) = Ok wl /\ nth_error wl 1 = Some w1 /\ nth_error wl 2 = Some w2 /\ w1 < w2.
Proof.
  intros hw LMAX H HL Hcos. pose proof (gauss_b_pos hw Hcos) as Bp.
  destruct (gauss_exact hw LMAX (1 / (2 * PI)) H ltac:(lia) Hcos) as (wl & E & L & E0 & E1 & E2).
  exists wl, (nth 1 wl 0), (nth 2 wl 0). split; [exact E|]. rewrite !(nth_error_nth' wl 0) by lia. do 2 (split; [reflexivity|]).
  rewrite E1, E2 by lia. eapply Rlt_le_trans; [|apply Rmax_r]. fold w0. pose proof w0_pos.
  pose proof (W_dec (gauss_b hw) 0 Bp) as D. rewrite W_0 in D. replace w0 with (w0 * 1) at 2 by ring. apply Rmult_lt_compat_l; lra.
Qed.

(** a smaller maximum degree gives a prefix *)
Theorem C41_prefix : forall hw L1 L2 cut, (1 <= L1 <= L2)%nat -> cos (hw / 6371) <> 1 ->
  exists a b, gauss_weights hw L1 cut = Ok a /\ gauss_weights hw L2 cut = Ok b /\ a = firstn (L1 + 1) b.
Proof.
  intros hw L1 L2 cut HL Hcos. destruct (Rlt_dec hw cut) as [C|C].
  - unfold gauss_weights. destruct (Rlt_dec hw cut) as [_|X]; [|lra]. do 2 eexists. do 2 (split; [reflexivity|]).
    apply nth_ext with (1 / (2 * PI)) (1 / (2 * PI)); [rewrite firstn_length, !repeat_length; lia|].
    intros i Hi. rewrite repeat_length in Hi. rewrite nth_firstn_lt' by lia. now rewrite !nth_repeat.
  - destruct (gauss_exact hw L1 cut ltac:(lra) ltac:(lia) Hcos) as (a & Ea & La & A0 & A1 & A2).
    destruct (gauss_exact hw L2 cut ltac:(lra) ltac:(lia) Hcos) as (b & Eb & Lb & B0 & B1 & B2).
    exists a, b. do 2 (split; [assumption|]). apply nth_ext with 0 0.
    + rewrite firstn_length. lia.
    + intros i Hi. rewrite nth_firstn_lt' by lia. destruct i as [|[|i]]; [congruence|congruence|].
      rewrite A2, B2 by lia. reflexivity.
Qed.
Print Assumptions C41_prefix.

(** degree 0 alone, a legal maximum degree, raises for every smoothing radius *)
Theorem C41_lmax_zero_refuted : forall hw cut, cut <= hw -> gauss_weights hw 0 cut = Err IndexError.
Proof. intros. unfold gauss_weights. destruct (Rlt_dec hw cut); [lra|reflexivity]. Qed.

Example C41_example : cut_default <= 300 /\ cos (300 / 6371) <> 1 /\ cut_default <= 1 / 200 /\ half_weight (gauss_b 300) 300 /\
  exists wl, gauss_weights 300 60 cut_default = Ok wl /\ length wl = 61%nat.
Proof.
  assert (C : cos (300 / 6371) <> 1).
  { intros E. pose proof PI_RGT_0. pose proof PI2_3_2.
    assert (cos (300 / 6371) < cos 0); [|rewrite cos_0 in H1; lra].
    apply cos_decreasing_1; unfold PI2 in *; lra. }
  assert (A : cut_default <= 300) by (unfold cut_default; lra).
  split; [exact A|]. split; [exact C|]. split; [unfold cut_default; lra|]. split; [now apply gauss_b_half|].
  destruct (gauss_exact 300 60 cut_default A ltac:(lia) C) as (wl & E & L & _). eauto.
Qed.
