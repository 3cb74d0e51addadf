(** C87: fourier_legendre — the Fourier coefficients of the normalised associated Legendre functions. *)
From Coq Require Import Reals Psatz List Bool Arith Lia ZifyBool ZifyNat.
From Verif Require Import Base SummationModel SummationProofs LegendreSpec LegendreSpec2 LegendreOrtho LegendreFourier FourierLegModel FourierLegProofs.
Import ListNotations.
Close Scope Z_scope.
Open Scope R_scope.
Ltac Zify.zify_post_hook ::= Z.to_euclidean_division_equations.

(** [p l m j] expands the fully normalised associated Legendre function of degree l and order m in the colatitude:
    cosines for even orders and sines for odd orders; there is no harmonic above the degree or of the other parity. *)
Definition expands (p : tbl) (l m : nat) : Prop :=
  (forall th, 0 <= th <= PI -> sumn (S l) (fun j => p l m j * (if Nat.even m then cos (INR j * th) else sin (INR j * th))) = Nlm l m (cos th)) /\
  (forall j, (l < j)%nat \/ Nat.odd (l + j) = true -> p l m j = 0).

Theorem C87_series : forall lmax mmax, Nat.even lmax = true -> (4 <= lmax)%nat -> (4 <= mmax <= lmax + 1)%nat ->
  exists p, fourier_legendre lmax mmax = Ok p /\ forall l m, (m <= l <= 2 * (mmax / 2))%nat -> expands p l m.
Proof.
  intros lmax mmax HL HL4 [HM4 HM]. destruct (table_ok lmax mmax HL HL4 HM4 HM) as (p & E & T & _). exists p. split; [exact E|]. intros l m Hl.
  split.
  - intros th Hth. rewrite <- NT_Nlm by exact Hth. rewrite <- Fc_series by lia. apply sumn_ext. intros j _. rewrite T by exact Hl. unfold tr. destruct (Nat.even m); reflexivity.
  - intros j Hj. rewrite T by exact Hl. apply Fc_zero. exact Hj.
Qed.
(** the default call, MMAX = LMAX: every degree and order *)
Corollary C87_default : forall lmax, Nat.even lmax = true -> (4 <= lmax)%nat -> exists p, fourier_legendre lmax lmax = Ok p /\ forall l m, (m <= l <= lmax)%nat -> expands p l m.
Proof.
  intros lmax HL H4. destruct (C87_series lmax lmax HL H4 ltac:(lia)) as (p & E & T). exists p. split; [exact E|]. intros l m H. apply T. rewrite even_mod in HL. lia.
Qed.
(** the only arguments for which it fails *)
Theorem C87_errors : forall lmax mmax,
  (forall e, fourier_legendre lmax mmax = Err e -> e = IndexError \/ e = ValueError) /\
  ((exists e, fourier_legendre lmax mmax = Err e) <-> Nat.odd lmax = true \/ (lmax <= 2)%nat \/ (mmax < 4)%nat \/ (lmax + 1 < mmax)%nat) /\
  (Nat.odd lmax = true -> fourier_legendre lmax mmax = Err IndexError) /\
  (Nat.even lmax = true -> (4 <= lmax)%nat -> (mmax < 4)%nat -> fourier_legendre lmax mmax = Err ValueError).
Proof.
  intros lmax mmax. unfold fourier_legendre. destruct (lmax =? 0)%nat eqn:E0; destruct (Nat.odd lmax) eqn:Eo; destruct (lmax + 2 <=? mmax)%nat eqn:E1; destruct (mmax <? 2)%nat eqn:E2; destruct (lmax =? 2)%nat eqn:E3; destruct (mmax <? 4)%nat eqn:E4; cbn [orb];
    (split; [intros e He; inversion He; auto|]); (split; [split; [intros [e He]|intros He]; try discriminate He; try (eexists; reflexivity); try (destruct He as [He|He]; [discriminate|]); try lia; try (left; reflexivity)|]);
    (split; [intros Ho; try discriminate Ho; try reflexivity|intros He H4 Hm; try lia; try reflexivity; try (exfalso; rewrite <- Nat.negb_even, He in Eo; discriminate)]); try lia.
Qed.
(** a truncation below LMAX: the zonal row of an even degree above MMAX is divided by a norm that is exactly zero *)
Theorem C87_truncated_refuted : forall lmax mmax l, Nat.even lmax = true -> (4 <= mmax)%nat -> Nat.even l = true -> (2 * (mmax / 2) < l <= lmax)%nat ->
  exists p q v, fourier_legendre lmax mmax = Ok p /\ 0 < v /\ (forall th, 0 <= th <= PI -> sumn (S l) (fun j => q j * cos (INR j * th)) = v * Nlm l 0 (cos th)) /\
    forall j, p l 0%nat j = q j / 0.
Proof.
  intros lmax mmax l HL HM4 El Hl. assert (HL4 : (4 <= lmax)%nat) by lia. assert (HM : (mmax <= lmax + 1)%nat) by lia.
  destruct (table_ok lmax mmax HL HL4 HM4 HM) as (p & E & _ & T). destruct (T l El Hl) as (p4 & v & Pv & E4 & N0 & Ep). exists p, (p4 l 0%nat), v.
  split; [exact E|]. split; [exact Pv|]. split; [|intros j; rewrite Ep, N0; reflexivity].
  intros th Hth. rewrite <- NT_Nlm by exact Hth. rewrite <- (Fc_series 0 l th) by lia. rewrite <- sumn_scal. apply sumn_ext. intros j _. rewrite E4. unfold tr. cbn [Nat.even]. ring.
Qed.
(** P20 = sqrt 5 (3 cos² - 1)/2 = sqrt 5 (1 + 3 cos 2θ)/4 *)
Example C87_P20 : exists p, fourier_legendre 4 4 = Ok p /\ p 2%nat 0%nat 0%nat + p 2%nat 0%nat 2%nat = sqrt 5 /\ p 2%nat 0%nat 0%nat - p 2%nat 0%nat 2%nat = - sqrt 5 / 2 /\ p 2%nat 0%nat 1%nat = 0.
Proof.
  destruct (C87_default 4 eq_refl ltac:(lia)) as (p & E & T). exists p. split; [exact E|]. destruct (T 2%nat 0%nat ltac:(lia)) as [S2 Z2].
  assert (E1 : p 2%nat 0%nat 1%nat = 0) by (apply Z2; right; reflexivity). pose proof PI_RGT_0 as HP.
  assert (N : forall x, Nlm 2 0 x = sqrt 5 * ((3 * x ^ 2 - 1) / 2)).
  { intros x. rewrite Nlm_NU. unfold NU. replace ((if (0 =? 0)%nat then 1 else 2) * (2 * INR 2 + 1) * INR (fact (2 - 0)) / INR (fact (2 + 0))) with 5 by (cbn; field). change (LD 0 2 x) with (legP 2 x). unfold legP. cbn. field. }
  pose proof (S2 0 ltac:(lra)) as A. pose proof (S2 (PI / 2) ltac:(lra)) as B. rewrite N in A, B. cbn [sumn Nat.even] in A, B. rewrite E1 in A, B.
  replace (INR 2 * (PI / 2)) with PI in B by (cbn; field). rewrite cos_PI, cos_PI2, !Rmult_0_r in *. rewrite cos_0 in A. replace (INR 0 * (PI / 2)) with 0 in B by (cbn; ring). rewrite cos_0 in B. repeat split; [lra|lra|exact E1].
Qed.
