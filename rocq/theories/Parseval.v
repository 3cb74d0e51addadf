(** The mean of the product of two spherical harmonic fields over the sphere. *)
From Coq Require Import Reals Lra Lia ZifyBool ZifyNat.
From Coquelicot Require Import Coquelicot.
From Verif Require Import Base UnitsModel GaussModel LegendreSpec LegendreSpec2 LegendreOrtho SummationModel SummationProofs FourierLegProofs FunkHecke PropSummation.
Close Scope Z_scope.
Open Scope R_scope.

(** ** Specification: integral over the unit sphere, colatitude t, longitude p *)
Definition sphere_integral (F : R -> R -> R) (v : R) : Prop :=
  (forall t, 0 <= t <= PI -> ex_RInt (F t) 0 (2 * PI)) /\ is_RInt (fun t => RInt (F t) 0 (2 * PI) * sin t) 0 PI v.

Lemma wave_0 c s p : wave 0 c s p = c.
Proof. unfold wave. cbn [INR]. rewrite Rmult_0_l, cos_0, sin_0. ring. Qed.
Lemma circle_waves k m c s c' s' : is_RInt (fun p => wave k c s p * wave m c' s' p) 0 (2 * PI)
  (if (k =? m)%nat then 2 * PI / eps_m m * (c * c' + (if (m =? 0)%nat then 0 else s * s')) else 0).
Proof.
  destruct k as [|k].
  - pose proof (int_scal _ c _ _ _ _ (circle_pair 0 m 0 c' s') eq_refl) as H. eapply is_RInt_ext; [|evar_last; [exact H|]].
    + intros p _. req. rewrite wave_0. unfold wave. cbn [INR]. rewrite Rmult_0_l, cos_0. ring.
    + destruct m as [|m]; cbn [Nat.eqb]; [|ring]. rewrite Rmult_0_r, cos_0, sin_0. ring.
  - assert (NK : INR (S k) <> 0) by (apply not_0_INR; lia).
    pose proof (int_lin _ _ c s _ _ _ _ (circle_pair (S k) m 0 c' s') (circle_pair (S k) m (PI / 2 / INR (S k)) c' s')) as H. eapply is_RInt_ext; [|evar_last; [exact H|]].
    + intros p _. cbv beta. req. replace (INR (S k) * (0 - p)) with (- (INR (S k) * p)) by ring.
      replace (INR (S k) * (PI / 2 / INR (S k) - p)) with (PI / 2 - INR (S k) * p) by (field; exact NK). rewrite cos_neg, cos_shift. unfold wave. ring.
    + destruct (Nat.eqb_spec (S k) m) as [<-|N].
      * replace (INR (S k) * (PI / 2 / INR (S k))) with (PI / 2) by (field; exact NK). rewrite Rmult_0_r, cos_0, sin_0, cos_PI2, sin_PI2. cbn [Nat.eqb]. req. pose proof (eps_pos (S k)). field. lra.
      * req. ring.
Qed.
Lemma sumn_pick n k (f : nat -> R) : (k < n)%nat -> sumn n (fun i => if (i =? k)%nat then f i else 0) = f k.
Proof. intros H. rewrite (sumn_ext _ _ (fun i => if (i =? k)%nat then f k else 0)); [apply sumn_single; exact H|]. intros i _. destruct (Nat.eqb_spec i k) as [->|]; reflexivity. Qed.
Lemma sumn_prod n m f g : sumn n f * sumn m g = sumn n (fun i => sumn m (fun j => f i * g j)).
Proof. rewrite Rmult_comm, <- sumn_scal. apply sumn_ext. intros i _. rewrite Rmult_comm, <- sumn_scal. reflexivity. Qed.

Section Fields.
Context (c s c' s' : nat -> nat -> R) (lmin L M : nat).
Definition colsum (v : nat -> nat -> R) (m : nat) (t : R) : R := sumn (L + 1) (fun l => if (lmin <=? l)%nat then NT l m t * v l m else 0).
Lemma series_waves a b t p : 0 <= t <= PI -> series a b lmin L M t p = sumn (M + 1) (fun m => wave m (colsum a m t) (colsum b m t) p).
Proof.
  intros Ht. unfold series. apply sumn_ext. intros m _. unfold wave, colsum. rewrite !(Rmult_comm (sumn _ _)), <- !sumn_scal, <- sumn_plus. apply sumn_ext. intros l _.
  destruct (lmin <=? l)%nat; [|ring]. rewrite NT_Nlm by exact Ht. ring.
Qed.
Definition ring_int (t : R) : R := sumn (M + 1) (fun m => 2 * PI / eps_m m * (colsum c m t * colsum c' m t + (if (m =? 0)%nat then 0 else colsum s m t * colsum s' m t))).
Lemma ring_prod t : 0 <= t <= PI -> is_RInt (fun p => series c s lmin L M t p * series c' s' lmin L M t p) 0 (2 * PI) (ring_int t).
Proof.
  intros Ht. apply (is_RInt_ext (fun p => sumn (M + 1) (fun k => sumn (M + 1) (fun m => wave k (colsum c k t) (colsum s k t) p * wave m (colsum c' m t) (colsum s' m t) p)))).
  - intros p _. req. rewrite !series_waves by exact Ht. rewrite Rmult_comm, <- sumn_scal. apply sumn_ext. intros k _. rewrite Rmult_comm, <- sumn_scal. reflexivity.
  - evar_last; [apply is_RInt_sumn; intros k _; apply is_RInt_sumn; intros m _; apply circle_waves|]. cbv beta. unfold ring_int. apply sumn_ext. intros k Hk.
    rewrite (sumn_ext _ _ (fun m => if (m =? k)%nat then 2 * PI / eps_m m * (colsum c k t * colsum c' m t + (if (m =? 0)%nat then 0 else colsum s k t * colsum s' m t)) else 0)) by (intros m _; rewrite Nat.eqb_sym; reflexivity).
    rewrite (sumn_pick _ k) by exact Hk. reflexivity.
Qed.
Lemma col_prod (a b : nat -> nat -> R) m : is_RInt (fun t => colsum a m t * colsum b m t * sin t) 0 PI
  (2 * eps_m m * sumn (L + 1) (fun l => if ((lmin <=? l) && (m <=? l))%nat then a l m * b l m else 0)).
Proof.
  apply (is_RInt_ext (fun t => sumn (L + 1) (fun l => sumn (L + 1) (fun k => if ((lmin <=? l) && (lmin <=? k))%nat then a l m * b k m * (NT l m t * NT k m t * sin t) else 0)))).
  - intros t _. req. unfold colsum. rewrite sumn_prod, Rmult_comm, <- sumn_scal. apply sumn_ext. intros l _. rewrite <- sumn_scal. apply sumn_ext. intros k _.
    destruct (lmin <=? l)%nat, (lmin <=? k)%nat; cbn [andb]; ring.
  - rewrite <- sumn_scal. apply is_RInt_sumn. intros l Hl.
    evar_last; [apply is_RInt_sumn with (v := fun k => if (k =? l)%nat then (if ((lmin <=? l) && (m <=? l))%nat then 2 * eps_m m * (a l m * b k m) else 0) else 0)|rewrite sumn_pick by exact Hl; destruct (_ && _)%bool; ring].
    assert (Z0 : is_RInt (fun _ : R => 0) 0 PI 0) by (apply (FTCr (fun _ => 0)); [ring|intros; apply @is_derive_const|intros; apply continuous_const]).
    intros k Hk. destruct (Nat.leb_spec lmin l) as [A|A]; cbn [andb]; [|destruct (_ =? _)%nat; exact Z0]. destruct (Nat.leb_spec lmin k) as [B|B].
    2: { replace (k =? l)%nat with false by lia. exact Z0. }
    destruct (Nat.leb_spec m l) as [C|C]; [destruct (Nat.leb_spec m k) as [D|D]|].
    + apply (int_scal _ _ _ _ _ _ (ip_is l k m)). rewrite orthonormal by assumption. rewrite Nat.eqb_sym. destruct (k =? l)%nat; ring.
    + replace (k =? l)%nat with false by lia. apply (is_RInt_ext (fun _ => 0)); [|exact Z0]. intros t Ht. rewrite Rmin_left, Rmax_right in Ht by (pose proof PI_RGT_0; lra). req. rewrite (NT_Nlm k) by lra. rewrite Nlm_high by lia. ring.
    + replace (if (k =? l)%nat then 0 else 0) with 0 by (destruct (k =? l)%nat; reflexivity). apply (is_RInt_ext (fun _ => 0)); [|exact Z0]. intros t Ht. rewrite Rmin_left, Rmax_right in Ht by (pose proof PI_RGT_0; lra). req. rewrite (NT_Nlm l) by lra. rewrite Nlm_high by lia. ring.
Qed.
(** the orders up to M, the degrees from lmin to L; the sine terms of order 0 are never used *)
Definition pairing : R :=
  sumn (M + 1) (fun m => sumn (L + 1) (fun l => if ((lmin <=? l) && (m <=? l))%nat then c l m * c' l m + (if (m =? 0)%nat then 0 else s l m * s' l m) else 0)).
Theorem parseval : sphere_integral (fun t p => series c s lmin L M t p * series c' s' lmin L M t p) (4 * PI * pairing).
Proof.
  pose proof PI_RGT_0 as P. split; [intros t Ht; eexists; apply ring_prod; exact Ht|].
  apply (is_RInt_ext (fun t => sumn (M + 1) (fun m => 2 * PI / eps_m m * (colsum c m t * colsum c' m t * sin t) + (if (m =? 0)%nat then 0 else 2 * PI / eps_m m) * (colsum s m t * colsum s' m t * sin t)))).
  - intros t Ht. rewrite Rmin_left, Rmax_right in Ht by lra. req. rewrite (int_val _ _ _ _ (ring_prod t ltac:(lra))). rewrite (Rmult_comm (ring_int t)). unfold ring_int. rewrite <- (sumn_scal _ (sin t)). apply sumn_ext. intros m _. destruct (m =? 0)%nat; ring.
  - unfold pairing. rewrite <- sumn_scal. apply is_RInt_sumn. intros m Hm. evar_last; [apply int_lin; apply col_prod|]. pose proof (eps_pos m). transitivity (sumn (L + 1)
      (fun l => 4 * PI * (if ((lmin <=? l) && (m <=? l))%nat then c l m * c' l m else 0) + (if (m =? 0)%nat then 0 else 4 * PI) * (if ((lmin <=? l) && (m <=? l))%nat then s l m * s' l m else 0))).
    + rewrite sumn_plus, !sumn_scal. destruct (Nat.eqb_spec m 0) as [->|N]; req; field; lra.
    + rewrite <- (sumn_scal (L + 1) (4 * PI) (fun l => if ((lmin <=? l) && (m <=? l))%nat then c l m * c' l m + (if (m =? 0)%nat then 0 else s l m * s' l m) else 0)). apply sumn_ext. intros l _. destruct (_ && _)%bool; destruct (m =? 0)%nat; ring.
Qed.
End Fields.
