(** Exact recovery of coefficients by the Fourier method of gen_harmonics.py. *)
From Coq Require Import Reals Lra Lia ZifyBool ZifyNat List Bool Arith.
From Coquelicot Require Import Coquelicot.
From Verif Require Import Base LegendreSpec LegendreSpec2 LegendreOrtho SummationModel SummationProofs FourierLegModel LegendreFourier FourierLegProofs LegendreModel Arr HarmModel GenModel GenProofs FourierGenModel.
Import ListNotations.
Close Scope Z_scope.
Open Scope R_scope.
Ltac Zify.zify_post_hook ::= Z.to_euclidean_division_equations.

(** ** sums of cosines and sines at regular points *)
Lemma cos_telescope n a h : 2 * sin (h / 2) * sumn n (fun i => cos (a + INR i * h)) = sin (a + INR n * h - h / 2) - sin (a - h / 2).
Proof.
  induction n as [|n IH]; [cbn [sumn INR]; replace (a + 0 * h - h / 2) with (a - h / 2) by ring; ring|].
  rewrite sumn_S, Rmult_plus_distr_l, IH, S_INR. set (x := a + INR n * h). replace (a + (INR n + 1) * h - h / 2) with (x + h / 2) by (unfold x; field). rewrite (sin_plus x (h / 2)), (sin_minus x (h / 2)). ring.
Qed.
Lemma sin_telescope n a h : 2 * sin (h / 2) * sumn n (fun i => sin (a + INR i * h)) = cos (a - h / 2) - cos (a + INR n * h - h / 2).
Proof.
  induction n as [|n IH]; [cbn [sumn INR]; replace (a + 0 * h - h / 2) with (a - h / 2) by ring; ring|].
  rewrite sumn_S, Rmult_plus_distr_l, IH, S_INR. set (x := a + INR n * h). replace (a + (INR n + 1) * h - h / 2) with (x + h / 2) by (unfold x; field). rewrite (cos_plus x (h / 2)), (cos_minus x (h / 2)). ring.
Qed.
Lemma sin_frac_ne (p : Z) n : (0 < Z.abs p < Z.of_nat n)%Z -> sin (IZR p * PI / INR n) <> 0.
Proof.
  intros H. pose proof PI_RGT_0 as HP. assert (Hn : 0 < INR n) by (apply lt_0_INR; lia).
  assert (A : forall z : Z, (0 < z < Z.of_nat n)%Z -> 0 < sin (IZR z * PI / INR n)).
  { intros z Hz. assert (0 < IZR z) by (apply IZR_lt; lia). assert (IZR z < INR n) by (rewrite INR_IZR_INZ; apply IZR_lt; lia).
    apply sin_gt_0; [apply Rdiv_lt_0_compat; [nra|lra]|]. apply (Rmult_lt_reg_r (INR n)); [lra|]. unfold Rdiv. rewrite Rmult_assoc, Rinv_l, Rmult_1_r by lra. nra. }
  destruct (Z.le_gt_cases 0 p) as [Hp|Hp]; [pose proof (A p ltac:(lia)); lra|]. pose proof (A (- p)%Z ltac:(lia)) as B. rewrite opp_IZR in B.
  replace (- IZR p * PI / INR n) with (- (IZR p * PI / INR n)) in B by (unfold Rdiv; ring). rewrite sin_neg in B. lra.
Qed.
Lemma sin_2kpi (p : Z) x : sin (x + 2 * (IZR p * PI)) = sin x.
Proof. replace (2 * (IZR p * PI)) with (IZR (2 * p) * PI) by (rewrite mult_IZR; ring). rewrite sin_plus, cos_IPI. replace (Z.even (2 * p)) with true by (rewrite Z.even_mul; reflexivity). rewrite (sin_eq_0_1 (IZR (2 * p) * PI)) by (exists (2 * p)%Z; reflexivity). ring. Qed.
Lemma cos_2kpi (p : Z) x : cos (x + 2 * (IZR p * PI)) = cos x.
Proof. replace (2 * (IZR p * PI)) with (IZR (2 * p) * PI) by (rewrite mult_IZR; ring). rewrite cos_plus, cos_IPI. replace (Z.even (2 * p)) with true by (rewrite Z.even_mul; reflexivity). rewrite (sin_eq_0_1 (IZR (2 * p) * PI)) by (exists (2 * p)%Z; reflexivity). ring. Qed.
(** equally spaced longitudes a, a + 2π/n, ... *)
Definition ring_pt (a : R) (n i : nat) : R := a + INR i * (2 * PI / INR n).
Lemma ring_cos (p : Z) a n : (0 < Z.abs p < Z.of_nat n)%Z -> sumn n (fun i => cos (IZR p * ring_pt a n i)) = 0.
Proof.
  intros H. assert (Hn : INR n <> 0) by (apply not_0_INR; lia). pose proof (cos_telescope n (IZR p * a) (IZR p * (2 * PI / INR n))) as T.
  replace (IZR p * (2 * PI / INR n) / 2) with (IZR p * PI / INR n) in T by (field; exact Hn).
  replace (IZR p * a + INR n * (IZR p * (2 * PI / INR n)) - IZR p * PI / INR n) with (IZR p * a - IZR p * PI / INR n + 2 * (IZR p * PI)) in T by (field; exact Hn). rewrite sin_2kpi in T.
  pose proof (sin_frac_ne p n H) as S0. rewrite Rminus_diag_eq in T by reflexivity. apply Rmult_integral in T. destruct T as [T|T]; [lra|]. rewrite <- T. apply sumn_ext. intros i _. f_equal. unfold ring_pt. ring.
Qed.
Lemma ring_sin (p : Z) a n : (0 < Z.abs p < Z.of_nat n)%Z -> sumn n (fun i => sin (IZR p * ring_pt a n i)) = 0.
Proof.
  intros H. assert (Hn : INR n <> 0) by (apply not_0_INR; lia). pose proof (sin_telescope n (IZR p * a) (IZR p * (2 * PI / INR n))) as T.
  replace (IZR p * (2 * PI / INR n) / 2) with (IZR p * PI / INR n) in T by (field; exact Hn).
  replace (IZR p * a + INR n * (IZR p * (2 * PI / INR n)) - IZR p * PI / INR n) with (IZR p * a - IZR p * PI / INR n + 2 * (IZR p * PI)) in T by (field; exact Hn). rewrite cos_2kpi in T.
  pose proof (sin_frac_ne p n H) as S0. rewrite Rminus_diag_eq in T by reflexivity. apply Rmult_integral in T. destruct T as [T|T]; [lra|]. rewrite <- T. apply sumn_ext. intros i _. f_equal. unfold ring_pt. ring.
Qed.
(** cell centres (j + 1/2)π/n *)
Definition mid_pt (n j : nat) : R := (INR j + 1 / 2) * PI / INR n.
Lemma mid_cos (p : Z) n : (0 < Z.abs p < 2 * Z.of_nat n)%Z -> sumn n (fun j => cos (IZR p * mid_pt n j)) = 0.
Proof.
  intros H. assert (Hn : INR n <> 0) by (apply not_0_INR; lia). pose proof (cos_telescope n (IZR p * PI / INR n / 2) (IZR p * PI / INR n)) as T.
  replace (IZR p * PI / INR n / 2 - IZR p * PI / INR n / 2) with 0 in T by ring. replace (IZR p * PI / INR n / 2 + INR n * (IZR p * PI / INR n) - IZR p * PI / INR n / 2) with (IZR p * PI) in T by (field; exact Hn).
  rewrite sin_0, (sin_eq_0_1 (IZR p * PI)) in T by (exists p; reflexivity).
  assert (S0 : sin (IZR p * PI / INR n / 2) <> 0). { replace (IZR p * PI / INR n / 2) with (IZR p * PI / INR (2 * n)) by (rewrite mult_INR; change (INR 2) with 2; field; exact Hn). apply sin_frac_ne. lia. }
  rewrite Rminus_0_r in T. apply Rmult_integral in T. destruct T as [T|T]; [lra|]. rewrite <- T. apply sumn_ext. intros i _. f_equal. unfold mid_pt. field. exact Hn.
Qed.
Lemma sumn_const n c : sumn n (fun _ => c) = INR n * c.
Proof. induction n as [|n IH]; [cbn; ring|]. rewrite sumn_S, IH, S_INR. ring. Qed.
Lemma prod_cc x y : cos x * cos y = 1 / 2 * cos (x - y) + 1 / 2 * cos (x + y). Proof. rewrite cos_plus, cos_minus. field. Qed.
Lemma prod_ss x y : sin x * sin y = 1 / 2 * cos (x - y) + - (1 / 2) * cos (x + y). Proof. rewrite cos_plus, cos_minus. field. Qed.
Lemma prod_sc x y : sin x * cos y = 1 / 2 * sin (x + y) + 1 / 2 * sin (x - y). Proof. rewrite sin_plus, sin_minus. field. Qed.
Lemma INR_sum m k x : INR m * x + INR k * x = IZR (Z.of_nat m + Z.of_nat k) * x. Proof. rewrite plus_IZR, <- !INR_IZR_INZ. ring. Qed.
Lemma INR_dif m k x : INR m * x - INR k * x = IZR (Z.of_nat m - Z.of_nat k) * x. Proof. rewrite minus_IZR, <- !INR_IZR_INZ. ring. Qed.
Lemma sumn_lin2 n a b f g : sumn n (fun i => a * f i + b * g i) = a * sumn n f + b * sumn n g. Proof. rewrite sumn_plus, !sumn_scal. reflexivity. Qed.
Definition dsum (pts : nat -> R) (n : nat) (f g : R -> R) (m k : nat) : R := sumn n (fun i => f (INR m * pts i) * g (INR k * pts i)).

Lemma ring_cc a n m k : (m + k < n)%nat -> dsum (ring_pt a n) n cos cos m k = if (m =? k)%nat then (if (m =? 0)%nat then INR n else INR n / 2) else 0.
Proof.
  intros H. unfold dsum. rewrite (sumn_ext n _ (fun i => 1 / 2 * cos (IZR (Z.of_nat m - Z.of_nat k) * ring_pt a n i) + 1 / 2 * cos (IZR (Z.of_nat m + Z.of_nat k) * ring_pt a n i))) by (intros i _; rewrite prod_cc, INR_sum, INR_dif; reflexivity).
  rewrite sumn_lin2. destruct (Nat.eqb_spec m k) as [<-|N].
  - rewrite (sumn_ext n (fun i => cos (IZR (Z.of_nat m - Z.of_nat m) * _)) (fun _ => 1)) by (intros; rewrite Z.sub_diag, Rmult_0_l; apply cos_0). rewrite sumn_const.
    destruct (Nat.eqb_spec m 0) as [->|N0]; [rewrite (sumn_ext n (fun i => cos (IZR (Z.of_nat 0 + Z.of_nat 0) * _)) (fun _ => 1)) by (intros; cbn; rewrite Rmult_0_l; apply cos_0); rewrite sumn_const; field|rewrite ring_cos by lia; field].
  - rewrite !ring_cos by lia. ring.
Qed.
Lemma ring_ss a n m k : (m + k < n)%nat -> dsum (ring_pt a n) n sin sin m k = if (m =? k)%nat then (if (m =? 0)%nat then 0 else INR n / 2) else 0.
Proof.
  intros H. unfold dsum. rewrite (sumn_ext n _ (fun i => 1 / 2 * cos (IZR (Z.of_nat m - Z.of_nat k) * ring_pt a n i) + - (1 / 2) * cos (IZR (Z.of_nat m + Z.of_nat k) * ring_pt a n i))) by (intros i _; rewrite prod_ss, INR_sum, INR_dif; reflexivity).
  rewrite sumn_lin2. destruct (Nat.eqb_spec m k) as [<-|N].
  - rewrite (sumn_ext n (fun i => cos (IZR (Z.of_nat m - Z.of_nat m) * _)) (fun _ => 1)) by (intros; rewrite Z.sub_diag, Rmult_0_l; apply cos_0). rewrite sumn_const.
    destruct (Nat.eqb_spec m 0) as [->|N0]; [rewrite (sumn_ext n (fun i => cos (IZR (Z.of_nat 0 + Z.of_nat 0) * _)) (fun _ => 1)) by (intros; cbn; rewrite Rmult_0_l; apply cos_0); rewrite sumn_const; field|rewrite ring_cos by lia; field].
  - rewrite !ring_cos by lia. ring.
Qed.
Lemma ring_sc a n m k : (m + k < n)%nat -> dsum (ring_pt a n) n sin cos m k = 0.
Proof.
  intros H. unfold dsum. rewrite (sumn_ext n _ (fun i => 1 / 2 * sin (IZR (Z.of_nat m + Z.of_nat k) * ring_pt a n i) + 1 / 2 * sin (IZR (Z.of_nat m - Z.of_nat k) * ring_pt a n i))) by (intros i _; rewrite prod_sc, INR_sum, INR_dif; reflexivity).
  assert (Z : forall p : Z, (Z.abs p < Z.of_nat n)%Z -> sumn n (fun i => sin (IZR p * ring_pt a n i)) = 0).
  { intros p Hp. destruct (Z.eq_dec p 0) as [->|N]; [|apply ring_sin; lia]. rewrite (sumn_ext n _ (fun _ => 0)) by (intros; rewrite Rmult_0_l; apply sin_0). apply sumn_zero. }
  rewrite sumn_lin2, !Z by lia. ring.
Qed.
Lemma mid_tr n m j k : (j + k < 2 * n)%nat -> dsum (mid_pt n) n (tr m) (tr m) j k =
  if (j =? k)%nat then (if (j =? 0)%nat then (if Nat.even m then INR n else 0) else INR n / 2) else 0.
Proof.
  intros H. unfold dsum. rewrite (sumn_ext n _ (fun i => 1 / 2 * cos (IZR (Z.of_nat j - Z.of_nat k) * mid_pt n i) + (if Nat.even m then 1 / 2 else - (1 / 2)) * cos (IZR (Z.of_nat j + Z.of_nat k) * mid_pt n i)))
    by (intros i _; rewrite <- INR_sum, <- INR_dif; unfold tr; destruct (Nat.even m); [apply prod_cc|apply prod_ss]).
  rewrite sumn_lin2. destruct (Nat.eqb_spec j k) as [<-|N].
  - rewrite (sumn_ext n (fun i => cos (IZR (Z.of_nat j - Z.of_nat j) * _)) (fun _ => 1)) by (intros; rewrite Z.sub_diag, Rmult_0_l; apply cos_0). rewrite sumn_const.
    destruct (Nat.eqb_spec j 0) as [->|N0]; [rewrite (sumn_ext n (fun i => cos (IZR (Z.of_nat 0 + Z.of_nat 0) * _)) (fun _ => 1)) by (intros; cbn; rewrite Rmult_0_l; apply cos_0); rewrite sumn_const; destruct (Nat.even m); field|rewrite mid_cos by lia; field].
  - rewrite !mid_cos by lia. ring.
Qed.
(** in either direction *)
Lemma sumn_rev n f : sumn n (fun j => f (n - 1 - j)%nat) = sumn n f.
Proof.
  revert f. induction n as [|n IH]; intros f; [reflexivity|]. rewrite sumn_first. rewrite (sumn_ext n _ (fun j => f (n - 1 - j)%nat)) by (intros j Hj; f_equal; lia). rewrite IH, sumn_S. replace (S n - 1 - 0)%nat with n by lia. ring.
Qed.
Definition mid_dir (up : bool) (n j : nat) : R := if up then mid_pt n (n - 1 - j) else mid_pt n j.
Lemma mid_dir_sum up n f : sumn n (fun j => f (mid_dir up n j)) = sumn n (fun j => f (mid_pt n j)).
Proof. destruct up; cbn [mid_dir]; [apply (sumn_rev n (fun j => f (mid_pt n j)))|reflexivity]. Qed.

(** ** longitudes *)
Lemma lon_ok a M (phi : list R) (d X Y : nat -> nat -> R) m j : let n := List.length phi in (2 * M < n)%nat -> (m <= M)%nat ->
  (forall i, (i < n)%nat -> nth i phi 0 = ring_pt a n i) ->
  (forall i, (i < n)%nat -> d i j = sumn (M + 1) (fun k => X k j * cos (INR k * ring_pt a n i) + Y k j * sin (INR k * ring_pt a n i))) ->
  lon_coef cos phi d m j = X m j /\ lon_coef sin phi d m j = if (m =? 0)%nat then 0 else Y m j.
Proof.
  intros n HM Hm Hp Hd. assert (Hn : INR n <> 0) by (apply not_0_INR; lia).
  assert (G : forall f : R -> R, sumn n (fun i => f (INR m * nth i phi 0) * d i j) = sumn (M + 1) (fun k => X k j * dsum (ring_pt a n) n f cos m k + Y k j * dsum (ring_pt a n) n f sin m k)).
  { intros f. rewrite (sumn_ext n _ (fun i => sumn (M + 1) (fun k => X k j * (f (INR m * ring_pt a n i) * cos (INR k * ring_pt a n i)) + Y k j * (f (INR m * ring_pt a n i) * sin (INR k * ring_pt a n i))))).
    - rewrite sumn_swap. apply sumn_ext. intros k _. rewrite sumn_lin2. reflexivity.
    - intros i Hi. rewrite Hp, Hd by exact Hi. rewrite <- sumn_scal. apply sumn_ext. intros k _. ring. }
  unfold lon_coef. fold n. rewrite !G.
  assert (CS : forall k, (m + k < n)%nat -> dsum (ring_pt a n) n cos sin m k = 0). { intros k Hk. rewrite <- (ring_sc a n k m) by lia. apply sumn_ext. intros. ring. }
  rewrite (sumn_ext (M + 1) _ (fun k => if (k =? m)%nat then X m j * (if (m =? 0)%nat then INR n else INR n / 2) else 0)).
  2:{ intros k Hk. rewrite ring_cc, CS by lia. rewrite (Nat.eqb_sym m k). destruct (Nat.eqb_spec k m) as [->|]; ring. }
  rewrite sumn_single by lia.
  rewrite (sumn_ext (M + 1) _ (fun k => if (k =? m)%nat then Y m j * (if (m =? 0)%nat then 0 else INR n / 2) else 0)).
  2:{ intros k Hk. rewrite ring_ss, ring_sc by lia. rewrite (Nat.eqb_sym m k). destruct (Nat.eqb_spec k m) as [->|]; ring. }
  rewrite sumn_single by lia. destruct (m =? 0)%nat; split; field; exact Hn.
Qed.

(** ** colatitudes *)
Lemma theta_ok up M (theta phi : list R) (D A : nat -> nat -> R) m k : let n := List.length theta in (M < n)%nat -> (k <= M)%nat ->
  (forall j, (j < n)%nat -> nth j theta 0 = mid_dir up n j) ->
  INR (List.length phi) * Rabs (nth 1 phi 0 - nth 0 phi 0) / (2 * PI) * INR n * Rabs (nth 1 theta 0 - nth 0 theta 0) / PI = 1 ->
  (forall j, (j < n)%nat -> D m j = sumn (M + 1) (fun i => A m i * tr m (INR i * mid_dir up n j))) ->
  theta_norm phi theta (theta_inner theta D) m k = if negb (Nat.even m) && (k =? 0)%nat then 0 else A m k.
Proof.
  intros n HM Hk Ht N HD. assert (Hn : INR n <> 0) by (apply not_0_INR; lia).
  assert (E : sumn n (fun j => D m j * tri m (INR k * nth j theta 0)) = A m k * (if (k =? 0)%nat then (if Nat.even m then INR n else 0) else INR n / 2)).
  { rewrite (sumn_ext n _ (fun j => (fun x => sumn (M + 1) (fun i => A m i * (tr m (INR i * x) * tr m (INR k * x)))) (mid_dir up n j))).
    - rewrite (mid_dir_sum up n (fun x => sumn (M + 1) (fun i => A m i * (tr m (INR i * x) * tr m (INR k * x))))). rewrite sumn_swap.
      rewrite (sumn_ext (M + 1) _ (fun i => if (i =? k)%nat then A m k * (if (k =? 0)%nat then (if Nat.even m then INR n else 0) else INR n / 2) else 0)).
      + apply sumn_single. lia.
      + intros i Hi. rewrite sumn_scal. fold (dsum (mid_pt n) n (tr m) (tr m) i k). rewrite mid_tr by lia. destruct (Nat.eqb_spec i k) as [->|]; ring.
    - intros j Hj. rewrite Ht, HD by exact Hj. rewrite Rmult_comm, <- sumn_scal. apply sumn_ext. intros i _. unfold tri. replace (if Nat.even m then cos (INR k * mid_dir up n j) else sin (INR k * mid_dir up n j)) with (tr m (INR k * mid_dir up n j)) by (unfold tr; destruct (Nat.even m); reflexivity). ring. }
  unfold theta_norm, theta_inner. fold n. rewrite N, E, Rmult_1_r. destruct (k =? 0)%nat; destruct (Nat.even m); cbn [negb andb]; field; exact Hn.
Qed.

(** ** degrees *)
Lemma suml_parity q b f : (q <= 1)%nat -> suml (range2 q b) f = sumn b (fun j => if (j mod 2 =? q)%nat then f j else 0).
Proof.
  intros Hq. rewrite <- (suml_range2 q b (fun j => if (j mod 2 =? q)%nat then f j else 0) Hq); [|intros j Hj; destruct (Nat.eqb_spec (j mod 2) q); [contradiction|reflexivity]].
  unfold range2. induction (seq 0 ((b + 1 - q) / 2)) as [|x xs IH]; [reflexivity|]. cbn [map suml fold_right]. unfold suml in IH. rewrite IH. replace ((q + 2 * x) mod 2 =? q)%nat with true by lia. reflexivity.
Qed.
Lemma cols_parity q M f : (q <= 1)%nat -> Nat.even M = true -> suml (cols_of q M) f = sumn (M + 1) (fun j => if (j mod 2 =? q)%nat then f j else 0).
Proof.
  intros Hq EM. rewrite even_mod in EM. unfold cols_of. assert (C : (q = 0 \/ q = 1)%nat) by lia. destruct C as [-> | ->]; cbn [Nat.eqb]; rewrite suml_parity by lia; [reflexivity|].
  replace (M + 1)%nat with (S M) by lia. rewrite sumn_S. replace (M mod 2 =? 1)%nat with false by lia. ring.
Qed.
Lemma int_product m N q (A B : nat -> R) : (forall j, (j mod 2 <> q)%nat -> A j = 0) -> (forall j, (j mod 2 <> q)%nat -> B j = 0) ->
  is_RInt (fun t => sumn N (fun k => A k * tr m (INR k * t)) * sumn N (fun j => B j * tr m (INR j * t)) * sin t) 0 PI
    (sumn N (fun k => A k * sumn N (fun j => B j * kmat (sgn_of m) j k))).
Proof.
  intros ZA ZB. apply (is_RInt_ext (fun t => sumn N (fun k => sumn N (fun j => A k * B j * (tr m (INR j * t) * tr m (INR k * t) * sin t))))).
  - intros t _. match goal with |- ?a = ?b => change (@eq R a b) end. rewrite sumn_mul, Rmult_comm, <- sumn_scal. apply sumn_ext. intros j _. rewrite <- sumn_scal. apply sumn_ext. intros k _. ring.
  - apply is_RInt_sumn. intros k _. rewrite <- sumn_scal. apply is_RInt_sumn. intros j _. destruct (Nat.even (j + k)) eqn:EV.
    + apply (int_scal _ _ _ _ (dtemp (sgn_of m) j k / 2)); [apply int_pair; exact EV|unfold kmat, Rdiv; ring].
    + assert (X : A k = 0 \/ B j = 0) by (rewrite even_mod in EV; destruct (Nat.eq_dec (k mod 2) q); [right; apply ZB; lia|left; apply ZA; assumption]).
      replace (A k * (B j * kmat (sgn_of m) j k)) with 0 by (destruct X as [-> | ->]; ring). apply (is_RInt_ext (fun _ => 0)); [intros; match goal with |- ?a = ?b => change (@eq R a b) end; destruct X as [-> | ->]; ring|].
      apply (FTCr (fun _ => 0)); [ring|intros; apply @is_derive_const|intros; apply continuous_const].
Qed.
Lemma NT_cut m l N t : (m <= l)%nat -> (l < N)%nat -> sumn N (fun j => Fc m l j * tr m (INR j * t)) = NT l m t.
Proof. intros Hm Hl. rewrite <- Fc_series by exact Hm. apply sumn_cut; [lia|]. intros j Hj. rewrite Fc_zero by (left; lia). ring. Qed.
Lemma Fc_par m l j : (j mod 2 <> l mod 2)%nat -> Fc m l j = 0.
Proof. intros H. apply Fc_zero. right. rewrite <- Nat.negb_even, even_mod. apply negb_true_iff. lia. Qed.
(** the sum of one pair of degrees is an inner product *)
Lemma pair_sum m l k N : (m <= l < N)%nat -> (m <= k < N)%nat ->
  sumn N (fun i => if (i mod 2 =? l mod 2)%nat then Fc m k i * sumn N (fun j => Fc m l j * kmat (sgn_of m) j i) else 0) = if (k =? l)%nat then 2 * eps_m m else 0.
Proof.
  intros Hl Hk. destruct (Nat.eq_dec (k mod 2) (l mod 2)) as [E|E].
  - rewrite <- orthonormal by lia. apply (int_uniq (fun th => NT k m th * NT l m th * sin th) 0 PI); [|apply ip_is].
    rewrite (sumn_ext N _ (fun i => Fc m k i * sumn N (fun j => Fc m l j * kmat (sgn_of m) j i))) by (intros i _; destruct (Nat.eqb_spec (i mod 2) (l mod 2)) as [|Ne]; [reflexivity|rewrite (Fc_par m k i) by lia; ring]).
    apply (is_RInt_ext (fun t => sumn N (fun i => Fc m k i * tr m (INR i * t)) * sumn N (fun j => Fc m l j * tr m (INR j * t)) * sin t)).
    + intros t _. match goal with |- ?a = ?b => change (@eq R a b) end. rewrite !NT_cut by lia. reflexivity.
    + apply (int_product m N (l mod 2)); intros j Hj; apply Fc_par; lia.
  - replace (k =? l)%nat with false by (symmetry; apply Nat.eqb_neq; congruence). apply sumn_all0. intros i _. destruct (Nat.eqb_spec (i mod 2) (l mod 2)) as [Ei|]; [rewrite (Fc_par m k i) by lia; ring|reflexivity].
Qed.
Lemma kmat_zero j : kmat (-1) j 0 = 0.
Proof. unfold kmat, dtemp. change (INR 0) with 0. rewrite !Rminus_0_r, !Rplus_0_r. unfold Rdiv. ring. Qed.
Lemma leg_ok LMAX M (p : tbl) (t : nat -> nat -> R) (c : nat -> R) l m : Nat.even M = true -> (M <= LMAX)%nat -> (m <= l <= M)%nat -> Nat.even LMAX = true ->
  (forall j, p l m j = Fc m l j) -> (forall k, (k < m)%nat -> c k = 0) ->
  (forall k, (k <= M)%nat -> t m k = if negb (Nat.even m) && (k =? 0)%nat then 0 else sumn (M + 1) (fun l' => c l' * Fc m l' k)) ->
  coef_sum LMAX M p t l m = 2 * eps_m m * c l.
Proof.
  intros EM HM Hl EL Hp Hc Ht. unfold coef_sum. pose proof EM as EM'. rewrite even_mod in EM', EL.
  replace ((l <=? LMAX)%nat && (m <=? M)%nat && negb (Nat.odd l && (l =? LMAX)%nat) && negb (Nat.odd m && (l =? 0)%nat)) with true.
  2:{ symmetry. rewrite !andb_true_iff, !negb_true_iff, !andb_false_iff. rewrite <- !Nat.negb_even, !even_mod. repeat split; try lia. }
  rewrite cols_parity by (try lia; exact EM).
  rewrite (sumn_ext (M + 1) _ (fun i => sumn (M + 1) (fun l' => c l' * (if (i mod 2 =? l mod 2)%nat then Fc m l' i * sumn (M + 1) (fun j => Fc m l j * kmat (sgn_of m) j i) else 0)))).
  2:{ intros i Hi. destruct (Nat.eqb_spec (i mod 2) (l mod 2)) as [Ei|]; [|symmetry; apply sumn_all0; intros; ring].
      rewrite cols_parity by (try lia; exact EM). rewrite (sumn_ext (M + 1) (fun j => if (j mod 2 =? l mod 2)%nat then _ else 0) (fun j => Fc m l j * kmat (sgn_of m) j i)).
      2:{ intros j _. rewrite Hp. fold (sgn_of m). destruct (Nat.eqb_spec (j mod 2) (l mod 2)) as [|Ne]; [reflexivity|rewrite (Fc_par m l j) by lia; ring]. }
      rewrite Ht by lia. set (W := sumn (M + 1) (fun j => Fc m l j * kmat (sgn_of m) j i)).
      assert (X : (if negb (Nat.even m) && (i =? 0)%nat then 0 else sumn (M + 1) (fun l' => c l' * Fc m l' i)) * W = sumn (M + 1) (fun l' => c l' * Fc m l' i) * W).
      { destruct (Nat.even m) eqn:Em; [reflexivity|]. destruct (Nat.eqb_spec i 0) as [->|]; [|reflexivity]. cbn [negb andb]. replace W with 0; [ring|]. symmetry. unfold W. apply sumn_all0. intros j _. unfold sgn_of. rewrite Em, kmat_zero. ring. }
      rewrite X, Rmult_comm, <- sumn_scal. apply sumn_ext. intros. ring. }
  rewrite sumn_swap. rewrite (sumn_ext (M + 1) _ (fun k => if (k =? l)%nat then 2 * eps_m m * c l else 0)); [apply sumn_single; lia|].
  intros k Hk. rewrite sumn_scal. destruct (Nat.le_gt_cases m k) as [Hmk|Hmk].
  - rewrite pair_sum by lia. destruct (Nat.eqb_spec k l) as [->|]; ring.
  - rewrite (Hc k Hmk). replace (k =? l)%nat with false by lia. ring.
Qed.

(** ** the table below the diagonal *)
Definition low (p : tbl) : Prop := forall l m j, (l < m)%nat -> (2 <= m)%nat -> p l m j = 0.
Lemma fold_inv {A B} (P : A -> Prop) (f : A -> B -> A) xs a : P a -> (forall x a, In x xs -> P a -> P (f a x)) -> P (fold_left f xs a).
Proof. revert a. induction xs as [|x xs IH]; intros a Ha H; [exact Ha|]. cbn [fold_left]. apply IH; [apply H; [left; reflexivity|exact Ha]|intros y b Hy; apply H; right; exact Hy]. Qed.
Lemma low_set q lmax m j f p : (m <= 1)%nat -> low p -> low (set_col q lmax m j f p).
Proof. intros Hm Hp l m' j' H1 H2. unfold set_col, asg. replace (m' =? m)%nat with false by lia. rewrite andb_false_r. cbn [andb]. apply Hp; assumption. Qed.
Lemma low_recur q lmax m c p : (m <= 1)%nat -> low p -> low (recur q lmax m c p).
Proof. intros Hm Hp. unfold recur. apply fold_inv; [exact Hp|]. intros x a _ Ha. apply low_set; assumption. Qed.
Lemma low_norm q lmax mmax m s d p : (m <= 1)%nat -> low p -> low (normalise q lmax mmax m s d p).
Proof. intros Hm Hp l m' j' H1 H2. unfold normalise, asg. replace (m' =? m)%nat with false by lia. rewrite andb_false_r. apply Hp; assumption. Qed.
Lemma low_up q mmax h m p l : (m <= l)%nat -> low p -> low (up q mmax h m p l).
Proof.
  intros Hm Hp l' m' j H1 H2. unfold up, asg. destruct (Nat.eqb_spec l' (l + 2)) as [E|]; [|cbn [andb]; apply Hp; assumption].
  destruct (Nat.eqb_spec m' (m + 2)) as [E'|]; [lia|cbn [andb]; apply Hp; assumption].
Qed.
Lemma range2_ge a b x : In x (range2 a b) -> (a <= x)%nat.
Proof. unfold range2. rewrite in_map_iff. intros (i & <- & _). lia. Qed.
Theorem table_low lmax mmax p : fourier_legendre lmax mmax = Ok p -> low p.
Proof.
  unfold fourier_legendre. do 5 (match goal with |- context [if ?b then _ else _] => destruct b; [discriminate|] end).
  intros E. assert (X : forall a b : tbl, Ok a = Ok b -> b = a) by congruence. apply X in E. subst p.
  assert (L0 : low (zonal_even lmax mmax (fun _ _ _ => 0))). { unfold zonal_even. cbv zeta. apply low_norm; [lia|]. apply low_set; [lia|]. apply low_recur; [lia|]. do 2 (apply low_set; [lia|]). intros ? ? ? _ _. reflexivity. }
  assert (L1 : low (zonal_odd lmax mmax (zonal_even lmax mmax (fun _ _ _ => 0)))). { unfold zonal_odd. cbv zeta. apply low_norm; [lia|]. apply low_recur; [lia|]. do 2 (apply low_set; [lia|]). exact L0. }
  set (p1 := zonal_odd _ _ _) in *. clearbody p1. clear L0.
  assert (L2 : low (one_even lmax mmax p1)). { unfold one_even. cbv zeta. apply low_norm; [lia|]. apply low_recur; [lia|]. do 2 (apply low_set; [lia|]). exact L1. }
  assert (L3 : low (one_odd lmax mmax (one_even lmax mmax p1))). { unfold one_odd. cbv zeta. apply low_norm; [lia|]. apply low_recur; [lia|]. do 2 (apply low_set; [lia|]). exact L2. }
  set (p2 := one_odd _ _ _) in *. clearbody p2. clear L1 L2.
  assert (L4 : low (orders_two lmax mmax p2)). { unfold orders_two. apply fold_inv; [apply fold_inv; [exact L3|]|]; intros x a _ Ha; apply low_up; [lia|exact Ha|lia|exact Ha]. }
  assert (L5 : low (orders_even lmax mmax (orders_two lmax mmax p2))).
  { unfold orders_even. apply fold_inv; [exact L4|]. intros m a _ Ha. cbv zeta. apply fold_inv; [apply fold_inv; [exact Ha|]|]; intros l b Hl Hb; apply low_up; try exact Hb; apply range2_ge in Hl; lia. }
  unfold orders_odd. apply fold_inv; [exact L5|]. intros m a _ Ha. cbv zeta. apply fold_inv; [apply fold_inv; [exact Ha|]|]; intros l b Hl Hb; apply low_up; try exact Hb; apply range2_ge in Hl; lia.
Qed.
Lemma suml_zero xs f : (forall x, f x = 0) -> suml xs f = 0.
Proof. intros H. induction xs as [|x xs IH]; [reflexivity|]. cbn [suml fold_right]. unfold suml in IH. rewrite IH, H. ring. Qed.
Lemma coef_low LMAX M p t l m : low p -> (l < m)%nat -> coef_sum LMAX M p t l m = 0.
Proof.
  intros Hp Hl. unfold coef_sum. match goal with |- (if ?b then _ else _) = _ => destruct b eqn:E; [|reflexivity] end.
  apply suml_zero. intros k. rewrite (suml_zero _ (fun j => p l m j * _)); [ring|]. intros j. rewrite Hp; [ring|exact Hl|]. rewrite !andb_true_iff in E. destruct E as [_ E]. assert (C : (m = 1 \/ 2 <= m)%nat) by lia. destruct C as [->|]; [|assumption]. assert (l = 0)%nat by lia. subst l. discriminate E.
Qed.
