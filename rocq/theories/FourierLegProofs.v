(** The tables of fourier_legendre.py are the Fourier coefficients of the normalised Legendre functions. *)
From Coq Require Import Reals Lra Lia ZifyBool ZifyNat List Bool Arith.
From Coquelicot Require Import Coquelicot.
From Verif Require Import Base LegendreSpec LegendreSpec2 LegendreOrtho SummationModel SummationProofs FourierLegModel LegendreFourier.
Import ListNotations.
Close Scope Z_scope.
Open Scope R_scope.
Ltac Zify.zify_post_hook ::= Z.to_euclidean_division_equations.

(** ** integrals of trigonometric products against sin *)
Lemma zeven z : Z.even z = (z mod 2 =? 0)%Z.
Proof. rewrite Zmod_even. destruct (Z.even z); reflexivity. Qed.
Lemma cos_IPI z : cos (IZR z * PI) = if Z.even z then 1 else -1.
Proof.
  assert (N : forall n, cos (INR n * PI) = if Nat.even n then 1 else -1).
  { intros n. induction n as [| |n IH _] using two_step; [cbn; rewrite Rmult_0_l; apply cos_0|cbn; rewrite Rmult_1_l; apply cos_PI|].
    rewrite !S_INR. replace ((INR n + 1 + 1) * PI) with (INR n * PI + 2 * PI) by ring. rewrite cos_plus, cos_2PI, sin_2PI, IH. cbn [Nat.even]. ring. }
  assert (E : forall n, Z.even (Z.of_nat n) = Nat.even n). { intros n. rewrite even_mod, zeven. apply eq_true_iff_eq. rewrite Nat.eqb_eq, Z.eqb_eq. lia. }
  destruct (Z.le_gt_cases 0 z) as [H|H].
  - rewrite <- (Z2Nat.id z H), <- INR_IZR_INZ, N, E. reflexivity.
  - replace z with (- Z.of_nat (Z.to_nat (- z)))%Z by lia. rewrite Z.even_opp, opp_IZR, <- INR_IZR_INZ, E. replace (- INR (Z.to_nat (- z)) * PI) with (- (INR (Z.to_nat (- z)) * PI)) by ring. rewrite cos_neg. apply N.
Qed.
Lemma int_sin z : Z.even z = false -> is_RInt (fun t => sin (IZR z * t)) 0 PI (2 / IZR z).
Proof.
  intros H. assert (Z : IZR z <> 0) by (apply IZR_neq; intros ->; discriminate).
  apply (FTCr (fun t => - cos (IZR z * t) / IZR z)).
  - rewrite cos_IPI, H, Rmult_0_r, cos_0. field. exact Z.
  - intros t. auto_derive; auto. field. exact Z.
  - intros t. apply (ex_derive_continuous (fun t => sin (IZR z * t))). auto_derive. auto.
Qed.
Lemma four_int (f f1 f2 f3 f4 : R -> R) a1 a2 a3 a4 x1 x2 x3 x4 r : (forall t, a1 * f1 t + a2 * f2 t + (a3 * f3 t + a4 * f4 t) = f t) ->
  is_RInt f1 0 PI x1 -> is_RInt f2 0 PI x2 -> is_RInt f3 0 PI x3 -> is_RInt f4 0 PI x4 -> a1 * x1 + a2 * x2 + (a3 * x3 + a4 * x4) = r -> is_RInt f 0 PI r.
Proof.
  intros E H1 H2 H3 H4 <-. apply (is_RInt_ext (fun t => 1 * (a1 * f1 t + a2 * f2 t) + 1 * (a3 * f3 t + a4 * f4 t))); [intros t _; rewrite <- E; match goal with |- ?a = ?b => change (@eq R a b) end; ring|].
  replace (a1 * x1 + a2 * x2 + (a3 * x3 + a4 * x4)) with (1 * (a1 * x1 + a2 * x2) + 1 * (a3 * x3 + a4 * x4)) by ring. apply int_lin; apply int_lin; assumption.
Qed.
Definition sgn_of (m : nat) : R := if Nat.even m then 1 else -1.
Lemma even_Z_nat n : Z.even (Z.of_nat n) = Nat.even n.
Proof. rewrite even_mod, zeven. apply eq_true_iff_eq. rewrite Nat.eqb_eq, Z.eqb_eq. lia. Qed.
Lemma int_pair m j k : Nat.even (j + k) = true -> is_RInt (fun t => tr m (INR j * t) * tr m (INR k * t) * sin t) 0 PI (dtemp (sgn_of m) j k / 2).
Proof.
  intros H. rewrite even_mod in H.
  assert (O : forall z, (z mod 2 = 1)%Z -> Z.even z = false) by (intros z Hz; rewrite zeven; lia).
  set (J := Z.of_nat j). set (K := Z.of_nat k).
  pose proof (int_sin (1 - J - K) (O (1 - J - K)%Z ltac:(unfold J, K; lia))) as I1. pose proof (int_sin (1 + J - K) (O (1 + J - K)%Z ltac:(unfold J, K; lia))) as I2. pose proof (int_sin (1 - J + K) (O (1 - J + K)%Z ltac:(unfold J, K; lia))) as I3. pose proof (int_sin (1 + J + K) (O (1 + J + K)%Z ltac:(unfold J, K; lia))) as I4.
  assert (NZ : forall z, (z mod 2 = 1)%Z -> IZR z <> 0) by (intros z Hz; apply IZR_neq; lia).
  pose proof (NZ (1 - J - K)%Z ltac:(unfold J, K; lia)) as N1. pose proof (NZ (1 + J - K)%Z ltac:(unfold J, K; lia)) as N2. pose proof (NZ (1 - J + K)%Z ltac:(unfold J, K; lia)) as N3. pose proof (NZ (1 + J + K)%Z ltac:(unfold J, K; lia)) as N4.
  repeat rewrite ?plus_IZR, ?minus_IZR in *. unfold J, K in *. rewrite <- !INR_IZR_INZ in *.
  eapply (four_int _ _ _ _ _ (sgn_of m / 4) (1 / 4) (1 / 4) (sgn_of m / 4)); [|exact I1|exact I2|exact I3|exact I4|unfold dtemp; field; repeat split; lra].
  intros t. cbv beta. replace ((1 - INR j - INR k) * t) with (t - (INR j * t + INR k * t)) by ring. replace ((1 + INR j - INR k) * t) with (t + (INR j * t - INR k * t)) by ring.
  replace ((1 - INR j + INR k) * t) with (t - (INR j * t - INR k * t)) by ring. replace ((1 + INR j + INR k) * t) with (t + (INR j * t + INR k * t)) by ring.
  set (a := INR j * t). set (b := INR k * t). repeat rewrite ?sin_plus, ?sin_minus, ?cos_plus, ?cos_minus. unfold tr, sgn_of. match goal with |- ?x = ?y => change (@eq R x y) end. destruct (Nat.even m); field.
Qed.
Lemma is_RInt_sumn n (f : nat -> R -> R) (v : nat -> R) a b : (forall j, (j < n)%nat -> is_RInt (f j) a b (v j)) -> is_RInt (fun t => sumn n (fun j => f j t)) a b (sumn n v).
Proof.
  intros H. induction n as [|n IH]; cbn [sumn].
  - apply (FTCr (fun _ => 0)); [ring|intros; apply @is_derive_const|intros; apply continuous_const].
  - apply (is_RInt_plus (V := R_NormedModule) (fun t => sumn n (fun j => f j t)) (f n)); [apply IH; intros; apply H; lia|apply H; lia].
Qed.
Lemma int_square m l v (B : nat -> R) : (forall j, Nat.odd (l + j) = true -> B j = 0) ->
  is_RInt (fun t => sumn (S l) (fun j => v * B j * tr m (INR j * t)) * sumn (S l) (fun j => v * B j * tr m (INR j * t)) * sin t) 0 PI
    (sumn (S l) (fun j => v * B j * sumn (S l) (fun k => v * B k * dtemp (sgn_of m) j k) / 2)).
Proof.
  intros Z. apply (is_RInt_ext (fun t => sumn (S l) (fun j => sumn (S l) (fun k => (v * B j) * (v * B k) * (tr m (INR j * t) * tr m (INR k * t) * sin t))))).
  - intros t _. match goal with |- ?a = ?b => change (@eq R a b) end. rewrite sumn_mul, Rmult_comm, <- sumn_scal. apply sumn_ext. intros j _. rewrite <- sumn_scal. apply sumn_ext. intros k _. ring.
  - apply is_RInt_sumn. intros j _.
    assert (E : v * B j * sumn (S l) (fun k => v * B k * dtemp (sgn_of m) j k) / 2 = sumn (S l) (fun k => v * B j * (v * B k) * (dtemp (sgn_of m) j k / 2))).
    { unfold Rdiv. rewrite (Rmult_comm (v * B j)), Rmult_assoc, Rmult_comm, <- sumn_scal. apply sumn_ext. intros. ring. }
    rewrite E. apply is_RInt_sumn. intros k _. destruct (Nat.even (j + k)) eqn:EV.
    + apply (int_scal _ _ _ _ (dtemp (sgn_of m) j k / 2)); [apply int_pair; exact EV|reflexivity].
    + assert (X : B j = 0 \/ B k = 0). { rewrite even_mod in EV. destruct (Nat.odd (l + j)) eqn:O1; [left; apply Z; exact O1|]. right. apply Z. rewrite <- Nat.negb_even in *. rewrite even_mod in *. apply negb_true_iff. apply negb_false_iff in O1. lia. }
      assert (Y : v * B j * (v * B k) = 0) by (destruct X as [-> | ->]; ring). rewrite Y, Rmult_0_l. apply (is_RInt_ext (fun _ => 0)); [intros; match goal with |- ?a = ?b => change (@eq R a b) end; ring|].
      apply (FTCr (fun _ => 0)); [ring|intros; apply @is_derive_const|intros; apply continuous_const].
Qed.

(** ** sums over ranges *)
Lemma range2_two q b : (q <= 1)%nat -> range2 q (b + 2) = range2 q b ++ [(q + 2 * ((b + 1 - q) / 2))%nat].
Proof. intros H. unfold range2. replace ((b + 2 + 1 - q) / 2)%nat with (S ((b + 1 - q) / 2)) by lia. rewrite seq_S, map_app. reflexivity. Qed.
Lemma suml_app xs ys f : suml (xs ++ ys) f = suml xs f + suml ys f.
Proof. induction xs as [|x xs IH]; [change (suml ys f = 0 + suml ys f); ring|]. change (suml ((x :: xs) ++ ys) f) with (f x + suml (xs ++ ys) f). change (suml (x :: xs) f) with (f x + suml xs f). rewrite IH. ring. Qed.
Lemma suml_range2 q b f : (q <= 1)%nat -> (forall j, (j mod 2 <> q)%nat -> f j = 0) -> suml (range2 q b) f = sumn b f.
Proof.
  intros H Z. induction b as [| |b IH _] using two_step.
  - unfold range2. replace ((0 + 1 - q) / 2)%nat with 0%nat by lia. reflexivity.
  - unfold range2. destruct q as [|q]; [cbn; ring|]. replace q with 0%nat in * by lia. cbn. rewrite Z by (cbn; lia). ring.
  - replace (S (S b)) with (b + 2)%nat at 1 by lia. rewrite range2_two, suml_app, IH by exact H. cbn [sumn suml fold_right].
    destruct (Nat.eq_dec (b mod 2) q) as [E|E].
    + rewrite (Z (S b)) by lia. replace (q + 2 * ((b + 1 - q) / 2))%nat with b by lia. ring.
    + rewrite (Z b) by lia. replace (q + 2 * ((b + 1 - q) / 2))%nat with (S b) by lia. ring.
Qed.

(** the true functions are orthogonal to the harmonics below their degree *)
Lemma Fc_top m k : (m <= 1)%nat -> (m <= k)%nat -> Fc m k k <> 0.
Proof.
  intros Hm Hk. assert (E : Nat.even (k + k) = true) by (rewrite even_mod; lia). pose proof (G_pos k k ltac:(lia) E) as P. pose proof (pos_INR k) as Pk. assert (0 < w0 k) by (unfold w0; destruct (k =? 0)%nat; lra). apply Rgt_not_eq.
  destruct m as [|[|m]]; [| |lia]; cbn [Fc]; repeat apply Rmult_lt_0_compat; try assumption; [apply sqrt_lt_R0; lra|apply K1_pos|apply lt_0_INR; lia].
Qed.
Lemma low_harmonics m l k : (m <= 1)%nat -> (m <= k < l)%nat -> is_RInt (fun t => NT l m t * tr m (INR k * t) * sin t) 0 PI 0.
Proof.
  intros Hm. induction k as [k IH] using lt_wf_ind. intros Hk.
  assert (C : forall t, tr m (INR k * t) = / Fc m k k * NT k m t + sumn k (fun j => - (Fc m k j / Fc m k k) * tr m (INR j * t))).
  { intros t. rewrite <- (Fc_series m k t) by lia. rewrite sumn_S. pose proof (Fc_top m k Hm ltac:(lia)) as Z.
    rewrite (sumn_ext k (fun j => - (Fc m k j / Fc m k k) * tr m (INR j * t)) (fun j => - / Fc m k k * (Fc m k j * tr m (INR j * t)))) by (intros; unfold Rdiv; ring). rewrite sumn_scal. field. exact Z. }
  apply (is_RInt_ext (fun t => / Fc m k k * (NT l m t * NT k m t * sin t) + 1 * sumn k (fun j => - (Fc m k j / Fc m k k) * (NT l m t * tr m (INR j * t) * sin t)))).
  - intros t _. match goal with |- ?a = ?b => change (@eq R a b) end. rewrite (C t). rewrite (sumn_ext k (fun j => - (Fc m k j / Fc m k k) * (NT l m t * tr m (INR j * t) * sin t)) (fun j => (NT l m t * sin t) * (- (Fc m k j / Fc m k k) * tr m (INR j * t)))) by (intros; ring). rewrite sumn_scal. ring.
  - assert (Z : / Fc m k k * ip l k m + 1 * sumn k (fun j => 0) = 0) by (rewrite sumn_zero, orthonormal by lia; replace (l =? k)%nat with false by lia; ring). rewrite <- Z at 2.
    apply int_lin; [apply ip_is|]. apply (is_RInt_sumn k (fun j t => - (Fc m k j / Fc m k k) * (NT l m t * tr m (INR j * t) * sin t)) (fun _ => 0)). intros j Hj.
    destruct (Nat.le_gt_cases m j) as [Hmj|Hmj]; [apply (int_scal _ _ _ _ 0); [apply IH; lia|ring]|].
    (* j = 0, m = 1: sin 0 = 0 *)
    assert (X : j = 0%nat /\ m = 1%nat) by lia. destruct X as [-> ->]. apply (is_RInt_ext (fun _ => 0)); [intros t _; match goal with |- ?a = ?b => change (@eq R a b) end; unfold tr; cbn [Nat.even INR]; rewrite Rmult_0_l, sin_0; ring|]. apply (FTCr (fun _ => 0)); [ring|intros; apply @is_derive_const|intros; apply continuous_const].
Qed.

Section Rows.
Context (lmax mmax : nat) (HL : Nat.even lmax = true) (HL4 : (4 <= lmax)%nat) (HM4 : (4 <= mmax)%nat) (HM : (mmax <= lmax + 1)%nat).
Definition Bd : nat := (2 * (mmax / 2))%nat.

(** the norm of a row proportional to the true coefficients is the factor *)
Lemma norm_ok q m l p v : (m <= 1)%nat -> (m <= l <= Bd)%nat -> (l mod 2 = q)%nat -> 0 < v -> (forall j, p l m j = v * Fc m l j) ->
  norm_of q lmax mmax m (sgn_of m) (2 * eps_m m) p l = v.
Proof.
  intros Hm Hl Hq Hv Hp. unfold norm_of. rewrite even_mod in HL. unfold Bd in Hl.
  assert (PZ : forall j, (j mod 2 <> q)%nat -> p l m j = 0). { intros j Hj. rewrite Hp, Fc_zero; [ring|]. right. rewrite <- Nat.negb_even, even_mod. lia. }
  assert (PB : forall j, (l < j)%nat -> p l m j = 0). { intros j Hj. rewrite Hp, Fc_zero; [ring|]. left. exact Hj. }
  assert (In1 : forall j, suml (cols_of q mmax) (fun k => p l m k * dtemp (sgn_of m) j k) = sumn (S l) (fun k => v * Fc m l k * dtemp (sgn_of m) j k)).
  { intros j. assert (Q : exists b, (S l <= b)%nat /\ cols_of q mmax = range2 q b).
    { unfold cols_of. destruct (q =? 0)%nat eqn:E; [exists (mmax + 1)%nat|exists mmax]; (split; [lia|]); f_equal; lia. }
    destruct Q as (b & Hb & ->). rewrite suml_range2; [|lia|intros k Hk; rewrite PZ by exact Hk; ring]. rewrite (sumn_cut (S l) b) by (try exact Hb; intros k Hk; rewrite PB by lia; ring). apply sumn_ext. intros k _. rewrite Hp. reflexivity. }
  assert (Out : suml (if (q =? 0)%nat then range2 0 (lmax + 2) else range2 1 (lmax + 1)) (fun j => p l m j * suml (cols_of q mmax) (fun k => p l m k * dtemp (sgn_of m) j k) / 2)
     = sumn (S l) (fun j => v * Fc m l j * sumn (S l) (fun k => v * Fc m l k * dtemp (sgn_of m) j k) / 2)).
  { assert (Q : exists b, (S l <= b)%nat /\ (if (q =? 0)%nat then range2 0 (lmax + 2) else range2 1 (lmax + 1)) = range2 q b).
    { destruct (q =? 0)%nat eqn:E; [exists (lmax + 2)%nat|exists (lmax + 1)%nat]; (split; [lia|]); f_equal; lia. }
    destruct Q as (b & Hb & ->). rewrite suml_range2; [|lia|intros k Hk; rewrite PZ by exact Hk; unfold Rdiv; ring]. rewrite (sumn_cut (S l) b) by (try exact Hb; intros k Hk; rewrite PB by lia; unfold Rdiv; ring). apply sumn_ext. intros j _. rewrite Hp, In1. reflexivity. }
  rewrite Out. pose proof (int_square m l v (Fc m l) (fun j H => Fc_zero m l j (or_intror H))) as I1.
  assert (I2 : is_RInt (fun t => sumn (S l) (fun j => v * Fc m l j * tr m (INR j * t)) * sumn (S l) (fun j => v * Fc m l j * tr m (INR j * t)) * sin t) 0 PI (v * v * (2 * eps_m m))).
  { apply (is_RInt_ext (fun t => (v * v) * (NT l m t * NT l m t * sin t))).
    - intros t _. match goal with |- ?a = ?b => change (@eq R a b) end. assert (X : sumn (S l) (fun j => v * Fc m l j * tr m (INR j * t)) = v * NT l m t) by (rewrite <- Fc_series by lia; rewrite <- sumn_scal; apply sumn_ext; intros; ring). rewrite X. ring.
    - apply (int_scal _ _ _ _ (ip l l m)); [apply ip_is|]. rewrite orthonormal, Nat.eqb_refl by lia. reflexivity. }
  rewrite (int_uniq _ _ _ _ _ I1 I2). pose proof (eps_pos m). replace (v * v * (2 * eps_m m) / (2 * eps_m m)) with (Rsqr v) by (unfold Rsqr; field; lra). apply sqrt_Rsqr. lra.
Qed.

(** with fewer columns than the degree, the norm is exactly zero *)
Lemma norm_truncated q m l p v s d : s = sgn_of m -> (m <= 1)%nat -> (m <= l)%nat -> (Bd < l <= lmax)%nat -> (l mod 2 = q)%nat -> (forall j, p l m j = v * Fc m l j) -> norm_of q lmax mmax m s d p l = 0.
Proof.
  intros -> Hm Hml Hl Hq Hp. unfold norm_of. rewrite even_mod in HL. unfold Bd in Hl.
  assert (PZ : forall j, (j mod 2 <> q)%nat -> p l m j = 0). { intros j Hj. rewrite Hp, Fc_zero; [ring|]. right. rewrite <- Nat.negb_even, even_mod. lia. }
  assert (PB : forall j, (l < j)%nat -> p l m j = 0). { intros j Hj. rewrite Hp, Fc_zero; [ring|]. left. exact Hj. }
  assert (Q : exists b, (b <= l)%nat /\ cols_of q mmax = range2 q b).
  { unfold cols_of. destruct (q =? 0)%nat eqn:E; [exists (mmax + 1)%nat|exists mmax]; (split; [lia|]); f_equal; lia. }
  destruct Q as (b & Hb & EB). assert (Q : exists c, (S l <= c)%nat /\ (if (q =? 0)%nat then range2 0 (lmax + 2) else range2 1 (lmax + 1)) = range2 q c).
  { destruct (q =? 0)%nat eqn:E; [exists (lmax + 2)%nat|exists (lmax + 1)%nat]; (split; [lia|]); f_equal; lia. }
  destruct Q as (c & Hc & EC). rewrite EB, EC.
  assert (In0 : forall k, (k < b)%nat -> (k mod 2 = q)%nat -> sumn (S l) (fun j => Fc m l j * dtemp (sgn_of m) j k / 2) = 0).
  { intros k Hk Hkq. destruct (Nat.le_gt_cases m k) as [Hmk|Hmk].
    - apply (int_uniq (fun t => NT l m t * tr m (INR k * t) * sin t) 0 PI); [|apply low_harmonics; lia].
      apply (is_RInt_ext (fun t => sumn (S l) (fun j => Fc m l j * (tr m (INR j * t) * tr m (INR k * t) * sin t)))).
      + intros t _. match goal with |- ?x = ?y => change (@eq R x y) end. rewrite <- Fc_series by lia. rewrite Rmult_assoc, (Rmult_comm (sumn _ _)), <- sumn_scal. apply sumn_ext. intros. ring.
      + apply is_RInt_sumn. intros j _. destruct (Nat.even (j + k)) eqn:EV.
        * apply (int_scal _ _ _ _ (dtemp (sgn_of m) j k / 2)); [apply int_pair; exact EV|field].
        * rewrite Fc_zero by (right; rewrite <- Nat.negb_even, even_mod; rewrite even_mod in EV; lia). apply (is_RInt_ext (fun _ => 0)); [intros; match goal with |- ?x = ?y => change (@eq R x y) end; ring|]. replace (0 * dtemp (sgn_of m) j k / 2) with 0 by (unfold Rdiv; ring). apply (FTCr (fun _ => 0)); [ring|intros; apply @is_derive_const|intros; apply continuous_const].
    - assert (X : k = 0%nat /\ m = 1%nat) by lia. destruct X as [-> ->]. apply sumn_all0. intros j Hj. unfold dtemp, sgn_of. cbn [Nat.even INR]. destruct (Nat.eq_dec j 1) as [->|N]; [rewrite Fc_zero by (right; rewrite <- Nat.negb_even, even_mod; lia); unfold Rdiv; ring|].
      assert (H1 : 1 - INR j <> 0) by (intros H1; apply N; apply INR_eq; cbn [INR]; lra). pose proof (pos_INR j). rewrite !Rminus_0_r, !Rplus_0_r. field. split; lra. }
  assert (OUT : suml (range2 q c) (fun j => p l m j * suml (range2 q b) (fun k => p l m k * dtemp (sgn_of m) j k) / 2) = 0); [|rewrite OUT; unfold Rdiv; rewrite Rmult_0_l; apply sqrt_0].
  rewrite suml_range2; [|lia|intros k Hk; rewrite PZ by exact Hk; unfold Rdiv; ring]. rewrite (sumn_cut (S l) c) by (try exact Hc; intros k Hk; rewrite PB by lia; unfold Rdiv; ring).
  rewrite (sumn_ext _ _ (fun j => sumn b (fun k => p l m k * v * (Fc m l j * dtemp (sgn_of m) j k / 2)))).
  - rewrite sumn_swap. apply sumn_all0. intros k Hk. rewrite sumn_scal. destruct (Nat.eq_dec (k mod 2) q) as [E|E]; [rewrite In0 by assumption; ring|rewrite PZ by exact E; ring].
  - intros j _. rewrite suml_range2; [|lia|intros k Hk; rewrite PZ by exact Hk; ring]. unfold Rdiv. rewrite Rmult_assoc, (Rmult_comm (sumn _ _)), <- Rmult_assoc, <- sumn_scal. apply sumn_ext. intros k _. rewrite (Hp j). ring.
Qed.

(** ** one row of the recursion over the columns *)
Lemma set_col_at q m j f p l m' j' : set_col q lmax m j f p l m' j' = if deg_row q lmax l && (m' =? m)%nat && (j' =? j)%nat then f l else p l m' j'.
Proof. reflexivity. Qed.
Lemma lam_den l j : Nat.even (l + j) = true -> lam l - (INR j + 2) * (INR j + 1) <> 0.
Proof.
  intros E. rewrite even_mod in E. unfold lam. replace (INR l * (INR l + 1) - (INR j + 2) * (INR j + 1)) with ((INR l - (INR j + 1)) * (INR l + INR j + 2)) by ring.
  pose proof (pos_INR l). pose proof (pos_INR j). apply Rmult_integral_contrapositive_currified; [|lra]. change 1 with (INR 1). rewrite <- plus_INR. intros H1. assert (INR l = INR (j + 1)) by lra. apply INR_eq in H2. lia.
Qed.
Lemma recur_ok q m c p (T : nat -> R) kap l : (q <= 1)%nat -> deg_row q lmax l = true ->
  (forall j, (2 <= j)%nat -> Nat.even (l + j) = true -> T (j + 2)%nat * (lam l - (INR j + 2) * (INR j + 1)) = 2 * (lam l - INR j ^ 2 - c) * T j + ((INR j - 2) * (INR j - 1) - lam l) * T (j - 2)%nat) ->
  p l m q = kap * T q -> p l m (q + 2)%nat = kap * T (q + 2)%nat ->
  forall j, (j <= lmax)%nat -> (j mod 2 = q)%nat -> recur q lmax m c p l m j = kap * T j.
Proof.
  intros Hq Hr HT H0 H2. unfold deg_row in Hr. apply andb_true_iff in Hr as Hr'. destruct Hr' as [R1 R2]. rewrite even_mod in HL.
  unfold recur. assert (EL : (if (q =? 0)%nat then range2 2 lmax else range2 3 (lmax - 1)) = map (fun i => (q + 2 + 2 * i)%nat) (seq 0 ((lmax - 2 - q) / 2))).
  { unfold range2. destruct (q =? 0)%nat eqn:E; [replace q with 0%nat by lia|replace q with 1%nat by lia]; cbn [Nat.add]; f_equal; f_equal; lia. }
  rewrite EL. clear EL. match goal with |- forall j, _ -> _ -> fold_left ?s _ _ _ _ _ = _ => set (step := s) end.
  assert (INV : forall n, let r := fold_left step (map (fun i => (q + 2 + 2 * i)%nat) (seq 0 n)) p in forall j, (j <= q + 2 + 2 * n)%nat -> (j mod 2 = q)%nat -> r l m j = kap * T j).
  { induction n as [|n IH]; intros r.
    - cbn [seq map fold_left] in r. intros j Hj Hm. assert (X : j = q \/ j = (q + 2)%nat) by lia. destruct X as [-> | ->]; assumption.
    - unfold r. rewrite seq_S, map_app, fold_left_app. cbn [map fold_left]. clear r. cbv zeta in IH. set (r := fold_left step (map (fun i => (q + 2 + 2 * i)%nat) (seq 0 n)) p) in *. intros j Hj Hm.
      unfold step. rewrite set_col_at. unfold deg_row. rewrite R1, R2, Nat.eqb_refl. cbn [andb]. destruct (Nat.eqb_spec j (q + 2 + 2 * (0 + n) + 2)) as [->|N]; [|apply IH; lia].
      cbn [Nat.add]. set (i := (q + 2 + 2 * n)%nat). assert (EV : Nat.even (l + i) = true) by (rewrite even_mod; unfold i; lia). rewrite (IH i), (IH (i - 2)%nat) by (unfold i; lia). pose proof (lam_den l i EV) as D.
      match goal with |- ?X / _ = _ => replace X with (kap * (T (i + 2)%nat * (lam l - (INR i + 2) * (INR i + 1)))) end; [field; exact D|].
      rewrite (HT i) by (exact EV || (unfold i; lia)). ring. }
  intros j Hj Hm. apply INV; lia.
Qed.
Lemma recur_frame q m c p l m' j : (q <= 1)%nat -> (deg_row q lmax l = false \/ m' <> m \/ (j mod 2 <> q)%nat \/ (j < q + 4)%nat \/ (lmax < j)%nat) -> recur q lmax m c p l m' j = p l m' j.
Proof.
  intros Hq Hc. unfold recur. rewrite even_mod in HL.
  assert (G : forall ls p, (forall i, In i ls -> (i mod 2 = q)%nat /\ (q + 2 <= i)%nat /\ (i + 2 <= lmax)%nat) -> fold_left (fun p j => set_col q lmax m (j + 2) (fun l => (2 * (lam l - INR j ^ 2 - c) * p l m j + ((INR j - 2) * (INR j - 1) - lam l) * p l m (j - 2)%nat) / (lam l - (INR j + 2) * (INR j + 1))) p) ls p l m' j = p l m' j).
  { induction ls as [|i ls IH]; intros p0 Hi; [reflexivity|]. cbn [fold_left]. rewrite IH by (intros; apply Hi; now right). rewrite set_col_at. destruct (Hi i (or_introl eq_refl)) as (A1 & A2 & A3).
    destruct (deg_row q lmax l) eqn:D; cbn [andb]; [|reflexivity]. destruct (m' =? m)%nat eqn:Em; cbn [andb]; [|reflexivity]. replace (j =? i + 2)%nat with false; [reflexivity|]. symmetry. apply Nat.eqb_neq. destruct Hc as [Hc|[Hc|[Hc|[Hc|Hc]]]]; [discriminate|lia|lia|lia|lia]. }
  apply G. intros i. unfold range2. destruct (q =? 0)%nat eqn:E; rewrite in_map_iff; intros (t & <- & Ht); apply in_seq in Ht; lia.
Qed.

(** ** the four starting blocks *)
Definition blank (p : tbl) (q m : nat) : Prop := forall l j, deg_row q lmax l = true -> p l m j = 0.
Lemma deg_row_even l : deg_row 0 lmax l = true -> Nat.even l = true.
Proof. unfold deg_row. rewrite even_mod. intros H. apply andb_true_iff in H. tauto. Qed.
Lemma even_l0 l : Nat.even l = true -> Nat.even (l + 0) = true. Proof. rewrite Nat.add_0_r. auto. Qed.
(** after the recursion, a row is a positive multiple of the true coefficients *)
Lemma block_ok q m s d (p : tbl) v l : s = sgn_of m -> d = 2 * eps_m m -> (m <= 1)%nat -> (m <= l <= Bd)%nat -> (q <= 1)%nat -> deg_row q lmax l = true -> 0 < v -> (forall j, p l m j = v * Fc m l j) ->
  forall j, normalise q lmax mmax m s d p l m j = Fc m l j.
Proof.
  intros -> -> Hm Hl Hq Hr Hv Hp j. unfold normalise, asg. rewrite Hr, Nat.eqb_refl. cbn [andb]. rewrite (norm_ok q m l p v); try assumption; [|unfold deg_row in Hr; lia]. rewrite Hp. field. lra.
Qed.
Lemma normalise_frame q m s d p l m' j : deg_row q lmax l = false \/ m' <> m -> normalise q lmax mmax m s d p l m' j = p l m' j.
Proof. intros H. unfold normalise, asg. destruct (deg_row q lmax l); cbn [andb]; [|reflexivity]. destruct (Nat.eqb_spec m' m); [|reflexivity]. destruct H as [H|H]; [discriminate|contradiction]. Qed.
Ltac cols := repeat (rewrite set_col_at); cbn [Nat.eqb andb].
Lemma sq_pos l : 0 < sqrt (2 * INR l + 1).
Proof. apply sqrt_lt_R0. pose proof (pos_INR l). lra. Qed.
Lemma rel0 l : G l 2 * (lam l - 2) = G l 0 * lam l.
Proof. pose proof (G_rel l 0) as H. cbn [Nat.add INR] in H. replace ((0 + 2) * (0 + 1)) with 2 in H by ring. replace (0 * (0 + 1)) with 0 in H by ring. rewrite Rminus_0_r in H. exact H. Qed.
Lemma rel1 l : G l 3 * (lam l - 6) = G l 1 * (lam l - 2).
Proof. pose proof (G_rel l 1) as H. cbn [Nat.add INR] in H. replace ((1 + 2) * (1 + 1)) with 6 in H by ring. replace (1 * (1 + 1)) with 2 in H by ring. exact H. Qed.
Lemma den0 l : Nat.even l = true -> lam l - 2 <> 0.
Proof. intros H. pose proof (lam_den l 0 (even_l0 l H)) as D. cbn [INR] in D. replace ((0 + 2) * (0 + 1)) with 2 in D by ring. exact D. Qed.
Lemma den1 l : Nat.even (l + 1) = true -> lam l - 6 <> 0.
Proof. intros H. pose proof (lam_den l 1 H) as D. cbn [INR] in D. replace ((1 + 2) * (1 + 1)) with 6 in D by ring. exact D. Qed.

Lemma zonal_even_pre p l : blank p 0 0 -> deg_row 0 lmax l = true -> exists p4 v, 0 < v /\ (forall l, zonal_even lmax mmax p l = normalise 0 lmax mmax 0 1 2 p4 l) /\ forall j, p4 l 0%nat j = v * Fc 0 l j.
Proof.
  intros Bl Hr. unfold zonal_even. cbv zeta. set (p1 := set_col 0 lmax 0 0 (fun _ => 1) p). set (p2 := set_col 0 lmax 0 2 _ p1). set (p3 := recur 0 lmax 0 0 p2). set (p4 := set_col 0 lmax 0 0 _ p3).
  pose proof (deg_row_even l Hr) as EV. pose proof (G_pos l 0 ltac:(lia) (even_l0 l EV)) as P0. pose proof (sq_pos l) as PS.
  assert (E1 : p1 l 0%nat 0%nat = 1) by (unfold p1; cols; rewrite Hr; reflexivity).
  assert (E20 : p2 l 0%nat 0%nat = / G l 0 * G l 0) by (unfold p2; cols; rewrite Hr, E1; cbn [andb]; field; lra).
  assert (E22 : p2 l 0%nat (0 + 2)%nat = / G l 0 * G l (0 + 2)). { unfold p2. cols. rewrite Hr. cbn [andb Nat.add Nat.eqb]. rewrite E1, Rmult_1_r. pose proof (rel0 l) as R0. pose proof (den0 l EV) as D. apply Rmult_eq_reg_r with (lam l - 2); [|exact D]. rewrite Rmult_assoc, R0. field. lra. }
  assert (E3 : forall j, p3 l 0%nat j = / G l 0 * G l j).
  { intros i. destruct (Nat.eq_dec (i mod 2) 0) as [M|M]; [destruct (Nat.le_gt_cases i lmax) as [Hi|Hi]|].
    - unfold p3. apply (recur_ok 0 0 0 p2 (G l) (/ G l 0) l); try assumption; [lia|]. intros k Hk _. apply G_three. exact Hk.
    - unfold p3. rewrite recur_frame by lia. unfold p2, p1. cols. replace (i =? 2)%nat with false by lia. replace (i =? 0)%nat with false by lia. rewrite !andb_false_r, (Bl l i Hr), (G_zero l i); [cbv iota; ring|]. left. unfold deg_row in Hr. lia.
    - unfold p3. rewrite recur_frame by lia. unfold p2, p1. cols. replace (i =? 2)%nat with false by lia. replace (i =? 0)%nat with false by lia. rewrite !andb_false_r, (Bl l i Hr), (G_zero l i); [cbv iota; ring|]. right. rewrite <- Nat.negb_even. rewrite even_mod in *. lia. }
  exists p4, (/ (2 * G l 0 * sqrt (2 * INR l + 1))). split; [|split; [reflexivity|]].
  - apply Rinv_0_lt_compat. apply Rmult_lt_0_compat; lra.
  - intros i. unfold p4. cols. rewrite Hr. cbn [andb]. rewrite !E3. cbn [Fc]. unfold w0. destruct (Nat.eqb_spec i 0) as [->|N]; field; lra.
Qed.
Lemma zonal_even_ok p : blank p 0 0 -> (forall l j, deg_row 0 lmax l = true -> (l <= Bd)%nat -> zonal_even lmax mmax p l 0%nat j = Fc 0 l j) /\
  (forall l m j, deg_row 0 lmax l = false \/ m <> 0%nat -> zonal_even lmax mmax p l m j = p l m j).
Proof.
  intros Bl. split.
  - intros l j Hr Hl. destruct (zonal_even_pre p l Bl Hr) as (p4 & v & Pv & E & E4). rewrite E.
    apply (block_ok 0 0 1 2 p4 v); try assumption; try lia; [reflexivity|unfold eps_m; cbn; ring].
  - intros l m j H. unfold zonal_even. cbv zeta. rewrite normalise_frame by exact H. cols. assert (X : deg_row 0 lmax l && (m =? 0)%nat = false) by (destruct H as [-> |H]; [reflexivity|]; apply andb_false_iff; right; lia). rewrite X. cbn [andb].
    rewrite recur_frame by (try lia; tauto). cols. rewrite X. reflexivity.
Qed.
Lemma odd_facts l : deg_row 1 lmax l = true -> (1 <= l)%nat /\ Nat.even (l + 1) = true /\ (l mod 2 = 1)%nat /\ (l <= lmax)%nat.
Proof. unfold deg_row. rewrite even_mod. intros H. repeat split; lia. Qed.
Lemma zonal_odd_ok p : blank p 1 0 -> (forall l j, deg_row 1 lmax l = true -> (l <= Bd)%nat -> zonal_odd lmax mmax p l 0%nat j = Fc 0 l j) /\
  (forall l m j, deg_row 1 lmax l = false \/ m <> 0%nat -> zonal_odd lmax mmax p l m j = p l m j).
Proof.
  intros Bl. split.
  - intros l j Hr Hl. unfold zonal_odd. cbv zeta. set (p1 := set_col 1 lmax 0 1 (fun _ => 1) p). set (p2 := set_col 1 lmax 0 3 _ p1). set (p3 := recur 1 lmax 0 0 p2).
    destruct (odd_facts l Hr) as (L1 & EV & LM & LL). pose proof (G_pos l 1 L1 EV) as P0. pose proof (sq_pos l) as PS.
    assert (E1 : p1 l 0%nat 1%nat = 1) by (unfold p1; cols; rewrite Hr; reflexivity).
    assert (E20 : p2 l 0%nat 1%nat = / G l 1 * G l 1) by (unfold p2; cols; rewrite Hr, E1; cbn [andb]; field; lra).
    assert (E22 : p2 l 0%nat (1 + 2)%nat = / G l 1 * G l (1 + 2)). { unfold p2. cols. rewrite Hr. cbn [andb Nat.add Nat.eqb]. rewrite E1, Rmult_1_r. pose proof (rel1 l) as R0. pose proof (den1 l EV) as D. apply Rmult_eq_reg_r with (lam l - 6); [|exact D]. rewrite Rmult_assoc, R0. field. lra. }
    assert (E3 : forall j, p3 l 0%nat j = / G l 1 * G l j).
    { intros i. destruct (Nat.eq_dec (i mod 2) 1) as [M|M]; [destruct (Nat.le_gt_cases i lmax) as [Hi|Hi]|].
      - unfold p3. apply (recur_ok 1 0 0 p2 (G l) (/ G l 1) l); try assumption; [lia|]. intros k Hk _. apply G_three. exact Hk.
      - unfold p3. rewrite recur_frame by lia. unfold p2, p1. cols. replace (i =? 3)%nat with false by lia. replace (i =? 1)%nat with false by lia. rewrite !andb_false_r, (Bl l i Hr), (G_zero l i); [cbv iota; ring|]. left. lia.
      - unfold p3. rewrite recur_frame by lia. unfold p2, p1. cols. replace (i =? 3)%nat with false by lia. replace (i =? 1)%nat with false by lia. rewrite !andb_false_r, (Bl l i Hr), (G_zero l i); [cbv iota; ring|]. right. rewrite <- Nat.negb_even. rewrite even_mod in *. lia. }
    assert (E4 : forall j, p3 l 0%nat j = (/ (2 * G l 1 * sqrt (2 * INR l + 1))) * Fc 0 l j).
    { intros i. rewrite !E3. cbn [Fc]. unfold w0. destruct (Nat.eqb_spec i 0) as [->|N]; [|field; lra]. rewrite (G_zero l 0); [field; lra|]. right. rewrite <- Nat.negb_even. rewrite even_mod in *. lia. }
    apply (block_ok 1 0 1 2 p3 (/ (2 * G l 1 * sqrt (2 * INR l + 1)))); try assumption; try lia; [reflexivity|unfold eps_m; cbn; ring|]. apply Rinv_0_lt_compat. apply Rmult_lt_0_compat; lra.
  - intros l m j H. unfold zonal_odd. cbv zeta. rewrite normalise_frame by exact H. assert (X : deg_row 1 lmax l && (m =? 0)%nat = false) by (destruct H as [-> |H]; [reflexivity|]; apply andb_false_iff; right; lia).
    rewrite recur_frame by (try lia; tauto). cols. rewrite X. reflexivity.
Qed.
Lemma one_even_ok p : blank p 0 1 -> (forall l j, deg_row 0 lmax l = true -> (1 <= l <= Bd)%nat -> one_even lmax mmax p l 1%nat j = Fc 1 l j) /\
  (forall l m j, deg_row 0 lmax l = false \/ m <> 1%nat -> one_even lmax mmax p l m j = p l m j).
Proof.
  intros Bl. split.
  - intros l j Hr Hl. unfold one_even. cbv zeta. set (p1 := set_col 0 lmax 1 0 (fun _ => 0) p). set (p2 := set_col 0 lmax 1 2 _ p1). set (p3 := recur 0 lmax 1 2 p2).
    pose proof (deg_row_even l Hr) as EV. assert (E2 : Nat.even (l + 2) = true) by (rewrite even_mod in *; lia). assert (L2 : (2 <= l)%nat) by (rewrite even_mod in *; lia). pose proof (G_pos l 2 L2 E2) as P0. pose proof (K1_pos l) as PS.
    assert (E20 : p2 l 1%nat 0%nat = / (2 * G l 2) * (INR 0 * G l 0)) by (unfold p2, p1; cols; rewrite Hr; cbn [andb INR]; ring).
    assert (E22 : p2 l 1%nat (0 + 2)%nat = / (2 * G l 2) * (INR (0 + 2) * G l (0 + 2))). { unfold p2. cols. rewrite Hr. cbn [andb Nat.add Nat.eqb]. change (INR 2) with 2. field. lra. }
    assert (E3 : forall j, p3 l 1%nat j = / (2 * G l 2) * (INR j * G l j)).
    { intros i. destruct (Nat.eq_dec (i mod 2) 0) as [M|M]; [destruct (Nat.le_gt_cases i lmax) as [Hi|Hi]|].
      - unfold p3. apply (recur_ok 0 1 2 p2 (fun j => INR j * G l j) (/ (2 * G l 2)) l); try assumption; [lia|]. intros k Hk _. apply jG_three. exact Hk.
      - unfold p3. rewrite recur_frame by lia. unfold p2, p1. cols. replace (i =? 2)%nat with false by lia. replace (i =? 0)%nat with false by lia. rewrite !andb_false_r, (Bl l i Hr), (G_zero l i); [cbv iota; ring|]. left. unfold deg_row in Hr. lia.
      - unfold p3. rewrite recur_frame by lia. unfold p2, p1. cols. replace (i =? 2)%nat with false by lia. replace (i =? 0)%nat with false by lia. rewrite !andb_false_r, (Bl l i Hr), (G_zero l i); [cbv iota; ring|]. right. rewrite <- Nat.negb_even. rewrite even_mod in *. lia. }
    assert (E4 : forall j, p3 l 1%nat j = (/ (4 * G l 2 * K1 l)) * Fc 1 l j).
    { intros i. rewrite !E3. cbn [Fc]. unfold w0. destruct (Nat.eqb_spec i 0) as [->|N]; [cbn [INR]; ring|field; lra]. }
    apply (block_ok 0 1 (-1) 4 p3 (/ (4 * G l 2 * K1 l))); try assumption; try lia; [reflexivity|unfold eps_m; cbn; ring|]. apply Rinv_0_lt_compat. apply Rmult_lt_0_compat; lra.
  - intros l m j H. unfold one_even. cbv zeta. rewrite normalise_frame by exact H. assert (X : deg_row 0 lmax l && (m =? 1)%nat = false) by (destruct H as [-> |H]; [reflexivity|]; apply andb_false_iff; right; lia).
    rewrite recur_frame by (try lia; tauto). cols. rewrite X. reflexivity.
Qed.
Lemma one_odd_ok p : blank p 1 1 -> (forall l j, deg_row 1 lmax l = true -> (l <= Bd)%nat -> one_odd lmax mmax p l 1%nat j = Fc 1 l j) /\
  (forall l m j, deg_row 1 lmax l = false \/ m <> 1%nat -> one_odd lmax mmax p l m j = p l m j).
Proof.
  intros Bl. split.
  - intros l j Hr Hl. unfold one_odd. cbv zeta. set (p1 := set_col 1 lmax 1 1 (fun _ => 1) p). set (p2 := set_col 1 lmax 1 3 _ p1). set (p3 := recur 1 lmax 1 2 p2).
    destruct (odd_facts l Hr) as (L1 & EV & LM & LL). pose proof (G_pos l 1 L1 EV) as P0. pose proof (K1_pos l) as PS.
    assert (E1 : p1 l 1%nat 1%nat = 1) by (unfold p1; cols; rewrite Hr; reflexivity).
    assert (E20 : p2 l 1%nat 1%nat = / G l 1 * (INR 1 * G l 1)) by (unfold p2; cols; rewrite Hr, E1; cbn [andb INR]; field; lra).
    assert (E22 : p2 l 1%nat (1 + 2)%nat = / G l 1 * (INR (1 + 2) * G l (1 + 2))). { unfold p2. cols. rewrite Hr. cbn [andb Nat.add Nat.eqb]. rewrite E1, Rmult_1_r. pose proof (rel1 l) as R0. pose proof (den1 l EV) as D. replace (INR 3) with 3 by (cbn; ring). apply Rmult_eq_reg_r with (lam l - 6); [|exact D]. rewrite !Rmult_assoc, R0. field. lra. }
    assert (E3 : forall j, p3 l 1%nat j = / G l 1 * (INR j * G l j)).
    { intros i. destruct (Nat.eq_dec (i mod 2) 1) as [M|M]; [destruct (Nat.le_gt_cases i lmax) as [Hi|Hi]|].
      - unfold p3. apply (recur_ok 1 1 2 p2 (fun j => INR j * G l j) (/ G l 1) l); try assumption; [lia|]. intros k Hk _. apply jG_three. exact Hk.
      - unfold p3. rewrite recur_frame by lia. unfold p2, p1. cols. replace (i =? 3)%nat with false by lia. replace (i =? 1)%nat with false by lia. rewrite !andb_false_r, (Bl l i Hr), (G_zero l i); [cbv iota; ring|]. left. lia.
      - unfold p3. rewrite recur_frame by lia. unfold p2, p1. cols. replace (i =? 3)%nat with false by lia. replace (i =? 1)%nat with false by lia. rewrite !andb_false_r, (Bl l i Hr), (G_zero l i); [cbv iota; ring|]. right. rewrite <- Nat.negb_even. rewrite even_mod in *. lia. }
    assert (E4 : forall j, p3 l 1%nat j = (/ (2 * G l 1 * K1 l)) * Fc 1 l j).
    { intros i. rewrite !E3. cbn [Fc]. unfold w0. destruct (Nat.eqb_spec i 0) as [->|N]; [cbn [INR]; ring|field; lra]. }
    apply (block_ok 1 1 (-1) 4 p3 (/ (2 * G l 1 * K1 l))); try assumption; try lia; [reflexivity|unfold eps_m; cbn; ring|]. apply Rinv_0_lt_compat. apply Rmult_lt_0_compat; lra.
  - intros l m j H. unfold one_odd. cbv zeta. rewrite normalise_frame by exact H. assert (X : deg_row 1 lmax l && (m =? 1)%nat = false) by (destruct H as [-> |H]; [reflexivity|]; apply andb_false_iff; right; lia).
    rewrite recur_frame by (try lia; tauto). cols. rewrite X. reflexivity.
Qed.

(** ** raising the order *)
Definition dom (m l : nat) : Prop := (m <= l <= Bd)%nat.
Definition good (p : tbl) (m : nat) : Prop := forall l j, dom m l -> p l m j = Fc m l j.
Lemma up_at q h m p l l' m' j : h = hof m -> up q mmax h m p l l' m' j =
  if (l' =? l + 2)%nat && (m' =? m + 2)%nat && in_cols q mmax j then upf l m (p l m j) (p (l + 2)%nat m j) (p l (m + 2)%nat j) else p l' m' j.
Proof. intros ->. reflexivity. Qed.
Lemma upf_zero l m a b c c' : (m <= l < m + 2)%nat -> upf l m a b c = upf l m a b c'.
Proof.
  intros H. unfold upf. cbv zeta. replace (sqrt ((INR l - INR m) * (INR l - INR m - 1) / (2 * INR l + 1) / hof m)) with 0; [unfold Rdiv; ring|].
  replace ((INR l - INR m) * (INR l - INR m - 1)) with 0; [unfold Rdiv; rewrite !Rmult_0_l; symmetry; apply sqrt_0|]. assert (Hc : l = m \/ l = (m + 1)%nat) by lia. destruct Hc as [-> | ->]; [ring|]. rewrite plus_INR. change (INR 1) with 1. ring.
Qed.
Lemma pass_ok q h m a s n p : h = hof m -> (forall l j, dom m l -> in_cols q mmax j = true -> p l m j = Fc m l j) ->
  (forall i, (i < n)%nat -> let l := (a + s * i)%nat in (m <= l)%nat /\ ((l < m + 2)%nat \/ (exists i', (i' < i)%nat /\ l = (a + s * i' + 2)%nat) \/
     (forall j, in_cols q mmax j = true -> p l (m + 2)%nat j = Fc (m + 2) l j))) ->
  (forall i i', (i < n)%nat -> (i' < n)%nat -> (a + s * i = a + s * i')%nat -> i = i') ->
  let r := fold_left (up q mmax h m) (map (fun i => (a + s * i)%nat) (seq 0 n)) p in
  (forall i j, (i < n)%nat -> (a + s * i + 2 <= Bd)%nat -> in_cols q mmax j = true -> r (a + s * i + 2)%nat (m + 2)%nat j = Fc (m + 2) (a + s * i + 2) j) /\
  (forall l m' j, m' <> (m + 2)%nat \/ in_cols q mmax j = false \/ (forall i, (i < n)%nat -> l <> (a + s * i + 2)%nat) -> r l m' j = p l m' j).
Proof.
  intros Hh Hp. induction n as [|n IH]; intros H2 Inj r.
  - split; [intros; lia|]. intros; reflexivity.
  - unfold r. rewrite seq_S, map_app, fold_left_app. cbn [map fold_left]. clear r. cbn [Nat.add]. set (r := fold_left (up q mmax h m) (map (fun i => (a + s * i)%nat) (seq 0 n)) p) in *.
    destruct IH as [I1 I2]; [intros; apply H2; lia|intros; apply Inj; lia|]. set (l0 := (a + s * n)%nat). split.
    + intros i j Hi HB Hc. rewrite up_at by exact Hh. destruct (Nat.eq_dec i n) as [->|N].
      * fold l0. fold l0 in HB. rewrite !Nat.eqb_refl, Hc. cbn [andb]. destruct (H2 n ltac:(lia)) as [HA HB2]. fold l0 in HA, HB2. rewrite Fc_SS.
        rewrite (I2 l0 m j), (I2 (l0 + 2)%nat m j) by (left; lia). rewrite !Hp by (unfold dom; lia || assumption).
        destruct HB2 as [HB2|[(i' & Hi' & E)|HB2]]; [apply upf_zero; lia| |].
        -- rewrite E. rewrite I1 by (lia || assumption). reflexivity.
        -- destruct (Nat.le_gt_cases (m + 2) l0) as [Hl|Hl]; [|apply upf_zero; lia].
           destruct (in_dec Nat.eq_dec l0 (map (fun i => (a + s * i + 2)%nat) (seq 0 n))) as [Y|Y].
           ++ apply in_map_iff in Y as (i' & E & Hi'). apply in_seq in Hi'. rewrite <- E. rewrite I1 by (lia || assumption). reflexivity.
           ++ rewrite I2 by (right; right; intros i' Hi' E; apply Y; apply in_map_iff; exists i'; split; [lia|apply in_seq; lia]). rewrite HB2 by exact Hc. reflexivity.
      * replace (a + s * i + 2 =? l0 + 2)%nat with false by (symmetry; apply Nat.eqb_neq; intros E; apply N; apply Inj; unfold l0 in E; lia). cbn [andb]. apply I1; [lia|exact HB|exact Hc].
    + intros l m' j H. rewrite up_at by exact Hh. destruct ((l =? l0 + 2) && (m' =? m + 2) && in_cols q mmax j)%nat eqn:E.
      * exfalso. apply andb_true_iff in E as [E E3]. apply andb_true_iff in E as [E1 E2]. apply Nat.eqb_eq in E1, E2. destruct H as [H|[H|H]]; [lia|congruence|]. apply (H n); [lia|]. unfold l0 in E1. lia.
      * apply I2. destruct H as [H|[H|H]]; [now left|now (right; left)|]. right. right. intros i Hi. apply H. lia.
Qed.
(** a row complete on the columns of its own parity is complete *)
Lemma in_cols_ok l j : (l <= Bd)%nat -> (j <= l)%nat -> (j mod 2 = l mod 2)%nat -> in_cols (l mod 2) mmax j = true.
Proof. unfold Bd, in_cols. intros. apply andb_true_iff. lia. Qed.
Lemma Fc_off m l j : in_cols (l mod 2) mmax j = false -> (l <= Bd)%nat -> Fc m l j = 0.
Proof.
  intros H B. destruct (Nat.eq_dec (j mod 2) (l mod 2)) as [E|E].
  - apply Fc_zero. left. destruct (Nat.le_gt_cases j l) as [C|C]; [|exact C]. rewrite (in_cols_ok l j) in H by assumption. discriminate.
  - apply Fc_zero. right. rewrite <- Nat.negb_even, even_mod. lia.
Qed.
Lemma seq_range1 a b : range1 a b = map (fun i => (a + 1 * i)%nat) (seq 0 (b - a)).
Proof. unfold range1. generalize (b - a)%nat. intros n. induction n as [|n IH]; [reflexivity|]. rewrite !seq_S, map_app, IH. cbn [map Nat.add]. do 2 f_equal. lia. Qed.

Lemma orders_two_ok p : good p 0 -> (forall l j, p l 2%nat j = 0) -> good (orders_two lmax mmax p) 2 /\ (forall l m j, m <> 2%nat -> orders_two lmax mmax p l m j = p l m j).
Proof.
  intros G0 Z. pose proof HL as HL'. rewrite even_mod in HL'. unfold orders_two. cbv zeta. rewrite !seq_range1.
  destruct (pass_ok 0 2 0 0 1 (lmax - 1 - 0) p) as [A1 A2]; [reflexivity|intros; apply G0; assumption| |intros; lia|].
  { intros i Hi. cbv zeta. split; [lia|]. destruct (Nat.lt_ge_cases i 2); [left; lia|]. right. left. exists (i - 2)%nat. lia. }
  set (r1 := fold_left (up 0 mmax 2 0) _ p) in *.
  destruct (pass_ok 1 2 0 1 1 (lmax - 1 - 1) r1) as [B1 B2]; [reflexivity|intros l j H _; rewrite A2 by (left; lia); apply G0; assumption| |intros; lia|].
  { intros i Hi. cbv zeta. split; [lia|]. destruct (Nat.eq_dec i 0); [left; lia|]. destruct (Nat.eq_dec i 1) as [->|]; [|right; left; exists (i - 2)%nat; lia].
    right. right. intros j Hj. unfold in_cols in Hj. rewrite A2 by (right; left; unfold in_cols; lia). cbn [Nat.add Nat.mul]. rewrite Z. symmetry. apply Fc_zero. right. rewrite <- Nat.negb_even, even_mod. lia. }
  set (r2 := fold_left (up 1 mmax 2 0) _ r1) in *. change (0 + 2)%nat with 2%nat in *. split.
  - intros l j Hd. unfold dom in Hd. assert (Hl : (l <= lmax)%nat) by (unfold Bd in Hd; lia).
    destruct (Nat.eq_dec (l mod 2) 0) as [P|P].
    + destruct (in_cols 0 mmax j) eqn:C.
      * rewrite B2 by (right; left; unfold in_cols in *; lia). replace l with (0 + 1 * (l - 2) + 2)%nat by lia. apply A1; [lia|lia|exact C].
      * rewrite (Fc_off 2 l j) by (rewrite ?P; lia || assumption). destruct (in_cols 1 mmax j) eqn:C1.
        -- destruct (Nat.eq_dec l 2) as [->|N]; [rewrite B2 by (right; right; intros; lia); rewrite A2 by (right; left; exact C); apply Z|]. replace l with (1 + 1 * (l - 3) + 2)%nat by lia.  rewrite B1 by (lia || assumption). apply Fc_zero. right. rewrite <- Nat.negb_even, even_mod. unfold in_cols in C1. lia.
        -- rewrite B2 by (right; left; exact C1). rewrite A2 by (right; left; exact C). apply Z.
    + destruct (in_cols 1 mmax j) eqn:C.
      * replace l with (1 + 1 * (l - 3) + 2)%nat by lia.  apply B1; [lia|lia|exact C].
      * rewrite (Fc_off 2 l j) by (replace (l mod 2)%nat with 1%nat by lia; lia || assumption). rewrite B2 by (right; left; exact C). destruct (in_cols 0 mmax j) eqn:C1.
        -- replace l with (0 + 1 * (l - 2) + 2)%nat by lia.  rewrite A1 by (lia || assumption). apply Fc_zero. right. rewrite <- Nat.negb_even, even_mod. unfold in_cols in C1. lia.
        -- rewrite A2 by (right; left; exact C1). apply Z.
  - intros l m j Hm. rewrite B2, A2 by (left; lia). reflexivity.
Qed.
(** one pass of the outer loops: both parities of the degree *)
Lemma order_step m p : (1 <= m)%nat -> good p m -> (forall l j, p l (m + 2)%nat j = 0) -> forall be bo, (be = lmax \/ be = lmax - 1)%nat -> (bo = lmax - 1)%nat ->
  let ae := (if Nat.even m then m else m + 1)%nat in let ao := (if Nat.even m then m + 1 else m)%nat in
  let r := fold_left (up 1 mmax 1 m) (range2 ao bo) (fold_left (up 0 mmax 1 m) (range2 ae be) p) in
  good r (m + 2) /\ (forall l m' j, m' <> (m + 2)%nat -> r l m' j = p l m' j).
Proof.
  intros Hm Gm Z be bo Hbe Hbo ae ao r. pose proof HL as HL'. rewrite even_mod in HL'. assert (HH : 1 = hof m) by (unfold hof; replace (m =? 0)%nat with false by lia; reflexivity).
  assert (AE : (ae mod 2 = 0)%nat /\ (m <= ae < m + 2)%nat) by (unfold ae; destruct (Nat.even m) eqn:E; rewrite even_mod in E; lia). assert (AO : (ao mod 2 = 1)%nat /\ (m <= ao < m + 2)%nat) by (unfold ao; destruct (Nat.even m) eqn:E; rewrite even_mod in E; lia). clearbody ae ao.
  unfold r, range2. clear r. set (ne := ((be + 1 - ae) / 2)%nat). set (no := ((bo + 1 - ao) / 2)%nat).
  destruct (pass_ok 0 1 m ae 2 ne p) as [A1 A2]; [exact HH|intros; apply Gm; assumption| |intros; lia|].
  { intros i Hi. cbv zeta. split; [lia|]. destruct i as [|i]; [left; lia|]. right. left. exists i. lia. }
  set (r1 := fold_left (up 0 mmax 1 m) _ p) in *.
  destruct (pass_ok 1 1 m ao 2 no r1) as [B1 B2]; [exact HH|intros l j H _; rewrite A2 by (left; lia); apply Gm; assumption| |intros; lia|].
  { intros i Hi. cbv zeta. split; [lia|]. destruct i as [|i]; [left; lia|]. right. left. exists i. lia. }
  set (r2 := fold_left (up 1 mmax 1 m) _ r1) in *. split.
  - intros l j Hd. unfold dom in Hd. assert (Hl : (l <= lmax)%nat) by (unfold Bd in Hd; lia).
    destruct (Nat.eq_dec (l mod 2) 0) as [P|P].
    + rewrite B2 by (right; right; intros; lia). destruct (in_cols 0 mmax j) eqn:C.
      * replace l with (ae + 2 * ((l - 2 - ae) / 2) + 2)%nat by lia. apply A1; [unfold ne; lia|lia|exact C].
      * rewrite (Fc_off (m + 2) l j) by (rewrite ?P; lia || assumption). rewrite A2 by (right; left; exact C). apply Z.
    + destruct (in_cols 1 mmax j) eqn:C.
      * replace l with (ao + 2 * ((l - 2 - ao) / 2) + 2)%nat by lia. apply B1; [unfold no; lia|lia|exact C].
      * rewrite (Fc_off (m + 2) l j) by (replace (l mod 2)%nat with 1%nat by lia; lia || assumption). rewrite B2 by (right; left; exact C). rewrite A2 by (right; right; intros; lia). apply Z.
  - intros l m' j H. rewrite B2, A2 by (left; lia). reflexivity.
Qed.
Lemma orders_even_ok p : good p 2 -> (forall l m j, (4 <= m)%nat -> Nat.even m = true -> p l m j = 0) ->
  let r := orders_even lmax mmax p in (forall m, Nat.even m = true -> (2 <= m <= lmax)%nat -> good r m) /\ (forall l m j, Nat.even m = false \/ (m <= 2)%nat -> r l m j = p l m j).
Proof.
  intros G2 Z r. pose proof HL as HL'. rewrite even_mod in HL'. assert (ER : range2 2 lmax = map (fun i => (2 + 2 * i)%nat) (seq 0 (lmax / 2 - 1))) by (unfold range2; f_equal; f_equal; lia). unfold r, orders_even. clear r. rewrite ER.
  match goal with |- context [fold_left ?s _ p] => set (step := s) end.
  assert (INV : forall n, (n <= lmax / 2 - 1)%nat -> let r := fold_left step (map (fun i => (2 + 2 * i)%nat) (seq 0 n)) p in
    (forall m, Nat.even m = true -> (2 <= m <= 2 + 2 * n)%nat -> good r m) /\ (forall l m j, Nat.even m = false \/ (m <= 2)%nat \/ (2 + 2 * n < m)%nat -> r l m j = p l m j)).
  { induction n as [|n IH]; intros Hn r.
    - split; [|intros; reflexivity]. intros m _ Hm. replace m with 2%nat by lia. exact G2.
    - unfold r. rewrite seq_S, map_app, fold_left_app. cbn [map fold_left]. clear r. destruct IH as [I1 I2]; [lia|]. set (r := fold_left step (map (fun i => (2 + 2 * i)%nat) (seq 0 n)) p) in *. set (m0 := (2 + 2 * (0 + n))%nat).
      assert (E0 : Nat.even m0 = true) by (rewrite even_mod; unfold m0; lia). assert (E2 : Nat.even (m0 + 2) = true) by (rewrite even_mod; unfold m0; lia).
      assert (ZZ : forall l j, r l (m0 + 2)%nat j = 0) by (intros l j; rewrite I2 by (right; right; unfold m0; lia); apply Z; [unfold m0; lia|exact E2]).
      destruct (order_step m0 r ltac:(unfold m0; lia) (I1 m0 E0 ltac:(unfold m0; lia)) ZZ lmax (lmax - 1)%nat (or_introl eq_refl) eq_refl) as [S1 S2]. rewrite E0 in S1, S2.
      change (step r m0) with (fold_left (up 1 mmax 1 m0) (range2 (m0 + 1) (lmax - 1)) (fold_left (up 0 mmax 1 m0) (range2 m0 lmax) r)). split.
      + intros m Em Hm. destruct (Nat.eq_dec m (m0 + 2)) as [->|N]; [exact S1|]. intros l j Hd. rewrite S2 by exact N. apply I1; [exact Em|rewrite even_mod in Em; unfold m0 in *; lia|exact Hd].
      + intros l m j H. rewrite S2 by (intros ->; destruct H as [H|[H|H]]; [congruence|unfold m0 in H; lia|unfold m0 in H; lia]). apply I2. destruct H as [H|[H|H]]; [now left|now (right; left)|]. right. right. lia. }
  destruct (INV (lmax / 2 - 1)%nat ltac:(lia)) as [I1 I2]. split.
  - intros m Em Hm. apply I1; [exact Em|lia].
  - intros l m j H. apply I2. tauto.
Qed.
Lemma orders_odd_ok p : good p 1 -> (forall l m j, (3 <= m)%nat -> Nat.even m = false -> p l m j = 0) ->
  let r := orders_odd lmax mmax p in (forall m, Nat.even m = false -> (m < lmax)%nat -> good r m) /\ (forall l m j, Nat.even m = true -> r l m j = p l m j).
Proof.
  intros G2 Z r. pose proof HL as HL'. rewrite even_mod in HL'. assert (ER : range2 1 (lmax - 1) = map (fun i => (1 + 2 * i)%nat) (seq 0 (lmax / 2 - 1))) by (unfold range2; f_equal; f_equal; lia). unfold r, orders_odd. clear r. rewrite ER.
  match goal with |- context [fold_left ?s _ p] => set (step := s) end.
  assert (INV : forall n, (n <= lmax / 2 - 1)%nat -> let r := fold_left step (map (fun i => (1 + 2 * i)%nat) (seq 0 n)) p in
    (forall m, Nat.even m = false -> (m <= 1 + 2 * n)%nat -> good r m) /\ (forall l m j, Nat.even m = true \/ (1 + 2 * n < m)%nat -> r l m j = p l m j)).
  { induction n as [|n IH]; intros Hn r.
    - split; [|intros; reflexivity]. intros m Em Hm. rewrite even_mod in Em. replace m with 1%nat by lia. exact G2.
    - unfold r. rewrite seq_S, map_app, fold_left_app. cbn [map fold_left]. clear r. destruct IH as [I1 I2]; [lia|]. set (r := fold_left step (map (fun i => (1 + 2 * i)%nat) (seq 0 n)) p) in *. set (m0 := (1 + 2 * (0 + n))%nat).
      assert (E0 : Nat.even m0 = false) by (rewrite even_mod; unfold m0; lia). assert (E2 : Nat.even (m0 + 2) = false) by (rewrite even_mod; unfold m0; lia).
      assert (ZZ : forall l j, r l (m0 + 2)%nat j = 0) by (intros l j; rewrite I2 by (right; unfold m0; lia); apply Z; [unfold m0; lia|exact E2]).
      destruct (order_step m0 r ltac:(unfold m0; lia) (I1 m0 E0 ltac:(unfold m0; lia)) ZZ (lmax - 1)%nat (lmax - 1)%nat (or_intror eq_refl) eq_refl) as [S1 S2]. rewrite E0 in S1, S2.
      change (step r m0) with (fold_left (up 1 mmax 1 m0) (range2 m0 (lmax - 1)) (fold_left (up 0 mmax 1 m0) (range2 (m0 + 1) (lmax - 1)) r)). split.
      + intros m Em Hm. destruct (Nat.eq_dec m (m0 + 2)) as [->|N]; [exact S1|]. intros l j Hd. rewrite S2 by exact N. apply I1; [exact Em|rewrite even_mod in Em; unfold m0 in *; lia|exact Hd].
      + intros l m j H. rewrite S2 by (intros ->; destruct H as [H|H]; [congruence|unfold m0 in H; lia]). apply I2. destruct H as [H|H]; [now left|]. right. lia. }
  destruct (INV (lmax / 2 - 1)%nat ltac:(lia)) as [I1 I2]. split.
  - intros m Em Hm. rewrite even_mod in Em. apply I1; [rewrite even_mod; exact Em|lia].
  - intros l m j H. apply I2. tauto.
Qed.
Theorem table_ok : exists p, fourier_legendre lmax mmax = Ok p /\ (forall l m j, (m <= l <= Bd)%nat -> p l m j = Fc m l j) /\
  (forall l, Nat.even l = true -> (Bd < l <= lmax)%nat -> exists p4 v, 0 < v /\ (forall j, p4 l 0%nat j = v * Fc 0 l j) /\ norm_of 0 lmax mmax 0 1 2 p4 l = 0 /\ forall j, p l 0%nat j = p4 l 0%nat j / norm_of 0 lmax mmax 0 1 2 p4 l).
Proof.
  pose proof HL as HL'. rewrite even_mod in HL'. unfold fourier_legendre. replace (lmax =? 0)%nat with false by lia. rewrite <- Nat.negb_even, HL. cbn [negb orb].
  replace (lmax + 2 <=? mmax)%nat with false by lia. replace (mmax <? 2)%nat with false by lia. replace (lmax =? 2)%nat with false by lia. replace (mmax <? 4)%nat with false by lia.
  eexists. split; [reflexivity|]. set (p0 := fun _ _ _ => 0).
  destruct (zonal_even_ok p0) as [Z1 Z2]; [intros l j _; reflexivity|]. set (p1 := zonal_even lmax mmax p0) in *.
  destruct (zonal_odd_ok p1) as [Y1 Y2]; [intros l j H; rewrite Z2; [reflexivity|left; unfold deg_row in *; lia]|]. set (p2 := zonal_odd lmax mmax p1) in *.
  destruct (one_even_ok p2) as [X1 X2]; [intros l j H; rewrite Y2, Z2 by (right; lia); reflexivity|]. set (p3 := one_even lmax mmax p2) in *.
  destruct (one_odd_ok p3) as [W1 W2]; [intros l j H; rewrite X2 by (left; unfold deg_row in *; lia); rewrite Y2, Z2 by (right; lia); reflexivity|]. set (p4 := one_odd lmax mmax p3) in *.
  assert (R : forall l, (l <= Bd)%nat -> deg_row 0 lmax l = true /\ deg_row 1 lmax l = false \/ deg_row 0 lmax l = false /\ deg_row 1 lmax l = true /\ (1 <= l)%nat).
  { intros l Hl. unfold Bd in Hl. unfold deg_row. destruct (Nat.eq_dec (l mod 2) 0); [left|right]; lia. }
  assert (G0 : good p4 0). { intros l j Hd. unfold dom in Hd. rewrite W2, X2 by (right; lia). destruct (R l ltac:(lia)) as [[R0 R1]|(R0 & R1 & _)]; [rewrite Y2 by (left; exact R1); apply Z1; [exact R0|lia]|apply Y1; [exact R1|lia]]. }
  assert (G1 : good p4 1). { intros l j Hd. unfold dom in Hd. destruct (R l ltac:(lia)) as [[R0 R1]|(R0 & R1 & _)]; [rewrite W2 by (left; exact R1); apply X1; [exact R0|lia]|apply W1; [exact R1|lia]]. }
  assert (Z : forall l m j, (2 <= m)%nat -> p4 l m j = 0) by (intros l m j Hm; rewrite W2, X2, Y2, Z2 by (right; lia); reflexivity).
  destruct (orders_two_ok p4 G0 ltac:(intros; apply Z; lia)) as [T1 T2]. set (p5 := orders_two lmax mmax p4) in *.
  destruct (orders_even_ok p5 T1) as [U1 U2]; [intros l m j Hm _; rewrite T2 by lia; apply Z; lia|]. set (p6 := orders_even lmax mmax p5) in *.
  assert (G61 : good p6 1) by (intros l j Hd; rewrite U2 by (left; reflexivity); rewrite T2 by lia; apply G1; exact Hd).
  destruct (orders_odd_ok p6 G61) as [V1 V2]; [intros l m j Hm Em; rewrite U2 by (left; exact Em); rewrite T2 by lia; apply Z; lia|].
  split.
  2:{ intros l El Hl. assert (D0 : deg_row 0 lmax l = true) by (unfold deg_row; rewrite even_mod in El; lia). destruct (zonal_even_pre p0 l ltac:(intros ? ? _; reflexivity) D0) as (p4' & v & Pv & E & E4). exists p4', v.
      split; [exact Pv|]. split; [exact E4|]. rewrite (norm_truncated 0 0 l p4' v 1 2) by (try reflexivity; try lia; try exact E4; rewrite even_mod in El; lia). split; [reflexivity|].
      intros j. rewrite V2 by reflexivity. rewrite U2 by (right; lia). rewrite T2 by lia. rewrite W2, X2 by (right; lia). rewrite Y2 by (left; unfold deg_row in *; rewrite even_mod in El; lia). unfold p1. rewrite E. unfold normalise, asg. rewrite D0. cbn [andb Nat.eqb].
      rewrite (norm_truncated 0 0 l p4' v 1 2) by (try reflexivity; try lia; try exact E4; rewrite even_mod in El; lia). reflexivity. }
  intros l m j Hl. assert (Hl' : (l <= lmax)%nat) by (unfold Bd in Hl; lia). destruct (Nat.even m) eqn:Em.
  - rewrite V2 by exact Em. destruct (Nat.eq_dec m 0) as [->|N].
    + rewrite U2 by (right; lia). rewrite T2 by lia. apply G0. exact Hl.
    + apply U1; [exact Em|rewrite even_mod in Em; lia|exact Hl].
  - apply V1; [exact Em|rewrite even_mod in Em; lia|exact Hl].
Qed.
End Rows.
