(** The addition theorem of spherical harmonics. *)
From Coq Require Import Reals Lra Lia ZifyBool ZifyNat Bool Arith.
From Coquelicot Require Import Coquelicot.
From Verif Require Import Base LegendreSpec LegendreSpec2 LegendreOrtho SummationModel SummationProofs LegendreFourier.
Close Scope Z_scope.
Open Scope R_scope.
Local Arguments LD : simpl never.

Definition ww (l m : nat) : R := INR (fact (l - m)) / INR (fact (l + m)).
Definition aa (x u y v : R) (l m : nat) : R := ww l m * (u ^ m * LD m l x) * (v ^ m * LD m l y).
Lemma aa_high x u y v l m : (l < m)%nat -> aa x u y v l m = 0.
Proof. intros H. unfold aa. rewrite (LD_high m l x), (LD_high m l y) by exact H. ring. Qed.
Section Step.
Context (x u y v : R) (Hx : u * u = 1 - x * x) (Hy : v * v = 1 - y * y).
Notation a := (aa x u y v).
Lemma xrec z l m : z * LD m (S l) z = ((INR l + 2 - INR m) * LD m (S (S l)) z + (INR l + 1 + INR m) * LD m l z) / (2 * INR l + 3).
Proof. pose proof (LD_rec m l z) as A. pose proof (pos_INR l). apply (Rmult_eq_reg_l (2 * INR l + 3)); [|lra]. field_simplify; [|lra]. lra. Qed.
Lemma urec z l m : LD m (S l) z = (LD (S m) (S (S l)) z - LD (S m) l z) / (2 * INR l + 3).
Proof. pose proof (LD_S_SS m l z) as A. pose proof (pos_INR l). rewrite A. field. lra. Qed.
Lemma drec z l m : (1 - z * z) * LD (S m) (S l) z = ((INR l + INR m + 1) * (INR l + INR m + 2) * LD m l z - (INR l - INR m + 1) * (INR l - INR m + 2) * LD m (S (S l)) z) / (2 * INR l + 3).
Proof. pose proof (LD_cross m l z) as A. pose proof (pos_INR l). apply (Rmult_eq_reg_l (2 * INR l + 3)); [|lra]. rewrite A. field. lra. Qed.
(** the order zero *)
Lemma step_0 l : (2 * INR l + 3) * (x * y * a (S l) 0 + u * v * a (S l) 1) = (INR l + 2) * a (S (S l)) 0 + (INR l + 1) * a l 0.
Proof.
  unfold aa. rewrite !pow_O, !pow_1.
  replace (x * y * (ww (S l) 0 * (1 * LD 0 (S l) x) * (1 * LD 0 (S l) y)) + u * v * (ww (S l) 1 * (u * LD 1 (S l) x) * (v * LD 1 (S l) y)))
    with (ww (S l) 0 * (x * LD 0 (S l) x) * (y * LD 0 (S l) y) + ww (S l) 1 * ((u * u) * LD 1 (S l) x) * ((v * v) * LD 1 (S l) y)) by ring.
  rewrite Hx, Hy, !xrec, !drec.
  assert (W0 : forall k, ww k 0 = 1). { intros k. unfold ww. rewrite Nat.sub_0_r, Nat.add_0_r. field. apply not_0_INR, fact_neq_0. }
  assert (W1 : ww (S l) 1 = / ((INR l + 1) * (INR l + 2))).
  { unfold ww. replace (S l - 1)%nat with l by lia. replace (S l + 1)%nat with (S (S l)) by lia. rewrite !INR_fact_S, S_INR. pose proof (pos_INR l). field. repeat split; try lra. apply not_0_INR, fact_neq_0. }
  rewrite !W0, W1. change (INR 0) with 0. pose proof (pos_INR l). field. lra.
Qed.
Lemma step_S l m : (2 * INR l + 3) * (x * y * a (S l) (S m) + u * v / 2 * (a (S l) m + a (S l) (S (S m)))) = (INR l + 2) * a (S (S l)) (S m) + (INR l + 1) * a l (S m).
Proof.
  destruct (Nat.le_gt_cases m (S l)) as [H|H]; [|rewrite !aa_high by lia; ring].
  pose proof (pos_INR l) as Pl. pose proof (pos_INR m) as Pm.
  unfold aa. cbn [pow].
  replace (x * y * (ww (S l) (S m) * (u * u ^ m * LD (S m) (S l) x) * (v * v ^ m * LD (S m) (S l) y)) +
     u * v / 2 * (ww (S l) m * (u ^ m * LD m (S l) x) * (v ^ m * LD m (S l) y) + ww (S l) (S (S m)) * (u * (u * u ^ m) * LD (S (S m)) (S l) x) * (v * (v * v ^ m) * LD (S (S m)) (S l) y)))
    with (u * u ^ m * (v * v ^ m) * (ww (S l) (S m) * (x * LD (S m) (S l) x) * (y * LD (S m) (S l) y)
      + / 2 * (ww (S l) m * LD m (S l) x * LD m (S l) y + ww (S l) (S (S m)) * ((u * u) * LD (S (S m)) (S l) x) * ((v * v) * LD (S (S m)) (S l) y)))) by field.
  rewrite Hx, Hy, !xrec, !(urec _ l m), !drec.
  set (p := u * u ^ m). set (q := v * v ^ m). rewrite !S_INR.
  destruct (Nat.le_gt_cases (S m) l) as [G|G].
  - remember (l - S m)%nat as d. assert (El : INR l = INR m + 1 + INR d) by (rewrite <- S_INR, <- plus_INR; f_equal; lia).
    assert (W1 : ww (S l) (S m) = (INR d + 1) * INR (fact d) / ((INR l + INR m + 2) * INR (fact (l + m + 1)))).
    { unfold ww. replace (S l - S m)%nat with (S d) by lia. replace (S l + S m)%nat with (S (l + m + 1)) by lia. rewrite !INR_fact_S, !plus_INR. change (INR 1) with 1. f_equal. ring. }
    assert (W2 : ww (S l) m = (INR d + 2) * (INR d + 1) * INR (fact d) / INR (fact (l + m + 1))).
    { unfold ww. replace (S l - m)%nat with (S (S d)) by lia. replace (S l + m)%nat with (l + m + 1)%nat by lia. rewrite !INR_fact_S, S_INR. f_equal. ring. }
    assert (W3 : ww (S l) (S (S m)) = INR (fact d) / ((INR l + INR m + 3) * (INR l + INR m + 2) * INR (fact (l + m + 1)))).
    { unfold ww. replace (S l - S (S m))%nat with d by lia. replace (S l + S (S m))%nat with (S (S (l + m + 1))) by lia. rewrite !INR_fact_S, S_INR, !plus_INR. change (INR 1) with 1. f_equal. ring. }
    assert (W4 : ww (S (S l)) (S m) = (INR d + 2) * (INR d + 1) * INR (fact d) / ((INR l + INR m + 3) * (INR l + INR m + 2) * INR (fact (l + m + 1)))).
    { unfold ww. replace (S (S l) - S m)%nat with (S (S d)) by lia. replace (S (S l) + S m)%nat with (S (S (l + m + 1))) by lia. rewrite !INR_fact_S, !S_INR, !plus_INR. change (INR 1) with 1. f_equal; ring. }
    assert (W5 : ww l (S m) = INR (fact d) / INR (fact (l + m + 1))).
    { unfold ww. rewrite <- Heqd. replace (l + S m)%nat with (l + m + 1)%nat by lia. reflexivity. }
    rewrite W1, W2, W3, W4, W5. rewrite El. pose proof (pos_INR d) as Pd.
    set (F := INR (fact d)). assert (NG : INR (fact (l + m + 1)) <> 0) by (apply not_0_INR, fact_neq_0). set (K := INR (fact (l + m + 1))) in *. clearbody F K p q.
    field. repeat split; try exact NG; lra.
  - rewrite (LD_high (S m) l x), (LD_high (S m) l y) by lia.
    destruct (Nat.eq_dec m l) as [->|N].
    + assert (W1 : ww (S l) (S l) = / (2 * (INR l + 1) * INR (fact (2 * l + 1)))).
      { unfold ww. rewrite Nat.sub_diag. replace (S l + S l)%nat with (S (2 * l + 1)) by lia. rewrite !INR_fact_S, !plus_INR, mult_INR. change (INR (fact 1)) with 1; change (INR (fact 0)) with 1; change (INR 0) with 0; change (INR 1) with 1; change (INR 2) with 2. field. split; [apply not_0_INR, fact_neq_0|lra]. }
      assert (W2 : ww (S l) l = / INR (fact (2 * l + 1))).
      { unfold ww. replace (S l - l)%nat with 1%nat by lia. replace (S l + l)%nat with (2 * l + 1)%nat by lia. change (INR (fact 1)) with 1; change (INR (fact 0)) with 1; change (INR 0) with 0; change (INR 1) with 1; change (INR 2) with 2. field. apply not_0_INR, fact_neq_0. }
      assert (W4 : ww (S (S l)) (S l) = / ((2 * INR l + 3) * (2 * (INR l + 1)) * INR (fact (2 * l + 1)))).
      { unfold ww. replace (S (S l) - S l)%nat with 1%nat by lia. replace (S (S l) + S l)%nat with (S (S (2 * l + 1))) by lia. rewrite !INR_fact_S, !S_INR, !plus_INR, mult_INR. change (INR (fact 1)) with 1; change (INR (fact 0)) with 1; change (INR 0) with 0; change (INR 1) with 1; change (INR 2) with 2. field. split; [apply not_0_INR, fact_neq_0|lra]. }
      rewrite W1, W2, W4. assert (NG : INR (fact (2 * l + 1)) <> 0) by (apply not_0_INR, fact_neq_0). set (K := INR (fact (2 * l + 1))) in *. generalize (ww (S l) (S (S l))). intros w3.
      match goal with |- context [w3 * ?A * ?B] => replace (w3 * A * B) with 0 by (unfold Rdiv; ring) end.
      clearbody K p q. field. repeat split; try exact NG; lra.
    + assert (m = S l) by lia. subst m. rewrite S_INR.
      assert (W2 : ww (S l) (S l) = (2 * INR l + 4) * (2 * INR l + 3) / INR (fact (2 * l + 4))).
      { unfold ww. rewrite Nat.sub_diag. replace (S l + S l)%nat with (2 * l + 2)%nat by lia. replace (2 * l + 4)%nat with (S (S (2 * l + 2))) by lia. rewrite !INR_fact_S, !S_INR, !plus_INR, mult_INR. change (INR (fact 1)) with 1; change (INR (fact 0)) with 1; change (INR 0) with 0; change (INR 1) with 1; change (INR 2) with 2. field. repeat split; try lra. apply not_0_INR, fact_neq_0. }
      assert (W4 : ww (S (S l)) (S (S l)) = / INR (fact (2 * l + 4))).
      { unfold ww. rewrite Nat.sub_diag. replace (S (S l) + S (S l))%nat with (2 * l + 4)%nat by lia. change (INR (fact 1)) with 1; change (INR (fact 0)) with 1; change (INR 0) with 0; change (INR 1) with 1; change (INR 2) with 2. field. apply not_0_INR, fact_neq_0. }
      rewrite W2, W4. assert (NG : INR (fact (2 * l + 4)) <> 0) by (apply not_0_INR, fact_neq_0). set (K := INR (fact (2 * l + 4))) in *. clearbody K p q.
      generalize (ww (S l) (S (S l))) (ww (S l) (S (S (S l)))). intros w1 w3. field. repeat split; try exact NG; lra.
Qed.
End Step.
(** cos(psi) times a cosine series *)
Lemma cos_series_shift (a : nat -> R) psi n :
  cos psi * sumn (S n) (fun m => eps_m m * a m * cos (INR m * psi)) =
  sumn (S n) (fun m => (match m with O => a 1%nat | S k => a k + a (S (S k)) end) * cos (INR m * psi)) + a n * cos (INR (S n) * psi) - a (S n) * cos (INR n * psi).
Proof.
  induction n as [|n IH].
  - cbn [sumn]. unfold eps_m. cbn [Nat.eqb]. cbn [INR]. rewrite Rmult_0_l, !Rmult_1_l, cos_0. ring.
  - rewrite sumn_S, (sumn_S (S n)), Rmult_plus_distr_l, IH. unfold eps_m. cbn [Nat.eqb].
    assert (T : 2 * (cos psi * cos (INR (S n) * psi)) = cos (INR (S (S n)) * psi) + cos (INR n * psi)).
    { replace (INR (S (S n)) * psi) with (INR (S n) * psi + psi) by (rewrite !S_INR; ring). replace (INR n * psi) with (INR (S n) * psi - psi) by (rewrite !S_INR; ring). rewrite cos_plus, cos_minus. ring. }
    replace (cos psi * (2 * a (S n) * cos (INR (S n) * psi))) with (a (S n) * (2 * (cos psi * cos (INR (S n) * psi)))) by ring. rewrite T. ring.
Qed.
Definition AA (x u y v psi : R) (n l : nat) : R := sumn n (fun m => eps_m m * aa x u y v l m * cos (INR m * psi)).
Lemma AA_cut x u y v psi n l : (l < n)%nat -> AA x u y v psi n l = AA x u y v psi (S l) l.
Proof. intros H. unfold AA. apply sumn_cut; [lia|]. intros m Hm. rewrite aa_high by lia. ring. Qed.
Lemma AA_step x u y v psi n l : u * u = 1 - x * x -> v * v = 1 - y * y -> (S (S l) < n)%nat ->
  (2 * INR l + 3) * ((x * y + u * v * cos psi) * AA x u y v psi n (S l)) = (INR l + 2) * AA x u y v psi n (S (S l)) + (INR l + 1) * AA x u y v psi n l.
Proof.
  intros Hx Hy Hn. destruct n as [|n]; [lia|]. rewrite (Rmult_plus_distr_r (x * y)), (Rmult_assoc (u * v)).
  unfold AA at 2. rewrite cos_series_shift, (aa_high x u y v (S l) n), (aa_high x u y v (S l) (S n)) by lia. rewrite !Rmult_0_l, Rplus_0_r, Rminus_0_r.
  unfold AA. rewrite <- !sumn_scal, <- !sumn_plus, <- sumn_scal. apply sumn_ext. intros m Hm. unfold eps_m. destruct m as [|m]; cbn [Nat.eqb].
  - pose proof (step_0 x u y v Hx Hy l) as E. apply (f_equal (fun z => z * cos (INR 0 * psi))) in E. lra.
  - pose proof (step_S x u y v Hx Hy l m) as E. apply (f_equal (fun z => 2 * z * cos (INR (S m) * psi))) in E. lra.
Qed.
Lemma AA_legP x u y v psi : u * u = 1 - x * x -> v * v = 1 - y * y -> forall l, AA x u y v psi (S l) l = legP l (x * y + u * v * cos psi).
Proof.
  intros Hx Hy. set (t := x * y + u * v * cos psi).
  assert (W : forall l n, (l < n)%nat -> AA x u y v psi n l = AA x u y v psi (S l) l) by (intros; apply AA_cut; assumption).
  apply (two_step (fun l => AA x u y v psi (S l) l = legP l t)).
  - unfold AA, eps_m, aa, ww. cbn [sumn Nat.eqb Nat.sub Nat.add fact INR pow]. change (LD 0 0 x) with 1. change (LD 0 0 y) with 1. rewrite Rmult_0_l, cos_0. cbn [legP]. field.
  - unfold AA, eps_m, aa, ww. cbn [sumn Nat.eqb Nat.sub Nat.add fact INR pow Nat.mul]. rewrite Rmult_0_l, cos_0, !Rmult_1_l.
    change (LD 0 1 x) with x. change (LD 0 1 y) with y. change (LD 1 1 x) with 1. change (LD 1 1 y) with 1. cbn [legP]. unfold t. field.
  - intros k E0 E1. pose proof (AA_step x u y v psi (S (S (S k))) k Hx Hy ltac:(lia)) as E. fold t in E. rewrite (W (S k)), (W k), E0, E1 in E by lia.
    rewrite legP_SS. pose proof (pos_INR k). apply (Rmult_eq_reg_l (INR k + 2)); [|lra]. replace ((INR k + 2) * (((2 * INR k + 3) * t * legP (S k) t - (INR k + 1) * legP k t) / (INR k + 2))) with ((2 * INR k + 3) * t * legP (S k) t - (INR k + 1) * legP k t) by (field; lra). lra.
Qed.
(** the cosine of the angle between (th, phi) and (th', phi'), psi = phi - phi' *)
Definition cosdist (th th' psi : R) : R := cos th * cos th' + sin th * sin th' * cos psi.
Theorem addition l th th' psi : sumn (l + 1) (fun m => NT l m th * NT l m th' * cos (INR m * psi)) = (2 * INR l + 1) * legP l (cosdist th th' psi).
Proof.
  assert (Q : forall z, sin z * sin z = 1 - cos z * cos z) by (intros z; pose proof (sin2_cos2 z) as E; unfold Rsqr in E; lra).
  unfold cosdist. rewrite <- (AA_legP _ _ _ _ psi (Q th) (Q th') l). replace (S l) with (l + 1)%nat by lia. unfold AA. rewrite <- sumn_scal. apply sumn_ext. intros m Hm.
  unfold NT, NU, aa, ww. fold (eps_m m).
  set (K := eps_m m * (2 * INR l + 1) * INR (fact (l - m)) / INR (fact (l + m))). assert (HK : 0 <= K).
  { unfold K. pose proof (eps_pos m). pose proof (pos_INR l). apply Rmult_le_pos; [apply Rmult_le_pos; [nra|apply pos_INR]|]. left. apply Rinv_0_lt_compat, lt_0_INR, lt_O_fact. }
  transitivity (sqrt K * sqrt K * ((sin th ^ m * LD m l (cos th)) * (sin th' ^ m * LD m l (cos th')) * cos (INR m * psi))); [ring|]. rewrite sqrt_sqrt by exact HK. unfold K, Rdiv. ring.
Qed.
