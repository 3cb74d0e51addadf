From Coq Require Import Reals Lra Lia Psatz.
From Coquelicot Require Import Coquelicot.
From Verif Require Import Base Arr LegendreSpec LegendreSpec2 LegendreModel LegendreProofs SummationModel SummationProofs LegendreOneModel.
Close Scope Z_scope.
Open Scope R_scope.
Local Arguments LD : simpl never.

(** x D^(m+1) P_(l+1) - D^(m+1) P_l = (l+1-m) D^m P_(l+1) *)
Lemma LD_down m l x : x * LD (S m) (S l) x - LD (S m) l x = (INR l + 1 - INR m) * LD m (S l) x.
Proof.
  revert x. induction m as [|m IHm]; intros x.
  - rewrite !LD_1. change (LD 0) with legP in *; cbn [INR]. destruct (leg_identities l x) as (A & _). lra.
  - assert (E1 : is_derive (fun x => x * LD (S m) (S l) x - LD (S m) l x) x
       (LD (S m) (S l) x + x * LD (S (S m)) (S l) x - LD (S (S m)) l x)).
    { auto_derive; [repeat split; eexists; apply LD_derive|]. rewrite !DLD. ring. }
    assert (E2 : is_derive (fun x => (INR l + 1 - INR m) * LD m (S l) x) x ((INR l + 1 - INR m) * LD (S m) (S l) x)).
    { apply (is_derive_scal (LD m (S l)) x). apply LD_derive. }
    apply (is_derive_ext _ (fun x => (INR l + 1 - INR m) * LD m (S l) x)) in E1; [|intros t; apply IHm].
    apply is_derive_unique in E1. apply is_derive_unique in E2. rewrite E2 in E1. rewrite S_INR. lra.
Qed.
(** the associated Legendre equation *)
Lemma LD_ode m l x : (1 <= l)%nat -> (1 - x * x) * LD (S (S m)) l x =
  2 * (INR m + 1) * x * LD (S m) l x - (INR l - INR m) * (INR l + INR m + 1) * LD m l x.
Proof.
  destruct l as [|l]; [lia|]. intros _. pose proof (LD_slope (S m) l x) as H. pose proof (LD_down m l x) as D. rewrite S_INR in *.
  replace (LD (S m) l x) with (x * LD (S m) (S l) x - (INR l + 1 - INR m) * LD m (S l) x) in H by lra. nra.
Qed.

(** Schmidt seminormalised value with Condon-Shortley phase *)
Definition SK (l m : nat) : R := sqrt (INR (fact (l - m)) / INR (fact (l + m))).
Definition SP (l m : nat) (x s : R) : R := (- s) ^ m * SK l m * LD m l x.

Lemma Rdiv_diag a : a <> 0 -> a / a = 1. Proof. intros. now field. Qed.
Lemma SK_pos l m : 0 < SK l m.
Proof. apply sqrt_lt_R0. apply Rdiv_lt_0_compat; apply INR_fact_lt_0. Qed.
Lemma SK_step l m : (m < l)%nat -> SK l m = SK l (S m) * (rootl (l + m + 1) * rootl (l - m)).
Proof.
  intros H. unfold SK, rootl. replace (l - m)%nat with (S (l - S m))%nat at 1 by lia. replace (l + S m)%nat with (S (l + m)) by lia.
  rewrite !INR_fact_S. rewrite <- sqrt_mult by apply pos_INR.
  pose proof (INR_fact_lt_0 (l - S m)). pose proof (INR_fact_lt_0 (l + m)). pose proof (pos_INR (l - S m)). pose proof (pos_INR (l + m)).
  rewrite <- sqrt_mult.
  - f_equal. replace (INR (l + m + 1)) with (INR (l + m) + 1) by (rewrite (plus_INR (l + m) 1); reflexivity).
    replace (INR (l - m)) with (INR (l - S m) + 1) by (rewrite <- S_INR; f_equal; lia). field. split; lra.
  - left. apply Rdiv_lt_0_compat; [assumption|]. apply Rmult_lt_0_compat; lra.
  - apply Rmult_le_pos; apply pos_INR.
Qed.
Lemma rootl_pos k : (1 <= k)%nat -> 0 < rootl k.
Proof. intros H. apply sqrt_lt_R0. pose proof (INR_pos k H). lra. Qed.
Lemma rootl_sq k : rootl k * rootl k = INR k. Proof. apply sqrt_sqrt, pos_INR. Qed.

Lemma sect_prod_S l : sect_prod (S l) = sect_prod l * (1 - 1 / INR (2 * S l)).
Proof. unfold sect_prod. rewrite seq_S, fold_left_app. cbn [fold_left]. reflexivity. Qed.
Lemma sect_prod_ok l x : sqrt (sect_prod l) = SK l l * LD l l x /\ 0 <= sect_prod l.
Proof.
  induction l as [|l [IH IP]].
  - unfold sect_prod, SK. cbn [seq fold_left]. replace (0 - 0)%nat with 0%nat by lia. cbn. split; [|lra].
    change (LD 0 0 x) with 1. rewrite Rdiv_1. rewrite sqrt_1. ring.
  - rewrite sect_prod_S. pose proof (pos_INR l) as Hl.
    assert (E : 1 - 1 / INR (2 * S l) = (2 * INR l + 1) / (2 * INR l + 2)).
    { rewrite mult_INR, (S_INR l). change (INR 2) with 2. field. lra. }
    assert (P : 0 <= (2 * INR l + 1) / (2 * INR l + 2)) by (apply Rlt_le, Rdiv_lt_0_compat; lra).
    rewrite E. split; [|now apply Rmult_le_pos]. rewrite sqrt_mult by assumption. rewrite IH, LD_sect.
    assert (SS : SK l l * sqrt ((2 * INR l + 1) / (2 * INR l + 2)) = SK (S l) (S l) * (2 * INR l + 1)).
    { unfold SK. rewrite !Nat.sub_diag. cbn [fact]. change (INR 1) with 1.
      replace (S l + S l)%nat with (S (S (l + l))) by lia. rewrite !INR_fact_S, S_INR, plus_INR.
      pose proof (INR_fact_lt_0 (l + l)). rewrite <- sqrt_mult; [|left; apply Rdiv_lt_0_compat; lra|exact P].
      transitivity (sqrt (1 / ((INR (l + l) + 1 + 1) * ((INR (l + l) + 1) * INR (fact (l + l)))) * ((2 * INR l + 1) * (2 * INR l + 1)))).
      - f_equal. rewrite plus_INR. field. repeat split; lra.
      - rewrite sqrt_mult.
        + rewrite (sqrt_square (2 * INR l + 1)) by lra. rewrite plus_INR. reflexivity.
        + left. rewrite plus_INR. apply Rdiv_lt_0_compat; [lra|]. apply Rmult_lt_0_compat; [|apply Rmult_lt_0_compat]; lra.
        + apply Rmult_le_pos; lra. }
    replace (SK l l * LD l l x * sqrt ((2 * INR l + 1) / (2 * INR l + 2))) with (SK l l * sqrt ((2 * INR l + 1) / (2 * INR l + 2)) * LD l l x) by ring.
    rewrite SS. ring.
Qed.

Lemma SP_step l m x s : (m + 2 <= l)%nat -> s * s = 1 - x * x -> s <> 0 ->
  (SP l (m + 1) x s * (-2 * x / s) * INR (m + 1) - SP l (m + 2) x s * rootl (l + m + 2) * rootl (l - m - 1)) /
    (rootl (l + m + 1) * rootl (l - m)) = SP l m x s.
Proof.
  intros H Hs Hn. unfold SP. pose proof (SK_step l (m + 1) ltac:(lia)) as K1. pose proof (SK_step l m ltac:(lia)) as K0.
  replace (S (m + 1)) with (m + 2)%nat in K1 by lia. replace (l + (m + 1) + 1)%nat with (l + m + 2)%nat in K1 by lia.
  replace (l - (m + 1))%nat with (l - m - 1)%nat in K1 by lia. replace (S m) with (m + 1)%nat in K0 by lia.
  pose proof (rootl_pos (l + m + 1) ltac:(lia)). pose proof (rootl_pos (l - m) ltac:(lia)).
  pose proof (LD_ode m l x ltac:(lia)) as O. replace (S (S m)) with (m + 2)%nat in O by lia. replace (S m) with (m + 1)%nat in O by lia.
  pose proof (rootl_sq (l + m + 1)) as Q1. pose proof (rootl_sq (l - m)) as Q2.
  replace (INR (l + m + 1)) with (INR l + INR m + 1) in Q1 by (rewrite !plus_INR; reflexivity). rewrite minus_INR in Q2 by lia.
  replace (INR (m + 1)) with (INR m + 1) by (rewrite plus_INR; reflexivity).
  rewrite K0. rewrite (pow_add (- s) m 1), (pow_add (- s) m 2), pow_1.
  set (A := (- s) ^ m). replace ((- s) ^ 2) with (1 - x * x) by (rewrite <- Hs; ring).
  set (a := rootl (l + m + 1)) in *. set (b := rootl (l - m)) in *. set (c := rootl (l + m + 2)) in *. set (d := rootl (l - m - 1)) in *.
  set (k1 := SK l (m + 1)) in *. set (k2 := SK l (m + 2)) in *.
  set (D0 := LD m l x) in *. set (D1 := LD (m + 1) l x) in *. set (D2 := LD (m + 2) l x) in *.
  assert (Ha : a <> 0) by lra. assert (Hb : b <> 0) by lra.
  apply (Rmult_eq_reg_r (a * b)); [|now apply Rmult_integral_contrapositive_currified].
  replace ((A * - s * k1 * D1 * (-2 * x / s) * (INR m + 1) - A * (1 - x * x) * k2 * D2 * c * d) / (a * b) * (a * b))
    with (A * k1 * (2 * (INR m + 1) * x * D1) - A * (k2 * (c * d)) * ((1 - x * x) * D2)) by (field; repeat split; assumption).
  rewrite <- K1, O.
  replace (A * (k1 * (a * b)) * D0 * (a * b)) with (A * k1 * D0 * ((a * a) * (b * b))) by ring. rewrite Q1, Q2. ring.
Qed.

Lemma SP_second l x s : (1 <= l)%nat -> s <> 0 -> SP l l x s * (-2 * x / s) * INR l / rootl (2 * l) = SP l (l - 1) x s.
Proof.
  destruct l as [|l]; [lia|]. intros _ Hs. replace (S l - 1)%nat with l by lia. unfold SP.
  pose proof (SK_step (S l) l ltac:(lia)) as K. replace (S l - l)%nat with 1%nat in K by lia. replace (S l + l + 1)%nat with (2 * S l)%nat in K by lia.
  rewrite K. rewrite LD_sect, LD_next. change ((- s) ^ S l) with (- s * (- s) ^ l). pose proof (rootl_pos (2 * S l) ltac:(lia)) as P.
  assert (R1 : rootl 1 = 1) by (unfold rootl; cbn; apply sqrt_1). rewrite R1.
  assert (Q : INR (S l) = rootl (2 * S l) * rootl (2 * S l) / 2) by (rewrite rootl_sq, mult_INR; change (INR 2) with 2; field).
  rewrite Q. set (q := rootl (2 * S l)) in *. field. split; lra.
Qed.

(** points the modelled branch handles *)
Definition regular (l : nat) (x : R) : Prop := -1 <= x <= 1 /\ (x = 1 \/ x = -1 \/ tol < sqrt (1 - x ^ 2) ^ l).

Lemma tol_pos : 0 < tol. Proof. unfold tol. apply Rinv_0_lt_compat, pow_lt. lra. Qed.
Lemma legendre_col_ok tiny l x m : (1 <= l)%nat -> regular l x -> (m <= l)%nat ->
  legendre_col tiny l x m = SP l m x (sqrt (1 - x ^ 2)).
Proof.
  intros Hl [Hx Hr] Hm. unfold legendre_col. set (s := sqrt (1 - x ^ 2)).
  assert (Abs : Rabs ((- s) ^ l) = s ^ l).
  { rewrite <- RPow_abs, Rabs_Ropp. f_equal. apply Rabs_right, Rle_ge, sqrt_pos. }
  rewrite Abs. pose proof tol_pos as T.
  destruct (Req_EM_T s 0) as [Z|NZ].
  - (* a pole *)
    assert (Px : x = 1 \/ x = -1) by (apply sqrt_zero_pole; assumption).
    rewrite Z. rewrite pow_ne_zero by lia. destruct (Rlt_dec 0 0); [lra|]. destruct (Rle_dec tol 0); [lra|].
    replace (if Req_EM_T x 1 then fun _ : nat => 0 else fun _ => 0) with (fun _ : nat => 0) by (now destruct (Req_EM_T x 1)).
    destruct m as [|m].
    + rewrite st1_same. unfold SP, SK. replace (l - 0)%nat with l by lia. rewrite Nat.add_0_r. change (LD 0 l x) with (legP l x).
      rewrite legP_pole by exact Px. rewrite Rdiv_diag by apply INR_fact_neq_0. rewrite sqrt_1. cbn [pow]. ring.
    + rewrite st1_other by lia. unfold SP. rewrite Ropp_0, pow_ne_zero by lia. ring.
  - assert (S0 : 0 < s) by (pose proof (sqrt_pos (1 - x ^ 2)); fold s in H; lra).
    assert (NP : x <> 1 /\ x <> -1).
    { split; intros ->; apply NZ; unfold s; [replace (1 - 1 ^ 2) with 0 by ring|replace (1 - (-1) ^ 2) with 0 by ring]; apply sqrt_0. }
    assert (Big : tol < s ^ l) by (destruct Hr as [?|[?|?]]; tauto).
    destruct (Rlt_dec 0 s); [|lra]. destruct (Rle_dec (s ^ l) tol); [lra|]. destruct (Req_EM_T x 1); [tauto|].
    destruct (Rle_dec tol (s ^ l)); [|lra].
    assert (Hs : s * s = 1 - x * x) by (unfold s; rewrite sqrt_sqrt; [ring|nra]).
    set (p0 := st1 (fun _ : nat => 0) l (sqrt (sect_prod l) * (- s) ^ l)).
    assert (Top : sqrt (sect_prod l) * (- s) ^ l = SP l l x s) by (destruct (sect_prod_ok l x) as [-> _]; unfold SP; ring).
    assert (I0 : forall k, (l - 1 <= k <= l)%nat -> st1 p0 (l - 1) (p0 l * (-2 * x / s) * INR l / rootl (2 * l)) k = SP l k x s).
    { intros k Hk. assert (P0 : p0 l = SP l l x s) by (unfold p0; rewrite st1_same; exact Top).
      destruct (Nat.eq_dec k (l - 1)) as [->|N]; [rewrite st1_same, P0; now apply SP_second|].
      rewrite st1_other by exact N. replace k with l by lia. exact P0. }
    set (p1 := st1 p0 _ _) in *. clearbody p1. clear p0.
    pose proof (fold_rev_inv (fun k (p : nat -> R) => forall j, (k <= j <= l)%nat -> p j = SP l j x s)) as F.
    match goal with |- fold_left ?g _ _ _ = _ => specialize (F g (l - 1)%nat 0%nat p1) end.
    apply F; [|clear F|lia].
    + intros j Hj. apply I0. lia.
    + intros k p Hk IH j Hj. destruct (Nat.eq_dec j k) as [->|N].
      * rewrite st1_same, !IH by lia. apply SP_step; try assumption. lia.
      * rewrite st1_other by exact N. apply IH. lia.
Qed.

Lemma rootprod_S a n : rootprod a (S n) = rootprod a n * rootl (a + n).
Proof. unfold rootprod. rewrite seq_S, fold_left_app. reflexivity. Qed.
Lemma rootprod_fact a n : rootprod (a + 1) n = sqrt (INR (fact (a + n)) / INR (fact a)).
Proof.
  induction n as [|n IH].
  - unfold rootprod. cbn. rewrite Nat.add_0_r, Rdiv_diag by apply INR_fact_neq_0. now rewrite sqrt_1.
  - rewrite rootprod_S, IH. unfold rootl. rewrite <- sqrt_mult; [|left; apply Rdiv_lt_0_compat; apply INR_fact_lt_0|apply pos_INR].
    f_equal. replace (a + S n)%nat with (S (a + n)) by lia. rewrite INR_fact_S. replace (INR (a + 1 + n)) with (INR (a + n) + 1).
    + field. apply INR_fact_neq_0.
    + rewrite !plus_INR. change (INR 1) with 1. ring.
Qed.
Lemma rootprod_SK l m : (m <= l)%nat -> (1 <= m)%nat -> SK l m * (if (m =? l)%nat then rootprod 1 (2 * l) else rootprod (l - m + 1) (2 * m)) = 1.
Proof.
  intros H H1. assert (E : (if (m =? l)%nat then rootprod 1 (2 * l) else rootprod (l - m + 1) (2 * m)) = sqrt (INR (fact (l + m)) / INR (fact (l - m)))).
  { destruct (Nat.eqb_spec m l) as [->|N].
    - change 1%nat with (0 + 1)%nat. rewrite rootprod_fact. f_equal. f_equal; [do 2 f_equal; lia|]. now rewrite Nat.sub_diag.
    - rewrite rootprod_fact. f_equal. f_equal. do 2 f_equal. lia. }
  rewrite E. unfold SK. pose proof (INR_fact_lt_0 (l + m)). pose proof (INR_fact_lt_0 (l - m)).
  rewrite <- sqrt_mult by (left; now apply Rdiv_lt_0_compat).
  replace (INR (fact (l - m)) / INR (fact (l + m)) * (INR (fact (l + m)) / INR (fact (l - m)))) with 1 by (field; lra). apply sqrt_1.
Qed.

Lemma pm1_sq m : (-1) ^ m * (-1) ^ m = 1.
Proof. rewrite <- Rpow_mult_distr. replace (-1 * -1) with 1 by ring. apply pow1. Qed.
Lemma neg_pow s m : (- s) ^ m = (-1) ^ m * s ^ m.
Proof. rewrite <- Rpow_mult_distr. f_equal. ring. Qed.
Lemma legendre_normalized tiny l x m : (1 <= l)%nat -> regular l x -> (m <= l)%nat ->
  legendre_col tiny l x m * legendre_norm true l m = Nlm l m x.
Proof.
  intros Hl Hr Hm. rewrite legendre_col_ok by assumption. rewrite Nlm_NU. unfold SP, NU, legendre_norm, SK.
  set (F := INR (fact (l - m)) / INR (fact (l + m))). set (s := sqrt (1 - x ^ 2)). pose proof (pos_INR l) as Hp.
  assert (F0 : 0 <= F) by (left; apply Rdiv_lt_0_compat; apply INR_fact_lt_0).
  destruct (Nat.eqb_spec m 0) as [->|N].
  - replace (1 * (2 * INR l + 1) * INR (fact (l - 0)) / INR (fact (l + 0))) with ((2 * INR l + 1) * F) by (unfold F, Rdiv; ring).
    rewrite sqrt_mult by (lra || assumption). cbn [pow]. ring.
  - replace (2 * (2 * INR l + 1) * INR (fact (l - m)) / INR (fact (l + m))) with (2 * (2 * INR l + 1) * F) by (unfold F, Rdiv; ring).
    rewrite (sqrt_mult (2 * (2 * INR l + 1))) by (lra || assumption). rewrite neg_pow.
    replace ((-1) ^ m * s ^ m * sqrt F * LD m l x * ((-1) ^ m * sqrt (2 * (2 * INR l + 1)))) with
      (((-1) ^ m * (-1) ^ m) * (s ^ m * sqrt F * LD m l x * sqrt (2 * (2 * INR l + 1)))) by ring. rewrite pm1_sq. ring.
Qed.
Lemma legendre_plain tiny l x m : (1 <= l)%nat -> regular l x -> (m <= l)%nat ->
  legendre_col tiny l x m * legendre_norm false l m = (-1) ^ m * sqrt (1 - x ^ 2) ^ m * Derive_n (legP l) m x.
Proof.
  intros Hl Hr Hm. rewrite legendre_col_ok by assumption. rewrite LD_Derive_n. unfold SP, legendre_norm. rewrite neg_pow.
  destruct (Nat.eqb_spec m 0) as [->|N].
  - unfold SK. rewrite Nat.sub_0_r, Nat.add_0_r, Rdiv_diag by apply INR_fact_neq_0. rewrite sqrt_1. cbn [pow]. ring.
  - pose proof (rootprod_SK l m Hm ltac:(lia)) as K. set (q := if (m =? l)%nat then _ else _) in *.
    replace ((-1) ^ m * sqrt (1 - x ^ 2) ^ m * SK l m * LD m l x * q) with ((-1) ^ m * sqrt (1 - x ^ 2) ^ m * LD m l x * (SK l m * q)) by ring.
    rewrite K. ring.
Qed.
