(** Derivatives of the Legendre functions in colatitude, and the tables of legendre_gradient. *)
From Coq Require Import Reals Lra Lia ZifyBool ZifyNat List Bool Arith.
From Coquelicot Require Import Coquelicot.
From Verif Require Import Base LegendreSpec LegendreSpec2 LegendreOrtho SummationModel SummationProofs FourierLegModel LegendreFourier FourierLegProofs FourierGenProofs LegendreModel Arr GradModel.
Import ListNotations.
Close Scope Z_scope.
Close Scope string_scope.
Open Scope R_scope.
Ltac Zify.zify_post_hook ::= Z.to_euclidean_division_equations.

Definition KK (l m : nat) : R := sqrt ((if (m =? 0)%nat then 1 else 2) * (2 * INR l + 1) * INR (fact (l - m)) / INR (fact (l + m))).
Lemma KK_arg l m : 0 < (if (m =? 0)%nat then 1 else 2) * (2 * INR l + 1) * INR (fact (l - m)) / INR (fact (l + m)).
Proof. pose proof (INR_fact_lt_0 (l - m)). pose proof (INR_fact_lt_0 (l + m)). pose proof (pos_INR l). apply Rdiv_lt_0_compat; [|assumption]. apply Rmult_lt_0_compat; [|assumption]. apply Rmult_lt_0_compat; [destruct (m =? 0)%nat; lra|lra]. Qed.
Lemma KK_pos l m : 0 < KK l m. Proof. apply sqrt_lt_R0, KK_arg. Qed.
Lemma KK_sq l m : KK l m * KK l m = (if (m =? 0)%nat then 1 else 2) * (2 * INR l + 1) * INR (fact (l - m)) / INR (fact (l + m)).
Proof. apply sqrt_sqrt, Rlt_le, KK_arg. Qed.
(** one order up *)
Lemma KK_up l m : (m < l)%nat -> sqrt ((INR l - INR m) * (INR l + INR m + 1) / hof m) * KK l (S m) = KK l m.
Proof.
  intros H. symmetry. assert (Hl : INR m < INR l) by (apply lt_INR; exact H). pose proof (pos_INR m) as Pm. pose proof (INR_fact_lt_0 (l - S m)) as F1. pose proof (INR_fact_lt_0 (l + m)) as F2.
  assert (Hh : 0 < hof m) by (unfold hof; destruct (m =? 0)%nat; lra).
  apply sqrt_mul_sq; [apply Rlt_le, KK_pos|apply Rlt_le, Rdiv_lt_0_compat; [nra|exact Hh]|apply Rlt_le, KK_pos|]. rewrite !KK_sq.
  replace (l - m)%nat with (S (l - S m)) by lia. replace (l + S m)%nat with (S (l + m)) by lia. rewrite !INR_fact_S. rewrite minus_INR by lia. rewrite S_INR, plus_INR. unfold hof. cbn [Nat.eqb].
  destruct (m =? 0)%nat; field; repeat split; try lra.
Qed.
Lemma NT_KK l m th : NT l m th = KK l m * sin th ^ m * LD m l (cos th). Proof. reflexivity. Qed.
(** √((l-m)(l+m+1)) P(l,m+1) *)
Lemma NT_next l m th : (m <= l)%nat -> sqrt ((INR l - INR m) * (INR l + INR m + 1) / hof m) * NT l (m + 1) th = KK l m * sin th ^ (m + 1) * LD (S m) l (cos th).
Proof.
  intros H. rewrite NT_KK. replace (m + 1)%nat with (S m) by lia. destruct (Nat.eq_dec m l) as [->|N]; [rewrite LD_high by lia; ring|]. rewrite <- (KK_up l m) by lia. ring.
Qed.
Definition slope (l m : nat) (th : R) : R :=
  if (m =? 0)%nat then - sqrt (INR l * (INR l + 1) / 2) * NT l 1 th
  else 1 / 2 * (sqrt ((INR l + INR m) * (INR l - INR m + 1) * (if (m =? 1)%nat then 2 else 1)) * NT l (m - 1) th - sqrt ((INR l - INR m) * (INR l + INR m + 1)) * NT l (m + 1) th).
Lemma NT_slope l m th : (m <= l)%nat -> is_derive (NT l m) th (slope l m th).
Proof.
  intros H. unfold slope. destruct (Nat.eqb_spec m 0) as [->|N].
  - pose proof (NT_next l 0 th ltac:(lia)) as E. unfold hof in E. cbn [Nat.eqb Nat.add] in E. change (INR 0) with 0 in E. replace ((INR l - 0) * (INR l + 0 + 1) / 2) with (INR l * (INR l + 1) / 2) in E by field.
    replace (- sqrt (INR l * (INR l + 1) / 2) * NT l 1 th) with (- (KK l 0 * sin th ^ 1 * LD 1 l (cos th))) by (rewrite <- E; ring).
    apply (is_derive_ext (fun t => KK l 0 * LD 0 l (cos t))); [intros t; req; rewrite NT_KK; ring|].
    evar_last; [apply (is_derive_scal (fun t => LD 0 l (cos t))); apply (is_derive_comp (LD 0 l) cos); [apply LD_derive|apply is_derive_Reals, derivable_pt_lim_cos]|]. unfold scal; cbn; unfold mult; cbn. ring.
  - assert (Hm : exists m', m = S m') by (destruct m as [|m']; [contradiction|exists m'; reflexivity]). destruct Hm as [m' ->].
    pose proof (NT_next l (S m') th H) as E1. unfold hof in E1. cbn [Nat.eqb] in E1. rewrite Rdiv_1 in E1. rewrite E1.
    assert (E2 : sqrt ((INR l + INR (S m')) * (INR l - INR (S m') + 1) * (if (S m' =? 1)%nat then 2 else 1)) * NT l (S m' - 1) th = KK l (S m') * ((INR l - INR m') * (INR l + INR m' + 1)) * sin th ^ m' * LD m' l (cos th)).
    { replace (S m' - 1)%nat with m' by lia. rewrite NT_KK, <- (KK_up l m') by lia. rewrite S_INR. assert (Hl : INR m' < INR l) by (apply lt_INR; lia). pose proof (pos_INR m').
      replace ((INR l + (INR m' + 1)) * (INR l - (INR m' + 1) + 1) * (if (S m' =? 1)%nat then 2 else 1)) with ((INR l - INR m') * (INR l + INR m' + 1) * hof m') by (unfold hof; destruct m'; cbn [Nat.eqb]; ring).
      set (A := (INR l - INR m') * (INR l + INR m' + 1)). assert (PA : 0 < A) by (unfold A; nra). assert (Hh : 0 < hof m') by (unfold hof; destruct (m' =? 0)%nat; lra).
      assert (Q : sqrt (A * hof m') * sqrt (A / hof m') = A). { assert (0 < A * hof m') by nra. assert (0 < A / hof m') by (apply Rdiv_lt_0_compat; assumption). rewrite <- sqrt_mult by lra. replace (A * hof m' * (A / hof m')) with (A * A) by (field; lra). apply sqrt_square. lra. }
      transitivity (sqrt (A * hof m') * sqrt (A / hof m') * (KK l (S m') * sin th ^ m' * LD m' l (cos th))); [ring|]. rewrite Q. ring. }
    rewrite E2.
    apply (is_derive_ext (fun t => KK l (S m') * (sin t ^ S m' * LD (S m') l (cos t)))); [intros t; req; rewrite NT_KK; ring|].
    assert (D1 : is_derive (fun t => sin t ^ S m') th (INR (S m') * cos th * sin th ^ m')). { evar_last; [apply (is_derive_pow sin); apply is_derive_Reals, derivable_pt_lim_sin|]. cbn [pred]. ring. }
    assert (D2 : is_derive (fun t => LD (S m') l (cos t)) th (- sin th * LD (S (S m')) l (cos th))). { evar_last; [apply (is_derive_comp (LD (S m') l) cos); [apply LD_derive|apply is_derive_Reals, derivable_pt_lim_cos]|]. unfold scal; cbn; unfold mult; cbn. ring. }
    evar_last; [apply (is_derive_scal (fun t => sin t ^ S m' * LD (S m') l (cos t))); apply (is_derive_mult (fun t => sin t ^ S m') (fun t => LD (S m') l (cos t))); [exact D1|exact D2|intros; apply Rmult_comm]|].
    unfold scal, plus, mult; cbn -[INR LD pow]. pose proof (LD_ode m' l (cos th)) as O. set (x := cos th) in *. set (u := sin th) in *.
    assert (U : 1 - x * x = u * u) by (unfold x, u; pose proof (sin2_cos2 th) as P; unfold Rsqr in P; lra). rewrite U in O. rewrite S_INR. replace (S m' + 1)%nat with (S (S m')) by lia. cbn [pow].
    assert (O' : 2 * (INR m' + 1) * x * LD (S m') l x = u * u * LD (S (S m')) l x + (INR l - INR m') * (INR l + INR m' + 1) * LD m' l x) by lra.
    assert (R : (INR m' + 1) * x * u ^ m' * LD (S m') l x = 1 / 2 * u ^ m' * (2 * (INR m' + 1) * x * LD (S m') l x)) by field.
    rewrite R, O'. replace (u ^ (m' + 1)) with (u * u ^ m') by (rewrite Nat.add_1_r; reflexivity). clearbody x u. field.
Qed.
Lemma slope_0 th : slope 0 0 th = 0. Proof. unfold slope. cbn [Nat.eqb]. change (INR 0) with 0. replace (0 * (0 + 1) / 2) with 0 by field. rewrite sqrt_0. ring. Qed.
(** derivative of the function of the cosine *)
Lemma Nlm_derive l m th : (m <= l)%nat -> 0 < th < PI -> is_derive (fun t => Nlm l m (cos t)) th (slope l m th).
Proof.
  intros H Ht. apply (is_derive_ext_loc (NT l m)); [|apply NT_slope; exact H].
  assert (P : 0 < Rmin th (PI - th)) by (apply Rmin_glb_lt; lra). exists (mkposreal _ P). intros y Hy. apply NT_Nlm. unfold ball in Hy; cbn in Hy. unfold AbsRing_ball, abs, minus, plus, opp in Hy; cbn in Hy. apply Rabs_def2 in Hy. pose proof (Rmin_l th (PI - th)). pose proof (Rmin_r th (PI - th)). lra.
Qed.

(** ** the tables as functions *)
Definition table (lmax : nat) (p : tbl) : Prop := forall l m j, (m <= l <= lmax)%nat -> p l m j = Fc m l j.
Lemma trc_S m x : trc m x = tr (m + 1) x.
Proof. unfold trc, tr. replace (m + 1)%nat with (S m) by lia. rewrite Nat.even_succ, <- Nat.negb_even. destruct (Nat.even m); reflexivity. Qed.
Lemma trc_P m x : (1 <= m)%nat -> trc m x = tr (m - 1) x.
Proof. intros H. destruct m as [|m]; [lia|]. replace (S m - 1)%nat with m by lia. unfold trc, tr. rewrite Nat.even_succ, <- Nat.negb_even. destruct (Nat.even m); reflexivity. Qed.
Lemma sum_up lmax p l m th : table lmax p -> (m + 1 <= l <= lmax)%nat -> sumn (lmax + 1) (fun n => p l (m + 1)%nat n * trc m (INR n * th)) = NT l (m + 1) th.
Proof. intros T H. rewrite <- (NT_cut (m + 1) l (lmax + 1)) by lia. apply sumn_ext. intros n _. rewrite T by lia. rewrite trc_S. reflexivity. Qed.
Lemma sum_down lmax p l m th : table lmax p -> (1 <= m)%nat -> (m - 1 <= l <= lmax)%nat -> sumn (lmax + 1) (fun n => p l (m - 1)%nat n * trc m (INR n * th)) = NT l (m - 1) th.
Proof. intros T H1 H. rewrite <- (NT_cut (m - 1) l (lmax + 1)) by lia. apply sumn_ext. intros n _. rewrite T by lia. rewrite trc_P by exact H1. reflexivity. Qed.
Lemma lead_pos l : (1 <= l)%nat -> 0 < sqrt ((INR l + 1) * INR l).
Proof. intros H. apply sqrt_lt_R0. assert (1 <= INR l) by (change 1 with (INR 1); apply le_INR; exact H). nra. Qed.
Lemma sqrt_quarter a : 0 <= a -> sqrt (a / 4) = 1 / 2 * sqrt a.
Proof. intros H. replace (a / 4) with ((1 / 2 * (1 / 2)) * a) by field. rewrite sqrt_mult by lra. rewrite sqrt_square by lra. reflexivity. Qed.
Lemma a_one L : 1 <= L -> sqrt ((L + 1) * (L - 1 + 1) * 2) = 2 * sqrt ((L + 1) * L / 2).
Proof. intros H. replace ((L + 1) * (L - 1 + 1) * 2) with ((2 * 2) * ((L + 1) * L / 2)) by field. rewrite sqrt_mult by nra. rewrite sqrt_square by lra. reflexivity. Qed.
Lemma v_series lmax p l m th : table lmax p -> (1 <= l)%nat -> (m <= l <= lmax)%nat ->
  sumn (lmax + 1) (fun n => vlm_of lmax p l m n * trc m (INR n * th)) = - slope l m th / sqrt ((INR l + 1) * INR l).
Proof.
  intros T H1 H. pose proof (lead_pos l H1) as PS. set (S := sqrt ((INR l + 1) * INR l)) in *. assert (HL : 1 <= INR l) by (change 1 with (INR 1); apply le_INR; exact H1).
  unfold vlm_of. replace ((1 <=? l)%nat && (l <=? lmax)%nat && (m <=? l)%nat) with true by lia. fold S. unfold slope. destruct (Nat.eqb_spec m 0) as [->|N].
  - rewrite (sumn_ext _ _ (fun n => (sqrt (INR l * (INR l + 1) / 2) / S) * (p l (0 + 1)%nat n * trc 0 (INR n * th)))).
    + rewrite sumn_scal, sum_up by (try exact T; lia). cbn [Nat.add]. unfold Rdiv. ring.
    + intros n _. unfold v_plus, v_minus. cbn [Nat.eqb Nat.leb andb Nat.add]. rewrite (Rmult_comm (INR l) (INR l + 1)). field. lra.
  - assert (Hm : INR m <= INR l) by (apply le_INR; lia). assert (Pm : 1 <= INR m) by (change 1 with (INR 1); apply le_INR; lia).
    set (a := sqrt ((INR l + INR m) * (INR l - INR m + 1) * (if (m =? 1)%nat then 2 else 1))). set (b := sqrt ((INR l - INR m) * (INR l + INR m + 1))).
    destruct (Nat.eq_dec m l) as [E|E].
    + rewrite (sumn_ext _ _ (fun n => (- (1 / 2 * a) / S) * (p l (m - 1)%nat n * trc m (INR n * th)))).
      { rewrite sumn_scal, sum_down by (try exact T; lia). assert (b = 0) as -> by (unfold b; rewrite E; replace ((INR l - INR l) * (INR l + INR l + 1)) with 0 by ring; apply sqrt_0). field. lra. }
      intros n _. unfold v_plus, v_minus. replace (m =? 0)%nat with false by lia. replace ((2 <=? l)%nat && (m <? l)%nat) with false by lia. unfold a. destruct (Nat.eqb_spec m 1) as [E1|E1].
      * rewrite E1. cbn [Nat.sub]. change (INR 1) with 1. rewrite (a_one (INR l) HL). field. lra.
      * replace ((2 <=? m)%nat && (m <=? l)%nat) with true by lia. rewrite sqrt_quarter by nra. rewrite Rmult_1_r. field. lra.
    + rewrite (sumn_ext _ _ (fun n => ((1 / 2 * b) / S) * (p l (m + 1)%nat n * trc m (INR n * th)) + (- (1 / 2 * a) / S) * (p l (m - 1)%nat n * trc m (INR n * th)))).
      { rewrite sumn_lin2, sum_up, sum_down by (try exact T; lia). field. lra. }
      intros n _. unfold v_plus, v_minus. replace (m =? 0)%nat with false by lia. replace ((2 <=? l)%nat && (m <? l)%nat) with true by lia. rewrite sqrt_quarter by nra. rewrite (Rmult_comm (INR l + INR m + 1) (INR l - INR m)). fold b. unfold a. destruct (Nat.eqb_spec m 1) as [E1|E1].
      * rewrite E1. cbn [Nat.sub]. change (INR 1) with 1. rewrite (a_one (INR l) HL). field. lra.
      * replace ((2 <=? m)%nat && (m <=? l)%nat) with true by lia. rewrite sqrt_quarter by nra. rewrite Rmult_1_r. field. lra.
Qed.
(** sectoral entries of the second table *)
Lemma w_sect lmax p l th : table lmax p -> (1 <= l <= lmax)%nat ->
  sin th * sumn (lmax + 1) (fun n => wlm_of lmax p l l n * trc l (INR n * th)) = (if (l =? 1)%nat then 1 else 1 / 2) * INR l * NT l l th / sqrt ((INR l + 1) * INR l).
Proof.
  intros T H. pose proof (lead_pos l ltac:(lia)) as PS. set (S := sqrt ((INR l + 1) * INR l)) in *. assert (HL : 1 <= INR l) by (change 1 with (INR 1); apply le_INR; lia).
  destruct (Nat.eqb_spec l 1) as [->|N].
  - rewrite (sumn_ext _ _ (fun n => (sqrt 3 / S) * (p 0%nat 0%nat n * trc 1 (INR n * th)))).
    + rewrite sumn_scal. rewrite (sum_down lmax p 0 1) by (try exact T; lia). cbn [Nat.sub]. unfold NT. rewrite NU_0_0, NU_1_1. change (INR 1) with 1. field. lra.
    + intros n _. unfold wlm_of. replace ((1 <=? 1)%nat && (1 <=? lmax)%nat && (1 <=? 1)%nat && (1 <=? 1)%nat) with true by lia. unfold w_plus, w_minus. cbn [Nat.leb Nat.ltb Nat.eqb andb Nat.sub]. fold S. change (INR 1) with 1.
      replace ((2 * 1 + 1) / (2 * 1 - 1)) with 3 by field. replace (1 * (1 + 1) / 2) with 1 by field. rewrite sqrt_1. field. lra.
  - assert (H2 : 2 <= INR l) by (change 2 with (INR 2); apply le_INR; lia). set (r := sqrt ((2 * INR l + 1) / (2 * INR l - 1)) * (sqrt ((INR l + INR l) * (INR l + INR l - 1)) / 4)).
    rewrite (sumn_ext _ _ (fun n => (r / S) * (p (l - 1)%nat (l - 1)%nat n * trc l (INR n * th)))).
    + rewrite sumn_scal. rewrite (sum_down lmax p (l - 1) l) by (try exact T; lia). assert (E : exists k, l = Datatypes.S k) by (exists (l - 1)%nat; lia). destruct E as [k ->]. replace (Datatypes.S k - 1)%nat with k by lia.
      unfold NT at 2. rewrite NU_sect by lia. fold (NT k k th). assert (R : r = 1 / 2 * INR (Datatypes.S k) * sqrt ((2 * INR k + 3) / (2 * INR k + 2))).
      { unfold r. rewrite S_INR. assert (Pk : 1 <= INR k) by (rewrite S_INR in H2; lra). 
        apply sq_eq.
        - apply Rmult_le_pos; [apply sqrt_pos|]. apply Rmult_le_pos; [apply sqrt_pos|lra].
        - apply Rmult_le_pos; [lra|apply sqrt_pos].
        - match goal with |- ?x * (?y / 4) * (?x * (?y / 4)) = ?c * ?z * (?c * ?z) => transitivity ((x * x) * (y * y) / 16); [field|transitivity ((c * c) * (z * z)); [|ring]] end.
          rewrite !sqrt_sqrt; [field; lra|apply Rlt_le, Rdiv_lt_0_compat; lra|nra|apply Rlt_le, Rdiv_lt_0_compat; lra]. }
      rewrite R. field. lra.
    + intros n _. unfold wlm_of. replace ((1 <=? l)%nat && (l <=? lmax)%nat && (1 <=? l)%nat && (l <=? l)%nat) with true by lia. unfold w_plus, w_minus. replace ((2 <=? l)%nat && (1 <=? l)%nat && (l <? l)%nat) with false by lia. replace (l =? 1)%nat with false by lia. replace ((2 <=? l)%nat && (l <=? l)%nat) with true by lia. fold S. unfold r. field. lra.
Qed.
