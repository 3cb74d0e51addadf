(** Property C68: legendre.py, all orders of one degree.  Specification: [Nlm]
    and the m-th derivative of the Legendre polynomial [legP] (LegendreSpec,
    LegendreSpec2).  [tiny] stands for the values the code puts at points with
    0 < (1-x^2)^(l/2) <= 2^-511, where it uses an approximation. *)
From Coq Require Import Reals Lra Lia ZifyBool ZifyNat.
From Coquelicot Require Import Coquelicot.
From Verif Require Import Base Arr LegendreSpec LegendreSpec2 LegendreModel LegendreProofs LegendreProofs2 PropLegendre LegendreOneModel LegendreOneProofs.
Close Scope string_scope.
Close Scope Z_scope.
Open Scope R_scope.
Local Arguments LD : simpl never.

(** a point of the interval where the code does not switch to the approximation *)
Definition exact_point (l : nat) (x : R) : Prop := -1 <= x <= 1 /\ (x = 1 \/ x = -1 \/ / 2 ^ 511 < sqrt (1 - x ^ 2) ^ l).

Lemma row0 (xs : list R) t x : nth_error xs t = Some x -> at2 [map (fun _ => 1) xs] 0 t = Some 1.
Proof. intros H. unfold at2. cbn [nth_error]. now rewrite (map_nth_error _ _ _ H). Qed.

Theorem C68_normalized : forall tiny l xs, let p := legendre tiny l xs true in
  List.length p = (l + 1)%nat /\
  forall m t x, (m <= l)%nat -> nth_error xs t = Some x -> exact_point l x -> at2 p m t = Some (Nlm l m x).
Proof.
  intros tiny l xs. unfold legendre. destruct (Nat.eqb_spec l 0) as [->|N].
  - split; [reflexivity|]. intros m t x Hm Ht _. replace m with 0%nat by lia. rewrite (row0 xs t x Ht). f_equal. now rewrite Nlm_NU, NU_0_0.
  - cbv zeta. rewrite map_length, seq_length. split; [reflexivity|]. intros m t x Hm Ht Hx.
    rewrite (at2_map (fun m x => legendre_col tiny l x m * legendre_norm true l m) (l + 1) xs m t x) by (lia || assumption).
    f_equal. apply legendre_normalized; [lia|exact Hx|exact Hm].
Qed.
Print Assumptions C68_normalized.

Theorem C68_unnormalized : forall tiny l xs, let p := legendre tiny l xs false in
  List.length p = (l + 1)%nat /\
  forall m t x, (m <= l)%nat -> nth_error xs t = Some x -> exact_point l x ->
    at2 p m t = Some ((-1) ^ m * sqrt (1 - x ^ 2) ^ m * Derive_n (legP l) m x).
Proof.
  intros tiny l xs. unfold legendre. destruct (Nat.eqb_spec l 0) as [->|N].
  - split; [reflexivity|]. intros m t x Hm Ht _. replace m with 0%nat by lia. rewrite (row0 xs t x Ht). f_equal. cbn. ring.
  - cbv zeta. rewrite map_length, seq_length. split; [reflexivity|]. intros m t x Hm Ht Hx.
    rewrite (at2_map (fun m x => legendre_col tiny l x m * legendre_norm false l m) (l + 1) xs m t x) by (lia || assumption).
    f_equal. apply legendre_plain; [lia|exact Hx|exact Hm].
Qed.

(** it is row l of plm_holmes away from the poles *)
Theorem C68_agrees_with_holmes : forall tiny LMAX l xs P dP, (2 <= LMAX)%nat -> (l <= LMAX)%nat ->
  plm_holmes LMAX xs None = Ok (P, dP) ->
  forall m t x, (m <= l)%nat -> nth_error xs t = Some x -> exact_point l x -> -1 < x < 1 ->
  at2 (legendre tiny l xs true) m t = Some (get P l m t).
Proof.
  intros tiny LMAX l xs P dP HL Hl E m t x Hm Ht Hx Hi. destruct (C68_normalized tiny l xs) as [_ V]. rewrite (V m t x Hm Ht Hx). f_equal.
  unfold plm_holmes in E. destruct LMAX as [|[|k]]; [lia|lia|]. assert (E1 : P = table (fun x => fst (holmes_tab (S (S k)) x)) (S (S k)) (Nat.min (S (S k)) (upto_order None (S (S k))) + 1) xs) by congruence.
  rewrite E1. cbn [table get].
  rewrite (nth_error_nth xs t 0 Ht). destruct (holmes_ok (S (S k)) x ltac:(lia) l m Hl) as [-> _]. rewrite Nlm_NU. now rewrite uval_in.
Qed.

(** points used in practice satisfy the hypothesis: with sin(theta) = 3/5 every degree up to 600 *)
Example C68_example : exact_point 600 (4 / 5) /\ exact_point 600 1 /\ exact_point 600 (-1).
Proof.
  assert (S : sqrt (1 - (4 / 5) ^ 2) = 3 / 5) by (replace (1 - (4 / 5) ^ 2) with ((3 / 5) * (3 / 5)) by field; apply sqrt_square; lra).
  repeat split; try lra; try (left; reflexivity); try (right; left; reflexivity). right; right. rewrite S.
  replace 600%nat with (4 * 150)%nat by lia. rewrite pow_mult.
  apply Rlt_le_trans with ((/ 2 ^ 3) ^ 150).
  - rewrite pow_inv, <- pow_mult. apply Rinv_lt_contravar; [apply Rmult_lt_0_compat; apply pow_lt; lra|].
    apply Rlt_pow; [lra|lia].
  - apply pow_incr. split; [|lra]. left. apply Rinv_0_lt_compat, pow_lt. lra.
Qed.
