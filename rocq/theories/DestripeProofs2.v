From Coq Require Import Reals Lra ZifyBool ZifyNat.
From Verif Require Import Base Arr DestripeModel DestripeProofs.
Close Scope Z_scope.
Open Scope R_scope.
Ltac Zify.zify_post_hook ::= Z.to_euclidean_division_equations.

Lemma degrees_NoDup odd m LMAX : NoDup (degrees odd m LMAX).
Proof. apply NoDup_filter, seq_NoDup. Qed.

(** first degree >= m with the parity of l *)
Definition first_deg (m l : nat) : nat := if Nat.even (l - m) then m else (m + 1)%nat.

Lemma first_deg_degrees m l : (m <= l)%nat -> first_deg m l = (m + (if Bool.eqb (Nat.odd m) (Nat.odd l) then 0 else 1))%nat.
Proof.
  intros H. unfold first_deg. rewrite Nat.even_sub by exact H. rewrite <- !Nat.negb_odd.
  destruct (Nat.odd m), (Nat.odd l); cbn; lia.
Qed.

Lemma degrees_length odd m LMAX : let f := (m + (if Bool.eqb (Nat.odd m) odd then 0 else 1))%nat in
  length (degrees odd m LMAX) = if (f <=? LMAX)%nat then ((LMAX - f) / 2 + 1)%nat else 0%nat.
Proof.
  cbv zeta. unfold degrees. remember (LMAX + 1 - m)%nat as c eqn:Hc. revert m Hc.
  induction c as [|c IH]; intros m Hc; cbn [seq filter].
  - cbn. destruct (Bool.eqb (Nat.odd m) odd); [replace (m + 0 <=? LMAX)%nat with false by lia|replace (m + 1 <=? LMAX)%nat with false by lia]; reflexivity.
  - specialize (IH (S m) ltac:(lia)).
    assert (P : Bool.eqb (Nat.odd (S m)) odd = negb (Bool.eqb (Nat.odd m) odd)).
    { rewrite Nat.odd_succ, <- Nat.negb_odd. destruct (Nat.odd m), odd; reflexivity. }
    rewrite P in IH. destruct (Bool.eqb (Nat.odd m) odd); cbn [negb] in IH.
    + cbn [length]. rewrite IH. replace (m + 0 <=? LMAX)%nat with true by lia.
      destruct (Nat.leb_spec (S m + 1) LMAX); [|destruct (Nat.leb_spec m LMAX)]; lia.
    + rewrite IH. replace (S m + 0)%nat with (m + 1)%nat by lia. reflexivity.
Qed.

Lemma smoothed_val round narrow LMAX m x l : (m <= l <= LMAX)%nat ->
  let ds := degrees (Nat.odd l) m LMAX in
  exists k, (k < length ds)%nat /\ l = (first_deg m l + 2 * k)%nat /\
    smoothed round narrow LMAX m x l = smval (nsmooth round m) narrow ds x k.
Proof.
  intros H. cbv zeta. destruct (degrees_pos m LMAX l H) as (k & Hk & E). exists k. split; [exact Hk|].
  split. { rewrite (first_deg_degrees m l) by lia. rewrite <- E at 1. now rewrite degrees_nth by exact Hk. }
  unfold smoothed. cbv zeta. destruct (Nat.odd l) eqn:O.
  - rewrite <- E at 1. apply smooth_series_spec; [apply degrees_NoDup|exact Hk].
  - rewrite smooth_series_out.
    + rewrite <- E at 1. apply smooth_series_spec; [apply degrees_NoDup|exact Hk].
    + rewrite degrees_in. intros [_ O']. congruence.
Qed.

(** window that covers positions of one parity *)
Lemma degrees_fit m LMAX l n : (m <= l <= LMAX)%nat ->
  (length (degrees (Nat.odd l) m LMAX) <=? 2 * n)%nat = (LMAX <? first_deg m l + 4 * n)%nat.
Proof.
  intros H. pose proof (degrees_length (Nat.odd l) m LMAX) as L. cbv zeta in L. rewrite <- first_deg_degrees in L by lia.
  rewrite L. assert (first_deg m l <= l)%nat.
  { unfold first_deg. destruct (Nat.even (l - m)) eqn:E; [lia|]. assert (l <> m) by (intros ->; rewrite Nat.sub_diag in E; discriminate). lia. }
  replace (first_deg m l <=? LMAX)%nat with true by lia.
  destruct (Nat.ltb_spec LMAX (first_deg m l + 4 * n)); lia.
Qed.

(** a window centred at degree c fits into first..LMAX and has the parity of l *)
Definition admissible (f LMAX n l c : nat) : Prop :=
  (f + 2 * n <= c)%nat /\ (c + 2 * n <= LMAX)%nat /\ Nat.even (l + c) = true.
Definition dist (a b : nat) : nat := ((a - b) + (b - a))%nat.

Lemma smoothed_window round narrow LMAX m x l : (m <= l <= LMAX)%nat ->
  (first_deg m l + 4 * nsmooth round m <= LMAX)%nat ->
  let n := nsmooth round m in
  exists c, admissible (first_deg m l) LMAX n l c /\
    (forall c', admissible (first_deg m l) LMAX n l c' -> (dist l c <= dist l c')%nat) /\
    smoothed round narrow LMAX m x l = poly (fit n (fun i => x (c - 2 * n + 2 * i)%nat)) ((INR l - INR c) / 2).
Proof.
  intros H W. cbv zeta. set (n := nsmooth round m) in *.
  destruct (smoothed_val round narrow LMAX m x l H) as (k & Hk & El & ->). fold n.
  pose proof (degrees_fit m LMAX l n H) as F. replace (LMAX <? first_deg m l + 4 * n)%nat with false in F by lia.
  set (ds := degrees (Nat.odd l) m LMAX) in *. set (f := first_deg m l) in *.
  assert (L : length ds = ((LMAX - f) / 2 + 1)%nat).
  { unfold ds. pose proof (degrees_length (Nat.odd l) m LMAX) as L. cbv zeta in L. rewrite <- first_deg_degrees in L by lia.
    fold f in L. rewrite L. replace (f <=? LMAX)%nat with true by lia. reflexivity. }
  assert (D : forall j, (j < length ds)%nat -> nth j ds 0%nat = (f + 2 * j)%nat).
  { intros j Hj. unfold ds. rewrite degrees_nth by exact Hj. unfold f. rewrite (first_deg_degrees m l) by lia. reflexivity. }
  unfold smval. rewrite F. set (c := centre n (length ds) k). cbv zeta.
  assert (Hc : (n <= c <= length ds - 1 - n)%nat) by (unfold c, centre; lia).
  exists (f + 2 * c)%nat. split; [|split].
  - split; [lia|]. split; [lia|]. apply Nat.even_spec. exists (f + k + c)%nat. lia.
  - intros c' (A1 & A2 & A3). apply Nat.even_spec in A3. destruct A3 as (h & A3).
    assert (exists j, c' = (f + 2 * j)%nat) as (j & ->) by (exists (h - f - k)%nat; lia).
    unfold dist, c, centre. lia.
  - f_equal.
    + apply fit_ext. intros i Hi. f_equal. rewrite D by lia. lia.
    + rewrite El at 1. rewrite !plus_INR, !mult_INR. cbn [INR]. field.
Qed.

Lemma smoothed_narrow round narrow LMAX m x l : (m <= l <= LMAX)%nat ->
  (LMAX < first_deg m l + 4 * nsmooth round m)%nat ->
  smoothed round narrow LMAX m x l = if narrow then 0 else x l.
Proof.
  intros H W. destruct (smoothed_val round narrow LMAX m x l H) as (k & Hk & El & ->).
  pose proof (degrees_fit m LMAX l (nsmooth round m) H) as F. replace (LMAX <? _)%nat with true in F by lia.
  unfold smval. rewrite F. destruct narrow; [reflexivity|]. f_equal. rewrite degrees_nth by exact Hk.
  rewrite <- first_deg_degrees by lia. lia.
Qed.

Lemma nsmooth_ge round m : (2 <= nsmooth round m)%nat.
Proof. unfold nsmooth. lia. Qed.

Lemma smoothed_linear round narrow LMAX m x y p q l : (m <= l <= LMAX)%nat ->
  smoothed round narrow LMAX m (fun j => p * x j + q * y j) l =
  p * smoothed round narrow LMAX m x l + q * smoothed round narrow LMAX m y l.
Proof.
  intros H. pose proof (nsmooth_ge round m) as Hn.
  destruct (degrees_pos m LMAX l H) as (k & Hk & E).
  assert (V : forall z, smoothed round narrow LMAX m z l = smval (nsmooth round m) narrow (degrees (Nat.odd l) m LMAX) z k).
  { intros z. unfold smoothed. cbv zeta. destruct (Nat.odd l) eqn:O.
    - rewrite <- E at 1. apply smooth_series_spec; [apply degrees_NoDup|exact Hk].
    - rewrite smooth_series_out; [rewrite <- E at 1; apply smooth_series_spec; [apply degrees_NoDup|exact Hk]|].
      rewrite degrees_in. intros [_ O']. congruence. }
  rewrite !V. unfold smval. destruct (_ <=? _)%nat; [destruct narrow; ring|]. cbv zeta.
  apply fit_linear. lia.
Qed.

(** a series quadratic in degree (for the parity of l) equals its smoothed value *)
Lemma smoothed_quadratic round narrow LMAX m x l c0 c1 c2 : (m <= l <= LMAX)%nat ->
  (first_deg m l + 4 * nsmooth round m <= LMAX)%nat ->
  (forall j, (m <= j <= LMAX)%nat -> Nat.even (l + j) = true -> x j = c0 + c1 * INR j + c2 * INR j ^ 2) ->
  smoothed round narrow LMAX m x l = x l.
Proof.
  intros H W Q. pose proof (nsmooth_ge round m) as Hn.
  destruct (smoothed_window round narrow LMAX m x l H W) as (c & (A1 & A2 & A3) & _ & ->).
  set (n := nsmooth round m) in *. set (C := INR c).
  assert (Hf : (m <= first_deg m l)%nat) by (clear; unfold first_deg; destruct (Nat.even (l - m)); lia).
  rewrite (fit_quadratic n _ (c0 + c1 * C + c2 * C ^ 2) (2 * c1 + 4 * c2 * C) (4 * c2)); [|lia|].
  - rewrite (Q l) by (try lia; apply Nat.even_spec; exists l; lia). unfold poly. field.
  - intros i Hi. apply Nat.even_spec in A3. destruct A3 as (h & A3).
    rewrite Q; [|lia|apply Nat.even_spec; exists (h - n + i)%nat; lia].
    unfold poly, off. rewrite plus_INR, minus_INR, !mult_INR by lia. fold C. cbn [INR]. ring.
Qed.
