(** Property C42: destripe_harmonics (gravity_toolkit/destripe_harmonics.py).
    [first_deg m l]: m or m+1, whichever has the parity of l.
    [admissible f LMAX n l c]: the 2n+1 degrees c-2n, c-2n+2, .., c+2n lie between
    f and LMAX and have the parity of l.  [dist]: distance of two degrees. *)
From Coq Require Import Reals Lra ZifyBool ZifyNat.
From Verif Require Import Base Arr DestripeModel DestripeProofs DestripeProofs2.
Close Scope Z_scope.
Open Scope R_scope.

Definition upto (MMAX : option nat) (LMAX : nat) : nat := match MMAX with Some k => k | None => LMAX end.
(** a call that is served *)
Definition served (clm slm : arr R) (LMAX : nat) (MMAX : option nat) : Prop :=
  (1 <= LMAX)%nat /\ (LMAX < rows clm)%nat /\ (LMAX < rows slm)%nat /\
  (Nat.min LMAX (upto MMAX LMAX) < cols clm)%nat /\ (Nat.min LMAX (upto MMAX LMAX) < cols slm)%nat.

Lemma served_ok clm slm LMAX MMAX round narrow : served clm slm LMAX MMAX ->
  destripe_harmonics clm slm LMAX MMAX round narrow =
  Ok (destripe1 round narrow LMAX (upto MMAX LMAX) clm, destripe1 round narrow LMAX (upto MMAX LMAX) slm).
Proof.
  intros (H1 & H2 & H3 & H4 & H5). unfold destripe_harmonics, readable, upto in *. cbv zeta.
  replace ((rows clm =? 1) || (rows slm =? 1))%nat with false by lia. replace (LMAX =? 0)%nat with false by lia.
  set (MM := match MMAX with Some k => k | None => LMAX end) in *.
  replace (LMAX <? rows clm)%nat with true by lia. replace (LMAX <? rows slm)%nat with true by lia.
  replace (Nat.min LMAX MM <? cols clm)%nat with true by lia. now replace (Nat.min LMAX MM <? cols slm)%nat with true by lia.
Qed.

(** [filtered MM LMAX l m]: the coefficients the filter acts on *)
Definition filtered (MM LMAX l m : nat) : Prop := (5 <= m)%nat /\ (m <= MM)%nat /\ (m <= l)%nat /\ (l <= LMAX)%nat.

Lemma destripe1_in round narrow LMAX MM a l m t : filtered MM LMAX l m ->
  get (destripe1 round narrow LMAX MM a) l m t = get a l m t - smoothed round narrow LMAX m (fun j => get a j m t) l.
Proof.
  intros (H1 & H2 & H3 & H4). unfold destripe1. cbn [get].
  now replace ((m <=? MM) && (m <=? l) && (l <=? LMAX) && (5 <=? m))%nat with true by lia.
Qed.
Lemma destripe1_out round narrow LMAX MM a l m t : ~ filtered MM LMAX l m ->
  get (destripe1 round narrow LMAX MM a) l m t = get a l m t.
Proof.
  intros H. unfold destripe1. cbn [get].
  replace ((m <=? MM) && (m <=? l) && (l <=? LMAX) && (5 <=? m))%nat with false; [reflexivity|].
  unfold filtered in H. lia.
Qed.

(** orders below 5, orders above MMAX, degrees above LMAX and the upper triangle
    keep their values; shapes are kept *)
Theorem C42_untouched : forall clm slm LMAX MMAX round narrow, served clm slm LMAX MMAX ->
  exists c s, destripe_harmonics clm slm LMAX MMAX round narrow = Ok (c, s) /\ same_shape c clm /\ same_shape s slm /\
    forall l m t, ((m < 5)%nat \/ (upto MMAX LMAX < m)%nat \/ (l < m)%nat \/ (LMAX < l)%nat) ->
      get c l m t = get clm l m t /\ get s l m t = get slm l m t.
Proof.
  intros clm slm LMAX MMAX round narrow H. rewrite (served_ok _ _ _ _ _ _ H). do 2 eexists. split; [reflexivity|].
  do 2 (split; [repeat split|]). intros l m t Hlm. rewrite !destripe1_out by (unfold filtered; lia). auto.
Qed.
Print Assumptions C42_untouched.

(** when the window fits, the filter subtracts the quadratic that fits the
    coefficients of the same order and parity best (least squares) in the
    admissible window closest to the degree *)
Theorem C42_least_squares : forall clm slm LMAX MMAX round narrow l m, served clm slm LMAX MMAX ->
  filtered (upto MMAX LMAX) LMAX l m ->
  let n := nsmooth round m in
  (first_deg m l + 4 * n <= LMAX)%nat ->
  exists c s, destripe_harmonics clm slm LMAX MMAX round narrow = Ok (c, s) /\
  exists z, admissible (first_deg m l) LMAX n l z /\
    (forall z', admissible (first_deg m l) LMAX n l z' -> (dist l z <= dist l z')%nat) /\
    (forall a a', (a = clm /\ a' = c) \/ (a = slm /\ a' = s) -> exists q0 q1 q2,
      let quad p0 p1 p2 (i : nat) := let x := INR i - INR n in p0 + p1 * x + p2 * x ^ 2 in
      let cost p0 p1 p2 := rsum (2 * n + 1) (fun i => (get a (z - 2 * n + 2 * i) m 0 - quad p0 p1 p2 i) ^ 2) in
      get a' l m 0 = get a l m 0 - (q0 + q1 * ((INR l - INR z) / 2) + q2 * ((INR l - INR z) / 2) ^ 2) /\
      forall p0 p1 p2, cost q0 q1 q2 <= cost p0 p1 p2).
Proof.
  intros clm slm LMAX MMAX round narrow l m H F n W. rewrite (served_ok _ _ _ _ _ _ H). do 2 eexists. split; [reflexivity|].
  assert (Hm : (m <= l <= LMAX)%nat) by (unfold filtered in F; lia).
  pose proof (nsmooth_ge round m) as Hn. fold n in Hn.
  destruct (smoothed_window round narrow LMAX m (fun j => get clm j m 0) l Hm W) as (z & A & D & E1).
  destruct (smoothed_window round narrow LMAX m (fun j => get slm j m 0) l Hm W) as (z' & A' & D' & E2).
  exists z. split; [exact A|]. split; [exact D|].
  assert (z' = z).
  { destruct (Nat.eq_dec z z') as [|Ne]; [congruence|exfalso].
    pose proof (D z' A') as X1. pose proof (D' z A) as X2.
    destruct A as (a1 & a2 & a3), A' as (b1 & b2 & b3).
    (* the admissible centres form an interval of one parity: equal distances on both sides are impossible *)
    apply Nat.even_spec in a3, b3. destruct a3 as (u & a3), b3 as (v & b3).
    assert (M : admissible (first_deg m l) LMAX n l l).
    { unfold dist in *. split; [lia|]. split; [lia|]. apply Nat.even_spec. exists l. lia. }
    specialize (D l M). unfold dist in *. lia. }
  subst z'. fold n in E1, E2.
  intros a a' [[-> ->]|[-> ->]]; rewrite destripe1_in by exact F; cbv zeta.
  - rewrite E1. set (y := fun i => get clm (z - 2 * n + 2 * i)%nat m 0). destruct (fit n y) as [[q0 q1] q2] eqn:Q.
    exists q0, q1, q2. split; [reflexivity|]. intros p0 p1 p2. pose proof (fit_minimal n y (p0, p1, p2) ltac:(lia)) as M. rewrite Q in M. exact M.
  - rewrite E2. set (y := fun i => get slm (z - 2 * n + 2 * i)%nat m 0). destruct (fit n y) as [[q0 q1] q2] eqn:Q.
    exists q0, q1, q2. split; [reflexivity|]. intros p0 p1 p2. pose proof (fit_minimal n y (p0, p1, p2) ltac:(lia)) as M. rewrite Q in M. exact M.
Qed.
Print Assumptions C42_least_squares.

(** smooth signals: coefficients of one order and parity that are quadratic in
    degree are removed completely *)
Theorem C42_quadratic_removed : forall clm slm LMAX MMAX round narrow l m c0 c1 c2, served clm slm LMAX MMAX ->
  filtered (upto MMAX LMAX) LMAX l m -> (first_deg m l + 4 * nsmooth round m <= LMAX)%nat ->
  (forall j, (m <= j <= LMAX)%nat -> Nat.even (l + j) = true -> get clm j m 0 = c0 + c1 * INR j + c2 * INR j ^ 2) ->
  exists c s, destripe_harmonics clm slm LMAX MMAX round narrow = Ok (c, s) /\ get c l m 0 = 0.
Proof.
  intros clm slm LMAX MMAX round narrow l m c0 c1 c2 H F W Q. rewrite (served_ok _ _ _ _ _ _ H). do 2 eexists. split; [reflexivity|].
  rewrite destripe1_in by exact F.
  assert (Hm : (m <= l <= LMAX)%nat) by (unfold filtered in F; lia).
  rewrite (smoothed_quadratic round narrow LMAX m (fun j => get clm j m 0) l c0 c1 c2 Hm W Q). ring.
Qed.
Print Assumptions C42_quadratic_removed.

(** linear in the coefficients, cosine and sine parts independent *)
Definition lin2 (p q : R) (a b c : arr R) : Prop := same_shape c a /\ same_shape c b /\
  forall l m t, get c l m t = p * get a l m t + q * get b l m t.
Theorem C42_linear : forall p q ca cb cc sa sb sc LMAX MMAX round narrow, lin2 p q ca cb cc -> lin2 p q sa sb sc ->
  served cc sc LMAX MMAX ->
  exists ca' sa' cb' sb' cc' sc', destripe_harmonics ca sa LMAX MMAX round narrow = Ok (ca', sa') /\
    destripe_harmonics cb sb LMAX MMAX round narrow = Ok (cb', sb') /\
    destripe_harmonics cc sc LMAX MMAX round narrow = Ok (cc', sc') /\ lin2 p q ca' cb' cc' /\ lin2 p q sa' sb' sc'.
Proof.
  intros p q ca cb cc sa sb sc LMAX MMAX round narrow (C1 & C2 & C3) (S1 & S2 & S3) H.
  assert (Ha : served ca sa LMAX MMAX) by (destruct C1 as (a1 & a2 & _), S1 as (b1 & b2 & _); unfold served in *; rewrite <- a1, <- a2, <- b1, <- b2; exact H).
  assert (Hb : served cb sb LMAX MMAX) by (destruct C2 as (a1 & a2 & _), S2 as (b1 & b2 & _); unfold served in *; rewrite <- a1, <- a2, <- b1, <- b2; exact H).
  do 6 eexists. rewrite !served_ok by assumption. do 3 (split; [reflexivity|]).
  assert (L : forall a b c, same_shape c a -> same_shape c b -> (forall l m t, get c l m t = p * get a l m t + q * get b l m t) ->
    lin2 p q (destripe1 round narrow LMAX (upto MMAX LMAX) a) (destripe1 round narrow LMAX (upto MMAX LMAX) b) (destripe1 round narrow LMAX (upto MMAX LMAX) c)).
  { intros a b c X1 X2 X3. split; [exact X1|]. split; [exact X2|]. intros l m t.
    destruct (le_dec 5 m) as [G1|G1]; [destruct (le_dec m (upto MMAX LMAX)) as [G2|G2]; [destruct (le_dec m l) as [G3|G3]; [destruct (le_dec l LMAX) as [G4|G4]|]|]|].
    1:{ assert (F : filtered (upto MMAX LMAX) LMAX l m) by (unfold filtered; lia). rewrite !destripe1_in by exact F.
        assert (E : smoothed round narrow LMAX m (fun j => get c j m t) l =
          smoothed round narrow LMAX m (fun j => p * get a j m t + q * get b j m t) l).
        { f_equal. apply FunctionalExtensionality.functional_extensionality. intros; apply X3. }
        rewrite E, smoothed_linear by lia. rewrite X3. ring. }
    all: rewrite !destripe1_out by (unfold filtered; lia); apply X3. }
  split; now apply L.
Qed.
Print Assumptions C42_linear.

(** too few degrees for the window: NARROW=True leaves the coefficient alone,
    NARROW=False (the default) clears it *)
Theorem C42_narrow : forall clm slm LMAX MMAX round narrow l m, served clm slm LMAX MMAX ->
  filtered (upto MMAX LMAX) LMAX l m -> (LMAX < first_deg m l + 4 * nsmooth round m)%nat ->
  exists c s, destripe_harmonics clm slm LMAX MMAX round narrow = Ok (c, s) /\
    get c l m 0 = (if narrow then get clm l m 0 else 0) /\ get s l m 0 = (if narrow then get slm l m 0 else 0).
Proof.
  intros clm slm LMAX MMAX round narrow l m H F W. rewrite (served_ok _ _ _ _ _ _ H). do 2 eexists. split; [reflexivity|].
  rewrite !destripe1_in by exact F. assert (Hm : (m <= l <= LMAX)%nat) by (unfold filtered in F; lia).
  rewrite !smoothed_narrow by assumption. destruct narrow; split; ring.
Qed.
Print Assumptions C42_narrow.

(** the window: 15 exp(-m/10) rounded, at least 2 *)
Theorem C42_window : forall m, let n := nsmooth true m in (2 <= n)%nat /\
  (n <> 2%nat -> Rabs (INR n - 15 * exp (- INR m / 10)) <= 1 / 2).
Proof.
  intros m n. split; [apply nsmooth_ge|]. intros N. unfold n in *. clear n. unfold nsmooth in *. cbv zeta in *.
  set (s := exp (- INR m / 10) * 15) in *. replace (15 * exp (- INR m / 10)) with s by (unfold s; ring).
  assert (A : (2 <= around s)%Z) by lia. replace (Z.max 2 (around s)) with (around s) by lia.
  rewrite INR_IZR_INZ, Z2Nat.id by lia. destruct (base_Int_part s) as (B1 & B2). unfold around. cbv zeta.
  apply Rabs_le.
  destruct (Rlt_dec (s - IZR (Int_part s)) (1 / 2)); [lra|].
  destruct (Rlt_dec (1 / 2) (s - IZR (Int_part s))); [rewrite plus_IZR; lra|].
  destruct (Z.even (Int_part s)); [|rewrite plus_IZR]; lra.
Qed.
Print Assumptions C42_window.
(** the window never grows with order *)
Theorem C42_window_monotone : forall m m', (m <= m')%nat -> (nsmooth false m' <= nsmooth false m)%nat.
Proof.
  intros m m' H. unfold nsmooth. cbv zeta. apply Z2Nat.inj_le; [lia|lia|]. apply Z.max_le_compat_l.
  apply le_INR in H.
  assert (E : exp (- INR m' / 10) * 15 <= exp (- INR m / 10) * 15).
  { apply Rmult_le_compat_r; [lra|]. destruct (Req_dec (INR m) (INR m')) as [->|N]; [lra|].
    left. apply exp_increasing. lra. }
  set (a := exp (- INR m' / 10) * 15) in *. set (b := exp (- INR m / 10) * 15) in *.
  destruct (base_Int_part a) as (A1 & A2), (base_Int_part b) as (B1 & B2).
  apply Z.lt_succ_r. apply lt_IZR. rewrite succ_IZR. lra.
Qed.

(** calls that raise *)
Theorem C42_errors : forall clm slm LMAX MMAX round narrow,
  ((rows clm = 1%nat \/ rows slm = 1%nat) -> destripe_harmonics clm slm LMAX MMAX round narrow = Err ValueError) /\
  (rows clm <> 1%nat -> rows slm <> 1%nat -> ~ served clm slm LMAX MMAX ->
     destripe_harmonics clm slm LMAX MMAX round narrow = Err IndexError).
Proof.
  intros clm slm LMAX MMAX round narrow. unfold destripe_harmonics, readable, served, upto. cbv zeta.
  set (MM := match MMAX with Some k => k | None => LMAX end). split; intros H.
  - now replace ((rows clm =? 1) || (rows slm =? 1))%nat with true by lia.
  - intros H2 H3. replace ((rows clm =? 1) || (rows slm =? 1))%nat with false by lia.
    destruct (Nat.eqb_spec LMAX 0); [reflexivity|].
    match goal with |- (if ?b then _ else _) = _ => replace b with false; [reflexivity|] end. lia.
Qed.

Definition ex_arr : arr R := mkarr 61 61 None (fun l m _ => INR l - INR m ^ 2).
Lemma nsmooth_le15 m : (nsmooth true m <= 15)%nat.
Proof.
  unfold nsmooth. cbv zeta. set (s := exp (- INR m / 10) * 15).
  assert (S : s <= 15).
  { unfold s. replace 15 with (1 * 15) at 2 by ring. apply Rmult_le_compat_r; [lra|]. rewrite <- exp_0.
    pose proof (pos_INR m). destruct (Req_dec (INR m) 0) as [E|E]; [rewrite E; unfold Rdiv; rewrite Ropp_0, Rmult_0_l; lra|].
    left. apply exp_increasing. lra. }
  assert (A : (around s <= 15)%Z).
  { destruct (base_Int_part s) as (B1 & B2). unfold around. cbv zeta.
    assert (I : (Int_part s <= 15)%Z) by (apply le_IZR; lra).
    destruct (Z.eq_dec (Int_part s) 15) as [E|E].
    - rewrite E in *. destruct (Rlt_dec (s - IZR 15) (1 / 2)); [lia|lra].
    - destruct (Rlt_dec _ _); [lia|]. destruct (Rlt_dec _ _); [lia|]. destruct (Z.even _); lia. }
  lia.
Qed.
Example C42_example : served ex_arr ex_arr 60 None /\ filtered 60 60 40 10 /\
  exists c s, destripe_harmonics ex_arr ex_arr 60 None true false = Ok (c, s) /\ get c 41 4 0 = 41 - 4 ^ 2.
Proof.
  assert (S : served ex_arr ex_arr 60 None) by (unfold served, ex_arr; cbn [rows cols upto]; lia).
  split; [exact S|]. split; [unfold filtered; lia|].
  destruct (C42_untouched _ _ _ _ true false S) as (c & s & E & _ & _ & U). exists c, s. split; [exact E|].
  destruct (U 41%nat 4%nat 0%nat ltac:(lia)) as (-> & _). cbn. ring.
Qed.
(** with degrees up to 80 the window fits at every order up to 19: the smooth
    field below (linear in degree) is removed *)
Definition ex_arr2 : arr R := mkarr 81 81 None (fun l m _ => INR l - INR m ^ 2).
Example C42_example_window : (first_deg 5 20 + 4 * nsmooth true 5 <= 80)%nat /\ exists c s, destripe_harmonics ex_arr2 ex_arr2 80 None true false = Ok (c, s) /\ get c 20 5 0 = 0.
Proof.
  pose proof (nsmooth_le15 5) as N. assert (W : (first_deg 5 20 + 4 * nsmooth true 5 <= 80)%nat) by (cbn; lia). split; [exact W|].
  apply (C42_quadratic_removed ex_arr2 ex_arr2 80 None true false 20 5 (- 25) 1 0).
  - unfold served, ex_arr2; cbn [rows cols upto]; lia.
  - unfold filtered; cbn [upto]; lia.
  - exact W.
  - intros j _ _. unfold ex_arr2. cbn [get INR]. ring.
Qed.
