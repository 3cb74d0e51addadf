From Coq Require Import Reals Lra ZifyBool ZifyNat.
From Verif Require Import Base Arr DestripeModel.
Close Scope Z_scope.
Open Scope R_scope.

(** ** sums *)
Lemma rsum_ext n f g : (forall i, (i < n)%nat -> f i = g i) -> rsum n f = rsum n g.
Proof. induction n; intros H; cbn; [reflexivity|]. rewrite IHn, H; auto. Qed.
Lemma rsum_plus n f g : rsum n (fun i => f i + g i) = rsum n f + rsum n g.
Proof. induction n; cbn; [ring|]. rewrite IHn. ring. Qed.
Lemma rsum_scal n c f : rsum n (fun i => c * f i) = c * rsum n f.
Proof. induction n; cbn; [ring|]. rewrite IHn. ring. Qed.
Lemma rsum_zero n : rsum n (fun _ => 0) = 0.
Proof. induction n; cbn; [ring|]. rewrite IHn. ring. Qed.
Lemma rsum_app n k f : rsum (n + k) f = rsum n f + rsum k (fun i => f (n + i)%nat).
Proof. induction k; cbn; [rewrite Nat.add_0_r; ring|]. rewrite Nat.add_succ_r. cbn. rewrite IHk. ring. Qed.
Lemma rsum_nonneg n f : (forall i, (i < n)%nat -> 0 <= f i) -> 0 <= rsum n f.
Proof. induction n; intros H; cbn; [lra|]. specialize (IHn (fun i Hi => H i (Nat.lt_lt_succ_r _ _ Hi))). specialize (H n ltac:(lia)). lra. Qed.
Lemma rsum_head n f : rsum (S n) f = f 0%nat + rsum n (fun i => f (S i)).
Proof. induction n; cbn in *; [ring|]. rewrite IHn. ring. Qed.

(** ** moments of the window *)
Definition mom (n p : nat) : R := rsum (2 * n + 1) (fun i => off n i ^ p).
Lemma mom_S n p : mom (S n) p = mom n p + INR (S n) ^ p + (- INR (S n)) ^ p.
Proof.
  unfold mom. replace (2 * S n + 1)%nat with (S (S (2 * n + 1))) by lia.
  rewrite rsum_head. cbn [rsum]. unfold off.
  replace (INR 0 - INR (S n)) with (- INR (S n)) by (cbn [INR]; ring).
  replace (INR (S (2 * n + 1)) - INR (S n)) with (INR (S n)).
  2:{ rewrite !S_INR, plus_INR, mult_INR. cbn [INR]. ring. }
  rewrite (rsum_ext _ (fun i => (INR (S i) - INR (S n)) ^ p) (fun i => (INR i - INR n) ^ p)); [ring|].
  intros i _. f_equal. rewrite !S_INR. ring.
Qed.
Lemma mom_vals n : mom n 0 = 2 * INR n + 1 /\ mom n 1 = 0 /\ mom n 2 = INR n * (INR n + 1) * (2 * INR n + 1) / 3 /\
  mom n 3 = 0 /\ mom n 4 = INR n * (INR n + 1) * (2 * INR n + 1) * (3 * INR n ^ 2 + 3 * INR n - 1) / 15.
Proof.
  induction n as [|n (I0 & I1 & I2 & I3 & I4)].
  - unfold mom, off. cbn. repeat split; field.
  - rewrite !mom_S, I0, I1, I2, I3, I4, !S_INR. repeat split; field.
Qed.

Lemma det_pos n : (1 <= n)%nat ->
  det3 (mom n 0) (mom n 1) (mom n 2) (mom n 1) (mom n 2) (mom n 3) (mom n 2) (mom n 3) (mom n 4) <> 0.
Proof.
  intros Hn. destruct (mom_vals n) as (-> & -> & -> & -> & ->). set (x := INR n).
  assert (Hx : 1 <= x) by (unfold x; change 1 with (INR 1); apply le_INR; lia).
  replace (det3 _ _ _ _ _ _ _ _ _) with
    ((x * (x + 1) * (2 * x + 1) / 3) * ((2 * x + 1) ^ 2 * x * (x + 1) * ((2 * x - 1) * (2 * x + 3) / 45))).
  2:{ unfold det3. field. }
  apply Rgt_not_eq. unfold Rdiv.
  repeat apply Rmult_lt_0_compat; try lra; apply pow_lt; lra.
Qed.

Lemma solve3_ok a b c d e f g h i r0 r1 r2 : det3 a b c d e f g h i <> 0 ->
  let '(x, y, z) := solve3 a b c d e f g h i r0 r1 r2 in
  a * x + b * y + c * z = r0 /\ d * x + e * y + f * z = r1 /\ g * x + h * y + i * z = r2.
Proof. intros D. unfold solve3. cbv zeta. unfold det3 in *. repeat split; field; exact D. Qed.
Lemma solve3_uniq a b c d e f g h i x y z : det3 a b c d e f g h i <> 0 ->
  solve3 a b c d e f g h i (a * x + b * y + c * z) (d * x + e * y + f * z) (g * x + h * y + i * z) = (x, y, z).
Proof. intros D. unfold solve3. cbv zeta. unfold det3 in *. f_equal; [f_equal|]; field; exact D. Qed.

Definition rhs (n p : nat) (y : nat -> R) : R := rsum (2 * n + 1) (fun i => y i * off n i ^ p).
Lemma fit_unfold n y : fit n y = solve3 (mom n 0) (mom n 1) (mom n 2) (mom n 1) (mom n 2) (mom n 3) (mom n 2) (mom n 3) (mom n 4) (rhs n 0 y) (rhs n 1 y) (rhs n 2 y).
Proof. reflexivity. Qed.

Lemma fit_normal n y : (1 <= n)%nat -> forall p, (p <= 2)%nat -> rhs n p (fun i => poly (fit n y) (off n i)) = rhs n p y.
Proof.
  intros Hn p Hp. rewrite fit_unfold.
  pose proof (solve3_ok _ _ _ _ _ _ _ _ _ (rhs n 0 y) (rhs n 1 y) (rhs n 2 y) (det_pos n Hn)) as H.
  destruct (solve3 _ _ _ _ _ _ _ _ _ _ _ _) as [[x1 x2] x3]. destruct H as (H0 & H1 & H2).
  assert (E : rhs n p (fun i => poly (x1, x2, x3) (off n i)) = x1 * mom n p + x2 * mom n (p + 1) + x3 * mom n (p + 2)).
  { unfold rhs, mom, poly. rewrite <- !rsum_scal, <- !rsum_plus. apply rsum_ext. intros i _. rewrite !pow_add. ring. }
  rewrite E. destruct p as [|[|[|p]]]; cbn [Nat.add]; [lra|lra|lra|lia].
Qed.
Lemma fit_quadratic n y c0 c1 c2 : (1 <= n)%nat -> (forall i, (i < 2 * n + 1)%nat -> y i = poly (c0, c1, c2) (off n i)) -> fit n y = (c0, c1, c2).
Proof.
  intros Hn H. rewrite fit_unfold.
  assert (E : forall p, rhs n p y = c0 * mom n p + c1 * mom n (p + 1) + c2 * mom n (p + 2)).
  { intros p. unfold rhs, mom. rewrite <- !rsum_scal, <- !rsum_plus. apply rsum_ext. intros i Hi. rewrite (H i Hi). unfold poly. rewrite !pow_add. ring. }
  rewrite !E. cbn [Nat.add].
  replace (c0 * mom n 0 + c1 * mom n 1 + c2 * mom n 2) with (mom n 0 * c0 + mom n 1 * c1 + mom n 2 * c2) by ring.
  replace (c0 * mom n 1 + c1 * mom n 2 + c2 * mom n 3) with (mom n 1 * c0 + mom n 2 * c1 + mom n 3 * c2) by ring.
  replace (c0 * mom n 2 + c1 * mom n 3 + c2 * mom n 4) with (mom n 2 * c0 + mom n 3 * c1 + mom n 4 * c2) by ring.
  apply solve3_uniq. now apply det_pos.
Qed.
Lemma fit_ext n y z : (forall i, (i < 2 * n + 1)%nat -> y i = z i) -> fit n y = fit n z.
Proof.
  intros H. rewrite !fit_unfold. unfold rhs.
  rewrite !(rsum_ext (2 * n + 1) (fun i => y i * _) (fun i => z i * _)) by (intros i Hi; now rewrite (H i Hi)). reflexivity.
Qed.
Lemma fit_linear n y z p q x : (1 <= n)%nat ->
  poly (fit n (fun i => p * y i + q * z i)) x = p * poly (fit n y) x + q * poly (fit n z) x.
Proof.
  intros Hn. rewrite !fit_unfold. pose proof (det_pos n Hn) as D.
  assert (E : forall k, rhs n k (fun i => p * y i + q * z i) = p * rhs n k y + q * rhs n k z).
  { intros k. unfold rhs. rewrite <- !rsum_scal, <- rsum_plus. apply rsum_ext. intros. ring. }
  rewrite !E. unfold solve3, poly. cbv zeta. unfold det3 in *. field. exact D.
Qed.
Lemma b0_poly b : b0 b = poly b 0.
Proof. destruct b as [[x y] z]. unfold b0, poly. cbn. ring. Qed.

(** the fit minimises the sum of squares *)
Definition sq (n : nat) (y : nat -> R) (c : R * R * R) : R := rsum (2 * n + 1) (fun i => (y i - poly c (off n i)) ^ 2).
Lemma fit_minimal n y c : (1 <= n)%nat -> sq n y (fit n y) <= sq n y c.
Proof.
  intros Hn. pose proof (fit_normal n y Hn) as N. set (b := fit n y) in *.
  destruct b as [[x0 x1] x2] eqn:Eb, c as [[c0 c1] c2].
  set (P := poly (x0, x1, x2)) in *.
  pose (delta := fun i => poly (x0 - c0, x1 - c1, x2 - c2) (off n i)).
  assert (E : sq n y (c0, c1, c2) = sq n y (x0, x1, x2) + rsum (2 * n + 1) (fun i => delta i ^ 2) +
     (2 * (x0 - c0) * (rhs n 0 y - rhs n 0 (fun i => P (off n i))) + 2 * (x1 - c1) * (rhs n 1 y - rhs n 1 (fun i => P (off n i))) +
      2 * (x2 - c2) * (rhs n 2 y - rhs n 2 (fun i => P (off n i))))).
  { unfold sq, rhs.
    set (A0 := rsum _ (fun i => y i * off n i ^ 0)). set (B0 := rsum _ (fun i => P (off n i) * off n i ^ 0)).
    set (A1 := rsum _ (fun i => y i * off n i ^ 1)). set (B1 := rsum _ (fun i => P (off n i) * off n i ^ 1)).
    set (A2 := rsum _ (fun i => y i * off n i ^ 2)). set (B2 := rsum _ (fun i => P (off n i) * off n i ^ 2)).
    replace (2 * (x0 - c0) * (A0 - B0) + 2 * (x1 - c1) * (A1 - B1) + 2 * (x2 - c2) * (A2 - B2)) with
      (2 * (x0 - c0) * A0 + (- (2 * (x0 - c0))) * B0 + (2 * (x1 - c1) * A1 + (- (2 * (x1 - c1))) * B1) + (2 * (x2 - c2) * A2 + (- (2 * (x2 - c2))) * B2)) by ring.
    unfold A0, B0, A1, B1, A2, B2. rewrite <- !rsum_scal, <- !rsum_plus. apply rsum_ext. intros i _.
    unfold P, delta, poly. ring. }
  rewrite E, !N by lia.
  assert (0 <= rsum (2 * n + 1) (fun i => delta i ^ 2)) by (apply rsum_nonneg; intros; apply pow2_ge_0). lra.
Qed.

(** ** the degrees of one parity *)
Lemma degrees_nth odd m LMAX k : (k < length (degrees odd m LMAX))%nat ->
  nth k (degrees odd m LMAX) 0%nat = (m + (if Bool.eqb (Nat.odd m) odd then 0 else 1) + 2 * k)%nat.
Proof.
  unfold degrees. remember (LMAX + 1 - m)%nat as c. clear Heqc. revert m k.
  induction c as [|c IH]; intros m k; cbn [seq filter length]; [lia|].
  destruct (Bool.eqb (Nat.odd m) odd) eqn:E.
  - cbn [length]. destruct k as [|k]; [cbn; lia|]. intros H. cbn [nth]. rewrite IH by lia.
    replace (Bool.eqb (Nat.odd (S m)) odd) with false; [lia|].
    rewrite Nat.odd_succ, <- Nat.negb_odd. destruct (Nat.odd m), odd; cbn in *; congruence.
  - intros H. rewrite IH by exact H.
    replace (Bool.eqb (Nat.odd (S m)) odd) with true; [lia|].
    rewrite Nat.odd_succ, <- Nat.negb_odd. destruct (Nat.odd m), odd; cbn in *; congruence.
Qed.
Lemma degrees_in odd m LMAX l : In l (degrees odd m LMAX) <-> (m <= l <= LMAX)%nat /\ Nat.odd l = odd.
Proof.
  unfold degrees. rewrite filter_In, in_seq, Bool.eqb_true_iff. split; intros [? ?]; split; auto; lia.
Qed.
(** number of degrees m..LMAX of the parity of l *)
Lemma degrees_pos m LMAX l : (m <= l <= LMAX)%nat ->
  let odd := Nat.odd l in let ds := degrees odd m LMAX in
  exists k, (k < length ds)%nat /\ nth k ds 0%nat = l.
Proof. intros H. cbv zeta. apply In_nth with (d := 0%nat). apply degrees_in. auto. Qed.

(** ** the smoothing loop *)
Section Loop.
Variables (n : nat) (narrow : bool) (degs : list nat) (x : nat -> R).
Let len := length degs.
Let d k := nth k degs 0%nat.
Hypothesis ND : NoDup degs.

Lemma d_inj i j : (i < len)%nat -> (j < len)%nat -> d i = d j -> i = j.
Proof. intros Hi Hj E. apply (proj1 (NoDup_nth degs 0%nat) ND); assumption. Qed.
Lemma fset_d f i v k : (i < len)%nat -> (k < len)%nat -> fset f (d i) v (d k) = if (k =? i)%nat then v else f (d k).
Proof.
  intros Hi Hk. unfold fset. destruct (Nat.eqb_spec k i) as [->|N]; [now rewrite Nat.eqb_refl|].
  destruct (Nat.eqb_spec (d k) (d i)) as [E|]; [|reflexivity]. now elim N; apply d_inj.
Qed.
Lemma fset_out f i v j : (i < len)%nat -> ~ In j degs -> fset f (d i) v j = f j.
Proof.
  intros Hi Hj. unfold fset. destruct (Nat.eqb_spec j (d i)) as [->|]; [|reflexivity]. elim Hj. now apply nth_In.
Qed.

(** storing a run of positions a .. a+c-1 *)
Lemma run_d (g : nat -> R) a c : forall sm, (a + c <= len)%nat -> forall k, (k < len)%nat ->
  fold_left (fun sm i => fset sm (d (a + i)%nat) (g i)) (seq 0 c) sm (d k) =
  if ((a <=? k) && (k <? a + c))%nat then g (k - a)%nat else sm (d k).
Proof.
  induction c as [|c IH]; intros sm Hc k Hk.
  - cbn [fold_left seq]. replace ((a <=? k) && (k <? a + 0))%nat with false by lia. reflexivity.
  - rewrite seq_S, fold_left_app. cbn [fold_left]. rewrite Nat.add_0_l, fset_d by lia.
    destruct (Nat.eqb_spec k (a + c)) as [->|N].
    + replace ((a <=? a + c) && (a + c <? a + S c))%nat with true by lia. f_equal. lia.
    + rewrite IH by lia. destruct (Nat.leb_spec a k), (Nat.ltb_spec k (a + c)), (Nat.ltb_spec k (a + S c)); cbn; try reflexivity; lia.
Qed.
Lemma run_out (g : nat -> R) a c j : ~ In j degs -> forall sm, (a + c <= len)%nat ->
  fold_left (fun sm i => fset sm (d (a + i)%nat) (g i)) (seq 0 c) sm j = sm j.
Proof.
  intros Hj. induction c as [|c IH]; intros sm Hc; [reflexivity|].
  rewrite seq_S, fold_left_app. cbn [fold_left]. rewrite Nat.add_0_l, fset_out by (lia || assumption). apply IH. lia.
Qed.

(** centre of the window used for position k *)
Definition centre (n len k : nat) : nat := Nat.max n (Nat.min k (len - 1 - n)).
Definition smval (k : nat) : R :=
  if (len <=? 2 * n)%nat then (if narrow then 0 else x (d k))
  else let c := centre n len k in poly (fit n (fun i => x (d (c - n + i)%nat))) (INR k - INR c).

Lemma smooth_series_spec sm : forall k, (k < len)%nat -> smooth_series n narrow degs x sm (d k) = smval k.
Proof.
  intros k Hk. unfold smooth_series, smval. fold len. fold d. cbv zeta.
  destruct (Nat.leb_spec len (2 * n)) as [C|C].
  - pose proof (run_d (fun l => if narrow then 0 else x (d l)) 0 len sm ltac:(lia) k Hk) as H. cbn [Nat.add] in H.
    replace ((0 <=? k) && (k <? len))%nat with true in H by lia. rewrite Nat.sub_0_r in H. exact H.
  - set (F := fun l => fit n (fun i => x (d (l - n + i)%nat))).
    set (V := fun k => poly (F (centre n len k)) (INR k - INR (centre n len k))).
    match goal with |- fold_left ?B _ _ _ = _ => set (body := B) end.
    assert (INV : forall c, (c <= len - 2 * n)%nat -> forall k, (k < len)%nat ->
      fold_left body (seq n c) sm (d k) =
      if ((c =? 0) || ((n + c <=? k) && negb (c =? len - 2 * n)))%nat then sm (d k) else V k).
    { induction c as [|c IH]; intros Hc j Hj; [reflexivity|].
      rewrite seq_S, fold_left_app. cbn [fold_left]. set (s := fold_left body (seq n c) sm) in *.
      assert (INT : forall j, (n <= j <= len - 1 - n)%nat -> V j = b0 (F j)).
      { intros i Hi. unfold V. replace (centre n len i) with i by (unfold centre; lia).
        replace (INR i - INR i) with 0 by ring. now rewrite b0_poly. }
      set (l := (n + c)%nat). unfold body. fold (F l). cbv zeta.
      replace (S c =? 0)%nat with false by lia. cbn [orb].
      (* the tail *)
      assert (STEP2 : forall s' : nat -> R,
         (forall i, (i < len)%nat -> s' (d i) = if (i <=? l)%nat then V i else sm (d i)) ->
         (if (l =? len - 1 - n)%nat then fold_left (fun sm0 i => fset sm0 (d (l + 1 + i)%nat) (poly (F l) (INR (i + 1)))) (seq 0 n) s' else s') (d j) =
         (if ((n + S c <=? j) && negb (S c =? len - 2 * n))%nat then sm (d j) else V j)).
      { intros s' Hs. destruct (Nat.eqb_spec l (len - 1 - n)) as [El|El].
        - replace (S c =? len - 2 * n)%nat with true by lia. rewrite andb_comm. cbn [negb andb].
          rewrite (run_d (fun i => poly (F l) (INR (i + 1))) (l + 1) n s' ltac:(lia) j Hj).
          destruct ((l + 1 <=? j) && (j <? l + 1 + n))%nat eqn:Q.
          + unfold V. replace (centre n len j) with l by (unfold centre; lia). f_equal. rewrite <- minus_INR by lia. f_equal. lia.
          + rewrite Hs by exact Hj. replace (j <=? l)%nat with true by lia. reflexivity.
        - replace (S c =? len - 2 * n)%nat with false by lia. rewrite andb_comm. cbn [negb andb].
          rewrite Hs by exact Hj. destruct (Nat.leb_spec j l), (Nat.leb_spec (n + S c) j); try reflexivity; lia. }
      apply STEP2. intros i Hi. destruct (Nat.eqb_spec l n) as [El|El].
      - assert (c = 0%nat) by lia. subst c.
        etransitivity; [exact (run_d (fun i => poly (F l) (off n i)) (l - n) n (fset s (d l) (b0 (F l))) ltac:(lia) i Hi)|].
        replace (l - n)%nat with 0%nat by lia. cbn [Nat.leb andb Nat.add].
        rewrite Nat.sub_0_r. destruct (Nat.ltb_spec i n).
        + replace (i <=? l)%nat with true by lia. unfold V, off. now replace (centre n len i) with n by (unfold centre; lia); rewrite El.
        + rewrite fset_d by lia. destruct (Nat.eqb_spec i l) as [->|].
          * rewrite Nat.leb_refl. now rewrite INT by lia.
          * replace (i <=? l)%nat with false by lia. unfold s. rewrite IH by lia. reflexivity.
      - etransitivity; [exact (fset_d s l (b0 (F l)) i ltac:(lia) ltac:(lia))|]. destruct (Nat.eqb_spec i l) as [->|].
        + rewrite Nat.leb_refl. now rewrite INT by lia.
        + unfold s. rewrite IH by lia. replace (c =? 0)%nat with false by lia. replace (c =? len - 2 * n)%nat with false by lia.
          cbn [orb negb]. rewrite andb_true_r. destruct (Nat.leb_spec i l), (Nat.leb_spec (n + c) i); try reflexivity; lia. }
    rewrite INV by lia. replace (len - 2 * n =? 0)%nat with false by lia. rewrite Nat.eqb_refl. cbn [negb orb]. rewrite andb_false_r. reflexivity.
Qed.

Lemma smooth_series_out sm j : ~ In j degs -> smooth_series n narrow degs x sm j = sm j.
Proof.
  intros Hj. unfold smooth_series. fold len. fold d. cbv zeta.
  destruct (Nat.leb_spec len (2 * n)) as [C|C].
  - apply (run_out (fun l => if narrow then 0 else x (d l)) 0 len j Hj sm). lia.
  - match goal with |- fold_left ?B _ _ _ = _ => set (body := B) end.
    assert (INV : forall c, (c <= len - 2 * n)%nat -> fold_left body (seq n c) sm j = sm j); [|apply INV; lia].
    induction c as [|c IH]; intros Hc; [reflexivity|].
    rewrite seq_S, fold_left_app. cbn [fold_left]. unfold body at 1. cbv zeta. specialize (IH ltac:(lia)).
    set (s := fold_left body (seq n c) sm) in *. set (l := (n + c)%nat).
    set (B := fit n (fun i => x (d (l - n + i)%nat))).
    set (s0 := fset s (d l) (b0 B)).
    set (s1 := if (l =? n)%nat then fold_left (fun sm i => fset sm (d (l - n + i)%nat) (poly B (off n i))) (seq 0 n) s0 else s0).
    assert (E0 : s0 j = sm j) by (unfold s0; rewrite fset_out by (lia || assumption); exact IH).
    assert (E1 : s1 j = sm j).
    { unfold s1. destruct (Nat.eqb_spec l n); [|exact E0].
      rewrite (run_out (fun i => poly B (off n i)) (l - n) n j Hj) by lia. exact E0. }
    change ((if (l =? len - 1 - n)%nat then fold_left (fun sm i => fset sm (d (l + 1 + i)%nat) (poly B (INR (i + 1)))) (seq 0 n) s1 else s1) j = sm j).
    destruct (Nat.eqb_spec l (len - 1 - n)); [|exact E1].
    rewrite (run_out (fun i => poly B (INR (i + 1))) (l + 1) n j Hj) by lia. exact E1.
Qed.
End Loop.
