(** Proofs for the Legendre routines: each loop computes the mathematical
    functions of LegendreSpec2, by loop invariants. *)
From Coq Require Import Reals Lra Lia String ZifyBool ZifyNat.
From Coquelicot Require Import Coquelicot.
From Verif Require Import Base Arr LegendreSpec LegendreSpec2 LegendreModel.
Close Scope Z_scope.
Open Scope R_scope.
Ltac Zify.zify_post_hook ::= Z.to_euclidean_division_equations.

Lemma fold_seq_inv {A} (I : nat -> A -> Prop) (f : A -> nat -> A) n : forall a st,
  I a st -> (forall l s, (a <= l < a + n)%nat -> I l s -> I (S l) (f s l)) -> I (a + n)%nat (fold_left f (seq a n) st).
Proof.
  induction n as [|n IH]; intros a st H0 HS; cbn [seq fold_left]; [now rewrite Nat.add_0_r|].
  replace (a + S n)%nat with (S a + n)%nat by lia. apply IH; [apply HS; [lia|exact H0]|].
  intros l s Hl. apply HS. lia.
Qed.

Lemma uval_nz x : uval x <> 0.
Proof.
  unfold uval. destruct (Req_EM_T _ 0); [|assumption]. unfold eps64. apply Rinv_neq_0_compat. apply pow_nonzero. lra.
Qed.
Lemma uval_pos x : 0 < uval x.
Proof.
  unfold uval. destruct (Req_EM_T _ 0) as [E|E].
  - unfold eps64. apply Rinv_0_lt_compat. apply pow_lt. lra.
  - pose proof (sqrt_pos (1 - x ^ 2)). lra.
Qed.
Lemma uval_in x : -1 < x < 1 -> uval x = sqrt (1 - x ^ 2).
Proof.
  intros H. unfold uval. destruct (Req_EM_T _ 0) as [E|E]; [|reflexivity].
  exfalso. assert (0 < sqrt (1 - x ^ 2)) by (apply sqrt_lt_R0; nra). lra.
Qed.
Lemma sqrt_zero_pole x : -1 <= x <= 1 -> sqrt (1 - x ^ 2) = 0 -> x = 1 \/ x = -1.
Proof.
  intros H E. destruct (Req_dec x 1) as [|N1]; [now left|]. destruct (Req_dec x (-1)) as [|N2]; [now right|].
  exfalso. assert (0 < sqrt (1 - x ^ 2)) by (apply sqrt_lt_R0; nra). lra.
Qed.
Lemma INR_pos n : (1 <= n)%nat -> 1 <= INR n. Proof. intros. change 1 with (INR 1). now apply le_INR. Qed.
Lemma INR_ge2 n : (2 <= n)%nat -> 2 <= INR n. Proof. intros. change 2 with (INR 2). now apply le_INR. Qed.

(** ** legendre_polynomials *)
Lemma legP_pole x l : x = 1 \/ x = -1 -> legP l x = x ^ l.
Proof. intros [->| ->]; [rewrite legP_1, pow1; reflexivity|apply legP_m1]. Qed.
Lemma st1_same f i v : st1 f i v i = v. Proof. unfold st1. now rewrite Nat.eqb_refl. Qed.
Lemma st1_other f i v j : j <> i -> st1 f i v j = f j. Proof. intros H. unfold st1. destruct (Nat.eqb_spec j i); [contradiction|reflexivity]. Qed.
Lemma st2_same f i j v : st2 f i j v i j = v. Proof. unfold st2. now rewrite !Nat.eqb_refl. Qed.

Lemma legP_rec l x : (2 <= l)%nat -> legP l x = (2 * INR l - 1) / INR l * x * legP (l - 1) x - (INR l - 1) / INR l * legP (l - 2) x.
Proof.
  intros H. destruct l as [|[|k]]; try lia. replace (S (S k) - 1)%nat with (S k) by lia. replace (S (S k) - 2)%nat with k by lia.
  rewrite legP_SS, !S_INR. pose proof (pos_INR k). field. lra.
Qed.

Lemma legpoly_ok lmax x : -1 <= x <= 1 -> (1 <= lmax)%nat -> forall l, (l <= lmax)%nat ->
  fst (legpoly_tab lmax x) l = sqrt (2 * INR l + 1) * legP l x /\
  snd (legpoly_tab lmax x) l = match l with O => 0 | _ =>
    1 / uval x * (INR l * x * (sqrt (2 * INR l + 1) * legP l x)
       - sqrt (INR l ^ 2 * (2 * INR l + 1) / (2 * INR l - 1)) * (sqrt (2 * INR (l - 1) + 1) * legP (l - 1) x)) end.
Proof.
  intros Hx Hl. unfold legpoly_tab. cbv zeta.
  set (polar := if Req_EM_T (sqrt (1 - x ^ 2)) 0 then true else false).
  set (F := fun '(pt, pl) l => _). set (st := (_, _)).
  pose proof (fold_seq_inv (fun l (s : (nat -> R) * (nat -> R)) =>
     (forall i, (i < l)%nat -> fst s i = legP i x) /\ (forall i, (i < l)%nat -> snd s i = sqrt (2 * INR i + 1) * legP i x))
     F (lmax - 1) 2 st) as I.
  destruct (fold_left F (seq 2 (lmax - 1)) st) as [pt pl] eqn:EF. unfold fst, snd in I.
  destruct I as [I1 I2].
  { unfold st. split; intros [|[|i]] Hi; try lia; unfold st1; cbn [Nat.eqb]; cbn [INR legP].
    - reflexivity.
    - reflexivity.
    - replace (2 * 0 + 1) with 1 by ring. rewrite sqrt_1. ring.
    - replace (2 * 1 + 1) with 3 by ring. ring. }
  { intros l [pt' pl'] Hl' [A B]. unfold F. split.
    - intros i Hi. unfold st1. destruct (Nat.eqb_spec i l) as [->|N]; [|apply A; lia].
      rewrite !A by lia. now rewrite (legP_rec l) by lia.
    - intros i Hi. assert (E : st1 pt' l ((2 * INR l - 1) / INR l * x * pt' (l - 1)%nat - (INR l - 1) / INR l * pt' (l - 2)%nat) l = legP l x).
      { rewrite st1_same, !A by lia. now rewrite (legP_rec l) by lia. }
      rewrite E. unfold st1, polar. destruct (Req_EM_T _ 0) as [P|P]; destruct (Nat.eqb_spec i l) as [->|N].
      + rewrite legP_pole; [reflexivity|]. now apply sqrt_zero_pole.
      + apply B. lia.
      + reflexivity.
      + apply B. lia. }
  replace (2 + (lmax - 1))%nat with (S lmax) in * by lia.
  intros l Hll. unfold fst, snd. split; [apply I2; lia|].
  set (G := fun dpl l => _).
  pose proof (fold_seq_inv (fun l (d : nat -> R) => d 0%nat = 0 /\ forall i, (1 <= i < l)%nat -> d i =
     1 / uval x * (INR i * x * (sqrt (2 * INR i + 1) * legP i x)
       - sqrt (INR i ^ 2 * (2 * INR i + 1) / (2 * INR i - 1)) * (sqrt (2 * INR (i - 1) + 1) * legP (i - 1) x)))
     G lmax 1 (fun _ => 0)) as J.
  destruct J as [J0 J].
  { split; [reflexivity|intros; lia]. }
  { intros i d Hi [D0 D]. unfold G. split; [rewrite st1_other by lia; exact D0|].
    intros j Hj. destruct (Nat.eq_dec j i) as [->|N]; [|rewrite st1_other by exact N; apply D; lia].
    rewrite st1_same, !I2 by lia. reflexivity. }
  destruct l as [|l]; [exact J0|]. apply J. lia.
Qed.

(** at the poles the reported derivative is exactly zero *)
Lemma leg_slope_pole x l : x = 1 \/ x = -1 -> (1 <= l)%nat ->
  INR l * x * (sqrt (2 * INR l + 1) * legP l x) - sqrt (INR l ^ 2 * (2 * INR l + 1) / (2 * INR l - 1)) * (sqrt (2 * INR (l - 1) + 1) * legP (l - 1) x) = 0.
Proof.
  intros Hx Hl. rewrite !legP_pole by exact Hx. pose proof (INR_pos l Hl) as P.
  destruct l as [|l]; [lia|]. replace (S l - 1)%nat with l by lia. cbn [pow].
  assert (S1 : sqrt (INR (S l) ^ 2 * (2 * INR (S l) + 1) / (2 * INR (S l) - 1)) * sqrt (2 * INR l + 1) = INR (S l) * sqrt (2 * INR (S l) + 1)).
  { rewrite S_INR in *. rewrite <- sqrt_mult; [|apply Rdiv_le_0_compat; [nra|lra]|lra].
    replace ((INR l + 1) ^ 2 * (2 * (INR l + 1) + 1) / (2 * (INR l + 1) - 1) * (2 * INR l + 1)) with ((INR l + 1) ^ 2 * (2 * (INR l + 1) + 1)) by (field; lra).
    rewrite sqrt_mult by nra. rewrite sqrt_pow2 by lra. reflexivity. }
  replace (x * x ^ l) with (x ^ l * x) by ring. cbn [pow] in S1.
  replace (sqrt (INR (S l) * (INR (S l) * 1) * (2 * INR (S l) + 1) / (2 * INR (S l) - 1)) * (sqrt (2 * INR l + 1) * x ^ l))
    with (sqrt (INR (S l) * (INR (S l) * 1) * (2 * INR (S l) + 1) / (2 * INR (S l) - 1)) * sqrt (2 * INR l + 1) * x ^ l) by ring.
  rewrite S1. assert (x * x = 1) by (destruct Hx as [->| ->]; ring).
  replace (INR (S l) * x * (sqrt (2 * INR (S l) + 1) * (x ^ l * x))) with (INR (S l) * sqrt (2 * INR (S l) + 1) * x ^ l * (x * x)) by ring.
  rewrite H. ring.
Qed.
Lemma fLM_0 l : fLM (INR l) (INR 0) = sqrt (INR l ^ 2 * (2 * INR l + 1) / (2 * INR l - 1)).
Proof. unfold fLM. cbn [INR]. do 2 f_equal. ring. Qed.

(** ** tables: value and slope *)
Definition DU (l m : nat) (x u : R) : R :=
  match l with O => 0 | _ => 1 / u * (INR l * x * NU l m x u - fLM (INR l) (INR m) * NU (l - 1) m x u) end.
Lemma DU_sect l x u : (1 <= l)%nat -> DU l l x u = INR l * (x / u) * NU l l x u.
Proof.
  intros H. unfold DU. destruct l as [|l]; [lia|]. rewrite (NU_high (S l - 1)) by lia. unfold Rdiv. ring.
Qed.
Lemma DU_high l m x u : (l < m)%nat -> DU l m x u = 0.
Proof. intros H. unfold DU. destruct l; [reflexivity|]. rewrite !NU_high by lia. ring. Qed.
Lemma flm_fLM l m : flm l m = fLM (INR l) (INR m). Proof. reflexivity. Qed.
Lemma DU_slope l m th : 0 < sin th -> (m <= l)%nat ->
  is_derive (fun t => Nlm l m (cos t)) th (DU l m (cos th) (sqrt (1 - cos th ^ 2))).
Proof.
  intros Hs Hm. destruct l as [|l].
  - assert (m = 0)%nat by lia. subst m. unfold DU.
    apply (is_derive_ext (fun _ => 1)); [|apply (is_derive_const (V := R_NormedModule) 1)].
    intros t. rewrite Nlm_NU. symmetry. apply NU_0_0.
  - assert (Su : sqrt (1 - cos th ^ 2) = sin th).
    { replace (1 - cos th ^ 2) with (Rsqr (sin th)) by (rewrite sin2; unfold Rsqr; ring). apply sqrt_Rsqr. lra. }
    pose proof (Nlm_slope (S l) m th ltac:(lia) Hm Hs) as K. rewrite !Nlm_NU, Su in K.
    replace (DU (S l) m (cos th) (sqrt (1 - cos th ^ 2))) with
      ((INR (S l) * cos th * NU (S l) m (cos th) (sin th) - fLM (INR (S l)) (INR m) * NU (S l - 1) m (cos th) (sin th)) / sin th); [exact K|].
    rewrite Su. unfold DU. field. lra.
Qed.

(** ** plm_colombo *)
Lemma colombo_ok LMAX x : (1 <= LMAX)%nat -> forall l m, (l <= LMAX)%nat ->
  fst (colombo_tab LMAX x) l m = NU l m x (uval x) /\ snd (colombo_tab LMAX x) l m = DU l m x (uval x).
Proof.
  intros HL. unfold colombo_tab. cbv zeta. pose proof (uval_nz x) as Hu. set (u := uval x) in *.
  set (F := fun st l => _). set (st := (_, _)).
  pose (S3 := sqrt 3).
  pose proof (fold_seq_inv (fun l (s : (nat -> nat -> R) * (nat -> nat -> R)) => forall l' m',
     fst s l' m' = (if (l' <? l)%nat then NU l' m' x u else 0) /\ snd s l' m' = (if (l' <? l)%nat then DU l' m' x u else 0)) F (LMAX - 1) 2 st) as I.
  cbv beta in I. replace (2 + (LMAX - 1))%nat with (S LMAX) in I by lia.
  intros l m Hl. specialize (fun A B => I A B l m). replace (l <? S LMAX)%nat with true in I by lia. apply I; clear I l m Hl.
  - intros l m. unfold st, fst, snd, st2.
    assert (N1 : 1 / u * (x * (sqrt 3 * x) - sqrt 3 * 1) = DU 1 0 x u).
    { unfold DU. replace (1 - 1)%nat with 0%nat by lia. rewrite NU_1_0, NU_0_0, fLM_0. cbn [INR].
      replace (1 ^ 2 * (2 * 1 + 1) / (2 * 1 - 1)) with 3 by field. field. exact Hu. }
    destruct l as [|[|l]]; cbn [Nat.eqb andb].
    + replace (0 <? 2)%nat with true by reflexivity. destruct m as [|m]; cbn [Nat.eqb].
      * rewrite NU_0_0. split; reflexivity.
      * rewrite NU_high, DU_high by lia. split; reflexivity.
    + replace (1 <? 2)%nat with true by reflexivity. destruct m as [|[|m]]; cbn [Nat.eqb].
      * rewrite NU_1_0. split; [reflexivity|exact N1].
      * rewrite (DU_sect 1) by lia. rewrite NU_1_1. split; [reflexivity|]. cbn [INR]. field. exact Hu.
      * rewrite NU_high, DU_high by lia. split; reflexivity.
    + replace (S (S l) <? 2)%nat with false by lia. split; reflexivity.
  - intros l s Hl IH. unfold F. set (G := fun '(p, d) m => _).
    pose proof (fold_seq_inv (fun m (s : (nat -> nat -> R) * (nat -> nat -> R)) => forall l' m',
       fst s l' m' = (if (l' <? l)%nat || ((l' =? l) && (m' <? m))%nat then NU l' m' x u else 0) /\
       snd s l' m' = (if (l' <? l)%nat || ((l' =? l) && (m' <? m))%nat then DU l' m' x u else 0)) G l 0 s) as J.
    destruct (fold_left G (seq 0 l) s) as [p d]. unfold fst, snd in J. rewrite Nat.add_0_l in J.
    assert (J' : forall l' m', p l' m' = (if (l' <? l)%nat || ((l' =? l) && (m' <? l))%nat then NU l' m' x u else 0) /\
       d l' m' = (if (l' <? l)%nat || ((l' =? l) && (m' <? l))%nat then DU l' m' x u else 0)).
    { apply J; clear J.
      - intros l' m'. destruct s as [p0 d0]. destruct (IH l' m') as [A B]. cbn [fst snd] in A, B. rewrite A, B.
        replace (m' <? 0)%nat with false by lia. rewrite andb_false_r, orb_false_r. split; reflexivity.
      - intros m [p0 d0] Hm K l' m'. unfold G.
        assert (KP : aLM (INR l) (INR m) * x * p0 (l - 1)%nat m - bLM (INR l) (INR m) * p0 (l - 2)%nat m = NU l m x u).
        { destruct (K (l - 1)%nat m) as [-> _]. destruct (K (l - 2)%nat m) as [-> _].
          replace (l - 1 <? l)%nat with true by lia. replace (l - 2 <? l)%nat with true by lia. cbn [orb].
          rewrite (NU_rec1 l m) by lia. reflexivity. }
        unfold aLM, bLM in KP. rewrite KP. unfold st2.
        destruct (K l' m') as [K1 K2].
        destruct (Nat.eqb_spec l' l) as [->|N].
        + replace (l <? l)%nat with false in * by lia. cbn [andb orb] in *.
          destruct (Nat.eqb_spec m' m) as [->|N2].
          * replace (m <? S m)%nat with true by lia. split; [reflexivity|]. rewrite !Nat.eqb_refl. cbn [andb].
            replace (l - 1 =? l)%nat with false by lia. cbn [andb]. destruct (K (l - 1)%nat m) as [-> _].
            replace (l - 1 <? l)%nat with true by lia. cbn [orb]. unfold DU. destruct l; [lia|]. rewrite flm_fLM. reflexivity.
          * replace (m' <? S m)%nat with (m' <? m)%nat by lia. split; [exact K1|exact K2].
        + cbn [andb]. replace (l' =? l)%nat with false in K1, K2 by lia. cbn [andb] in *. split; [exact K1|exact K2]. }
    clear J. intros l' m'.
    assert (E : u * sqrt ((2 * INR l + 1) / (2 * INR l)) * p (l - 1)%nat (l - 1)%nat = NU l l x u).
    { destruct (J' (l - 1)%nat (l - 1)%nat) as [-> _]. replace (l - 1 <? l)%nat with true by lia. cbn [orb].
      replace l with (S (l - 1)) at 5 6 by lia. rewrite (NU_sect (l - 1)) by lia. rewrite minus_INR by lia. cbn [INR].
      replace (2 * (INR l - 1) + 3) with (2 * INR l + 1) by ring. replace (2 * (INR l - 1) + 2) with (2 * INR l) by ring. ring. }
    rewrite E. destruct (J' l' m') as [A B]. unfold fst, snd, st2. rewrite !Nat.eqb_refl. cbn [andb].
    destruct (Nat.eqb_spec l' l) as [->|N].
    + replace (l <? S l)%nat with true by lia. replace (l <? l)%nat with false in A, B by lia. cbn [orb andb] in *.
      destruct (Nat.eqb_spec m' l) as [->|N2].
      * rewrite DU_sect by lia. split; reflexivity.
      * rewrite A, B. destruct (Nat.ltb_spec m' l); [split; reflexivity|]. rewrite NU_high, DU_high by lia. split; reflexivity.
    + cbn [andb]. rewrite A, B. replace (l' =? l)%nat with false by lia. cbn [andb]. rewrite orb_false_r.
      replace (l' <? S l)%nat with (l' <? l)%nat by lia. split; reflexivity.
Qed.

(** ** plm_mohlenkamp *)
Definition cm (m : nat) : R := if (m =? 0)%nat then sqrt 2 else 2.
Lemma cm_nz m : cm m <> 0.
Proof. unfold cm. destruct (m =? 0)%nat; [|lra]. apply Rgt_not_eq, sqrt_lt_R0. lra. Qed.
Lemma NU_scale l m x u : NU l m x u = u ^ m * NU l m x 1.
Proof. unfold NU. rewrite pow1. ring. Qed.
Lemma mohl_prod_S m : mohl_prod (S m) = mohl_prod m * sqrt (1 + 1 / (2 * (INR m + 1))).
Proof. unfold mohl_prod. rewrite seq_S, fold_left_app. reflexivity. Qed.
Lemma mohl_prod_ok m x : (1 <= m)%nat -> mohl_prod m / sqrt 2 = NU m m x 1 / 2.
Proof.
  intros H. destruct m as [|m]; [lia|]. clear H. induction m as [|m IH].
  - rewrite mohl_prod_S. change (mohl_prod 0) with 1. rewrite NU_1_1. cbn [INR].
    assert (S2 : 0 < sqrt 2) by (apply sqrt_lt_R0; lra). assert (Q : sqrt 2 * sqrt 2 = 2) by (apply sqrt_sqrt; lra).
    replace (1 + 1 / (2 * (0 + 1))) with (3 / 2) by field. rewrite sqrt_div by lra.
    replace (1 * (sqrt 3 / sqrt 2) / sqrt 2) with (sqrt 3 / (sqrt 2 * sqrt 2)) by (field; lra). rewrite Q. field.
  - rewrite mohl_prod_S, (NU_sect (S m)) by lia.
    replace (1 + 1 / (2 * (INR (S m) + 1))) with ((2 * INR (S m) + 3) / (2 * INR (S m) + 2)) by (pose proof (pos_INR (S m)); field; lra).
    assert (S2 : 0 < sqrt 2) by (apply sqrt_lt_R0; lra).
    replace (mohl_prod (S m) * sqrt ((2 * INR (S m) + 3) / (2 * INR (S m) + 2)) / sqrt 2)
      with (mohl_prod (S m) / sqrt 2 * sqrt ((2 * INR (S m) + 3) / (2 * INR (S m) + 2))) by (field; lra).
    rewrite IH. field.
Qed.
Lemma sqrt_2mul a b c : 0 <= a -> 0 <= b -> 0 <= c -> 4 * (a * b) = c -> 2 * sqrt a * sqrt b = sqrt c.
Proof.
  intros Ha Hb Hc E. rewrite Rmult_assoc, <- sqrt_mult by assumption. rewrite <- E. rewrite (sqrt_mult 4) by nra.
  replace 4 with (2 * 2) by ring. rewrite sqrt_square by lra. reflexivity.
Qed.
Lemma mohl_a m k : (1 <= k)%nat ->
  2 * sqrt (1 + (INR m - 1 / 2) / INR k) * sqrt (1 - (INR m - 1 / 2) / (INR k + 2 * INR m)) = aLM (INR (m + k)) (INR m).
Proof.
  intros Hk. pose proof (INR_pos k Hk) as P. pose proof (pos_INR m) as Pm. unfold aLM. rewrite plus_INR.
  assert (A : 1 + (INR m - 1 / 2) / INR k = (INR k + INR m - 1 / 2) / INR k) by (field; lra).
  assert (B : 1 - (INR m - 1 / 2) / (INR k + 2 * INR m) = (INR k + INR m + 1 / 2) / (INR k + 2 * INR m)) by (field; lra).
  rewrite A, B. apply sqrt_2mul; try (apply Rdiv_le_0_compat; nra). field. repeat split; nra.
Qed.
Lemma mohl_b m k : (2 <= k)%nat ->
  sqrt (1 + 4 / (2 * INR k + 2 * INR m - 3)) * sqrt (1 - 1 / INR k) * sqrt (1 - 1 / (INR k + 2 * INR m)) = bLM (INR (m + k)) (INR m).
Proof.
  intros Hk. pose proof (INR_ge2 k Hk) as P. pose proof (pos_INR m) as Pm. unfold bLM. rewrite plus_INR.
  replace (1 + 4 / (2 * INR k + 2 * INR m - 3)) with ((2 * INR k + 2 * INR m + 1) / (2 * INR k + 2 * INR m - 3)) by (field; lra).
  replace (1 - 1 / INR k) with ((INR k - 1) / INR k) by (field; lra).
  replace (1 - 1 / (INR k + 2 * INR m)) with ((INR k + 2 * INR m - 1) / (INR k + 2 * INR m)) by (field; lra).
  rewrite <- sqrt_mult; [|apply Rdiv_le_0_compat; lra|apply Rdiv_le_0_compat; lra].
  rewrite <- sqrt_mult; [|apply Rmult_le_pos; apply Rdiv_le_0_compat; lra|apply Rdiv_le_0_compat; lra].
  f_equal. field. repeat split; try nra.
Qed.
Lemma mohl_j_ok LMAX m x : forall k, (k <= LMAX)%nat -> mohl_j LMAX m x k = NU (m + k) m x 1 / cm m.
Proof.
  unfold mohl_j. cbv zeta. set (F := fun j k => _). set (st := st1 _ 0 _).
  pose proof (fold_seq_inv (fun k (j : nat -> R) => forall i, (i < k)%nat -> j i = NU (m + i) m x 1 / cm m) F LMAX 1 st) as I.
  intros k Hk. apply I; clear I; [| |lia].
  - intros i Hi. assert (i = 0)%nat by lia. subst i. unfold st. rewrite st1_same, Nat.add_0_r. unfold cm.
    destruct (Nat.eqb_spec m 0) as [->|N].
    + rewrite NU_0_0. reflexivity.
    + replace (0 <? m)%nat with true by lia. apply mohl_prod_ok. lia.
  - clear k Hk. intros k j Hk IH i Hi. unfold F. destruct (Nat.eq_dec i k) as [->|N]; [|rewrite st1_other by exact N; apply IH; lia].
    rewrite st1_same. destruct (Nat.eqb_spec k 1) as [->|N1].
    + replace (1 - 1)%nat with 0%nat by lia. rewrite (IH 0%nat) by lia.
      replace (2 * x * (NU (m + 0) m x 1 / cm m) * sqrt (1 + (INR m - 1 / 2) / INR 1) * sqrt (1 - (INR m - 1 / 2) / (INR 1 + 2 * INR m)))
        with (x * (NU (m + 0) m x 1 / cm m) * (2 * sqrt (1 + (INR m - 1 / 2) / INR 1) * sqrt (1 - (INR m - 1 / 2) / (INR 1 + 2 * INR m)))) by ring.
      rewrite mohl_a by lia. rewrite Nat.add_0_r. replace (m + 1)%nat with (S m) by lia. rewrite NU_next.
      replace (aLM (INR (S m)) (INR m)) with (sqrt (2 * INR m + 3)).
      * field. apply cm_nz.
      * unfold aLM. f_equal. rewrite S_INR. pose proof (pos_INR m). field. lra.
    + rewrite !IH by lia.
      replace (2 * x * (NU (m + (k - 1)) m x 1 / cm m) * sqrt (1 + (INR m - 1 / 2) / INR k) * sqrt (1 - (INR m - 1 / 2) / (INR k + 2 * INR m)) -
        NU (m + (k - 2)) m x 1 / cm m * sqrt (1 + 4 / (2 * INR k + 2 * INR m - 3)) * sqrt (1 - 1 / INR k) * sqrt (1 - 1 / (INR k + 2 * INR m)))
      with (x * (NU (m + (k - 1)) m x 1 / cm m) * (2 * sqrt (1 + (INR m - 1 / 2) / INR k) * sqrt (1 - (INR m - 1 / 2) / (INR k + 2 * INR m))) -
        NU (m + (k - 2)) m x 1 / cm m * (sqrt (1 + 4 / (2 * INR k + 2 * INR m - 3)) * sqrt (1 - 1 / INR k) * sqrt (1 - 1 / (INR k + 2 * INR m)))) by ring.
      rewrite mohl_a, mohl_b by lia. rewrite (NU_rec (m + k) m) by lia.
      replace (m + k - 1)%nat with (m + (k - 1))%nat by lia. replace (m + k - 2)%nat with (m + (k - 2))%nat by lia. field. apply cm_nz.
Qed.
Lemma mohl_ok LMAX MMAX x : forall l m, (l <= LMAX)%nat -> (m <= MMAX)%nat ->
  fst (mohl_tab LMAX MMAX x) l m = NU l m x (uval x) /\ snd (mohl_tab LMAX MMAX x) l m = DU l m x (uval x).
Proof.
  assert (P : forall l m, (l <= LMAX)%nat -> (m <= MMAX)%nat -> fst (mohl_tab LMAX MMAX x) l m = NU l m x (uval x)).
  { intros l m Hl Hm. unfold mohl_tab. cbv zeta. unfold fst. replace (m <=? MMAX)%nat with true by lia. replace (l <=? LMAX)%nat with true by lia.
    cbn [andb]. rewrite andb_true_r. destruct (Nat.leb_spec m l) as [Hml|Hml]; [|symmetry; apply NU_high; lia].
    rewrite !mohl_j_ok by lia. replace (m + (l - m))%nat with l by lia. unfold cm. destruct (Nat.eqb_spec m 0) as [->|N].
    - rewrite (NU_scale l 0 x (uval x)). cbn [pow]. field. apply Rgt_not_eq, sqrt_lt_R0. lra.
    - rewrite (NU_scale l m x (uval x)). field. }
  intros l m Hl Hm. split; [apply P; assumption|].
  assert (E : snd (mohl_tab LMAX MMAX x) l m = if ((m <=? MMAX) && (m <=? l) && (l <=? LMAX))%nat then
      (if (l =? m)%nat then INR m * (x / uval x) * fst (mohl_tab LMAX MMAX x) l m
       else 1 / uval x * (INR l * x * fst (mohl_tab LMAX MMAX x) l m - flm l m * fst (mohl_tab LMAX MMAX x) (l - 1)%nat m)) else 0) by reflexivity.
  rewrite E, !P by lia. replace (m <=? MMAX)%nat with true by lia. replace (l <=? LMAX)%nat with true by lia. cbn [andb]. rewrite andb_true_r.
  destruct (Nat.leb_spec m l); [|symmetry; apply DU_high; lia]. destruct (Nat.eqb_spec l m) as [->|N].
  - destruct m as [|m]; [unfold DU; cbn [INR]; ring|]. rewrite DU_sect by lia. reflexivity.
  - unfold DU. destruct l; [lia|]. rewrite flm_fLM. reflexivity.
Qed.
