(** plm_holmes: the one-dimensional packed recursion computes the same functions. *)
From Coq Require Import Reals Lra Lia String ZifyBool ZifyNat.
From Coquelicot Require Import Coquelicot.
From Verif Require Import Base Arr LegendreSpec LegendreSpec2 LegendreModel LegendreProofs.
Close Scope Z_scope.
Open Scope R_scope.

(** packed indices *)
Lemma tri_S l : tri (S l) = (tri l + l + 1)%nat.
Proof.
  unfold tri. replace (S l * (S l + 1))%nat with (l * (l + 1) + (l + 1) * 2)%nat by lia.
  rewrite Nat.div_add by lia. lia.
Qed.
Lemma tri_lt l l' : (l < l')%nat -> (tri l + l < tri l')%nat.
Proof.
  intros H. induction l' as [|l' IH]; [lia|]. rewrite tri_S. destruct (Nat.eq_dec l l') as [->|N]; [lia|]. specialize (IH ltac:(lia)). lia.
Qed.
Lemma tri_inj l m l' m' : (m <= l)%nat -> (m' <= l')%nat -> (tri l + m = tri l' + m')%nat -> l = l' /\ m = m'.
Proof.
  intros H H' E. destruct (Nat.lt_trichotomy l l') as [L|[->|L]]; [pose proof (tri_lt _ _ L); lia|lia|pose proof (tri_lt _ _ L); lia].
Qed.
Lemma tri_m1 l : (1 <= l)%nat -> tri l = (tri (l - 1) + l)%nat.
Proof. intros H. destruct l as [|l]; [lia|]. rewrite tri_S. replace (S l - 1)%nat with l by lia. lia. Qed.
Lemma tri_m2 l : (2 <= l)%nat -> tri l = (tri (l - 2) + 2 * l - 1)%nat.
Proof. intros H. rewrite (tri_m1 l), (tri_m1 (l - 1)) by lia. replace (l - 1 - 1)%nat with (l - 2)%nat by lia. lia. Qed.

(** coefficients *)
Lemma hol_f1 l m : (m < l)%nat -> (2 <= l)%nat ->
  sqrt (2 * INR l + 1) * sqrt (2 * INR l - 1) / (sqrt (INR l + INR m) * sqrt (INR l - INR m)) = aLM (INR l) (INR m).
Proof.
  intros H H2. pose proof (INR_ge2 l H2). pose proof (pos_INR m). assert (INR m < INR l) by (now apply lt_INR).
  unfold aLM. rewrite <- !sqrt_mult by lra. rewrite <- sqrt_div; [|nra|nra]. f_equal. field. lra.
Qed.
Lemma hol_f2 l m : (m + 2 <= l)%nat ->
  sqrt (2 * INR l + 1) * sqrt (INR l - INR m - 1) * sqrt (INR l + INR m - 1) / (sqrt (2 * INR l - 3) * sqrt (INR l + INR m) * sqrt (INR l - INR m)) = bLM (INR l) (INR m).
Proof.
  intros H. pose proof (INR_ge2 l ltac:(lia)). pose proof (pos_INR m). assert (INR m + 2 <= INR l) by (apply le_INR in H; rewrite plus_INR in H; cbn [INR] in H; lra).
  unfold bLM. rewrite <- !sqrt_mult by (try lra; nra). rewrite <- sqrt_div; [| |].
  - f_equal. field. lra.
  - apply Rmult_le_pos; [apply Rmult_le_pos; lra|lra].
  - apply Rmult_lt_0_compat; [apply Rmult_lt_0_compat; lra|lra].
Qed.
Lemma hol_f10 l : (2 <= l)%nat -> sqrt (2 * INR l - 1) * sqrt (2 * INR l + 1) / INR l = aLM (INR l) (INR 0).
Proof.
  intros H. pose proof (INR_ge2 l H). rewrite <- (hol_f1 l 0) by lia. cbn [INR].
  replace (sqrt (INR l + 0) * sqrt (INR l - 0)) with (INR l); [field; lra|].
  replace (INR l + 0) with (INR l) by ring. replace (INR l - 0) with (INR l) by ring. symmetry. apply sqrt_sqrt. lra.
Qed.
Lemma hol_f20 l : (2 <= l)%nat -> (INR l - 1) * sqrt (2 * INR l + 1) / (sqrt (2 * INR l - 3) * INR l) = bLM (INR l) (INR 0).
Proof.
  intros H. pose proof (INR_ge2 l H). rewrite <- (hol_f2 l 0) by lia. cbn [INR].
  replace (sqrt (INR l + 0)) with (sqrt (INR l)) by (f_equal; ring). replace (sqrt (INR l - 0)) with (sqrt (INR l)) by (f_equal; ring).
  replace (sqrt (INR l - 0 - 1)) with (sqrt (INR l - 1)) by (f_equal; ring). replace (sqrt (INR l + 0 - 1)) with (sqrt (INR l - 1)) by (f_equal; ring).
  assert (A : sqrt (INR l) * sqrt (INR l) = INR l) by (apply sqrt_sqrt; lra).
  assert (B : sqrt (INR l - 1) * sqrt (INR l - 1) = INR l - 1) by (apply sqrt_sqrt; lra).
  assert (0 < sqrt (2 * INR l - 3)) by (apply sqrt_lt_R0; lra).
  rewrite (Rmult_assoc (sqrt (2 * INR l + 1))), B, (Rmult_assoc (sqrt (2 * INR l - 3))), A. field. lra.
Qed.

Definition coefs_upto (l : nat) (f1 f2 : nat -> R) : Prop := forall l' m, (2 <= l' < l)%nat -> (m + 2 <= l')%nat ->
  f1 (tri l' + m)%nat = aLM (INR l') (INR m) /\ f2 (tri l' + m)%nat = bLM (INR l') (INR m).
Lemma holmes_coef_ok LMAX : (1 <= LMAX)%nat -> coefs_upto (S LMAX) (fst (holmes_coef LMAX)) (snd (holmes_coef LMAX)).
Proof.
  intros HL. unfold holmes_coef. set (F := fun '(k, f1, f2) l => _).
  pose proof (fold_seq_inv (fun l (s : nat * (nat -> R) * (nat -> R)) => (fst (fst s) + 1)%nat = tri l /\ coefs_upto l (snd (fst s)) (snd s))
     F (LMAX - 1) 2 (2%nat, fun _ => 0, fun _ => 0)) as I.
  destruct (fold_left F (seq 2 (LMAX - 1)) (2%nat, fun _ => 0, fun _ => 0)) as [[k f1] f2].
  replace (2 + (LMAX - 1))%nat with (S LMAX) in I by lia. cbn [fst snd] in *. apply I; clear I k f1 f2.
  - split; [reflexivity|]. intros l' m H. lia.
  - intros l [[k f1] f2] Hl [Hk C]. cbn [fst snd] in *. unfold F.
    set (g1 := st1 f1 (k + 1) _). set (g2 := st1 f2 (k + 1) _). set (G := fun '(k, f1, f2) m => _).
    pose proof (fold_seq_inv (fun m (s : nat * (nat -> R) * (nat -> R)) => (fst (fst s) + 1)%nat = (tri l + m)%nat /\
        coefs_upto l (snd (fst s)) (snd s) /\ forall m', (m' < m)%nat -> (m' + 2 <= l)%nat ->
          snd (fst s) (tri l + m')%nat = aLM (INR l) (INR m') /\ snd s (tri l + m')%nat = bLM (INR l) (INR m'))
        G (l - 2) 1 ((k + 1)%nat, g1, g2)) as J.
    destruct (fold_left G (seq 1 (l - 2)) ((k + 1)%nat, g1, g2)) as [[k' h1] h2]. cbn [fst snd] in J.
    destruct J as (J1 & J2 & J3).
    + split; [lia|]. split.
      * intros l' m Hl' Hm. unfold g1, g2. pose proof (tri_lt l' l ltac:(lia)). rewrite !st1_other by lia. apply C; assumption.
      * intros m' Hm' _. assert (m' = 0)%nat by lia. subst m'. unfold g1, g2. rewrite Hk, Nat.add_0_r, !st1_same.
        split; [apply hol_f10; lia|apply hol_f20; lia].
    + intros m [[k0 e1] e2] Hm (A & B & D). cbn [fst snd] in *. unfold G.
      replace (k0 + 1)%nat with (tri l + m)%nat by lia. split; [cbn [fst snd]; lia|]. cbn [fst snd]. split.
      * intros l' m' Hl' Hm'. pose proof (tri_lt l' l ltac:(lia)). rewrite !st1_other by lia. apply B; assumption.
      * intros m' Hm' Hml. destruct (Nat.eq_dec m' m) as [->|N]; [|rewrite !st1_other by lia; apply D; lia].
        rewrite !st1_same. split; [apply hol_f1; lia|apply hol_f2; lia].
    + cbn [fst snd]. split; [rewrite tri_S; lia|]. intros l' m Hl' Hm.
      destruct (Nat.eq_dec l' l) as [->|N]; [apply J3; lia|apply J2; lia].
Qed.

Lemma holmes_zonal_ok LMAX x u f1 f2 : (1 <= LMAX)%nat -> coefs_upto (S LMAX) f1 f2 ->
  forall l, (l <= LMAX)%nat -> holmes_zonal LMAX x f1 f2 (tri l) = NU l 0 x u.
Proof.
  intros HL C. unfold holmes_zonal. cbv zeta. set (F := fun '(k, p) l => _). set (p0 := st1 _ 1 _).
  pose proof (fold_seq_inv (fun l (s : nat * (nat -> R)) => fst s = tri (l - 1) /\ forall l', (l' < l)%nat -> snd s (tri l') = NU l' 0 x u)
     F (LMAX - 1) 2 (1%nat, p0)) as I.
  intros l Hl. apply I; clear I; [| |lia].
  - split; [reflexivity|]. intros [|[|l']] H; try lia; unfold p0; cbn [snd].
    + change (tri 0) with 0%nat. rewrite NU_0_0. reflexivity.
    + change (tri 1) with 1%nat. rewrite NU_1_0. reflexivity.
  - clear l Hl. intros l [k p] Hl [Hk IH]. cbn [fst snd] in *. unfold F. cbn [fst snd].
    assert (E : (k + l)%nat = tri l) by (rewrite (tri_m1 l) by lia; lia). rewrite E.
    split; [f_equal; lia|]. intros l' Hl'. destruct (Nat.eq_dec l' l) as [->|N].
    + rewrite st1_same. replace (tri l - l)%nat with (tri (l - 1)) by lia. replace (tri l + 1 - 2 * l)%nat with (tri (l - 2)) by (pose proof (tri_m2 l ltac:(lia)); lia).
      rewrite !IH by lia. destruct (C l 0%nat ltac:(lia) ltac:(lia)) as [C1 C2]. rewrite Nat.add_0_r in C1, C2. rewrite C1, C2.
      rewrite (NU_rec l 0) by lia. reflexivity.
    + rewrite st1_other; [apply IH; lia|]. intros Q. pose proof (tri_lt l' l ltac:(lia)). lia.
Qed.

Definition rows_ok (LMAX m : nat) (x u : R) (p : nat -> R) : Prop :=
  forall l m', (m' <= m)%nat -> (m' <= l)%nat -> (l <= LMAX)%nat -> p (tri l + m')%nat = NU l m' x u.

Lemma sf_nz : scalef <> 0. Proof. unfold scalef. apply Rinv_neq_0_compat, pow_nonzero. lra. Qed.
Lemma NU_mm_step m x : (1 <= m)%nat -> NU (S m) (S m) x 1 = NU m m x 1 * sqrt (INR (2 * S m + 1)) / sqrt (INR (2 * S m)).
Proof.
  intros H. rewrite NU_sect by exact H. rewrite sqrt_div; [|pose proof (pos_INR m); lra|pose proof (pos_INR m); lra].
  pose proof (pos_INR m).
  replace (INR (2 * S m + 1)) with (2 * INR m + 3) by (rewrite plus_INR, mult_INR, (S_INR m); change (INR 2) with 2; change (INR 1) with 1; ring).
  replace (INR (2 * S m)) with (2 * INR m + 2) by (rewrite mult_INR, (S_INR m); change (INR 2) with 2; ring).
  assert (0 < sqrt (2 * INR m + 2)) by (apply sqrt_lt_R0; lra). field. lra.
Qed.

Lemma holmes_step_ok LMAX x u f1 f2 resc ks pmm p m : (1 <= m < LMAX)%nat -> coefs_upto (S LMAX) f1 f2 ->
  resc = u ^ (m - 1) / scalef -> ks = (tri (m - 1) + (m - 1))%nat ->
  pmm = (if (m =? 1)%nat then sqrt 2 else NU (m - 1) (m - 1) x 1) * scalef -> rows_ok LMAX (m - 1) x u p ->
  let '(resc', ks', pmm', p') := holmes_step LMAX x u f1 f2 (resc, ks, pmm, p) m in
  resc' = u ^ m / scalef /\ ks' = (tri m + m)%nat /\ pmm' = NU m m x 1 * scalef /\ rows_ok LMAX m x u p'.
Proof.
  intros Hm C Er Ek Ep IH. unfold holmes_step.
  assert (Er' : resc * u = u ^ m / scalef).
  { rewrite Er. destruct m as [|m]; [lia|]. replace (S m - 1)%nat with m by lia. cbn [pow]. field. apply sf_nz. }
  assert (Ek' : (ks + (m + 1) = tri m + m)%nat) by (rewrite Ek; rewrite (tri_m1 m) by lia; lia).
  assert (Ep' : pmm * sqrt (INR (2 * m + 1)) / sqrt (INR (2 * m)) = NU m m x 1 * scalef).
  { rewrite Ep. destruct (Nat.eqb_spec m 1) as [->|N].
    - rewrite NU_1_1. replace (INR (2 * 1 + 1)) with 3 by (cbn; ring). replace (INR (2 * 1)) with 2 by (cbn; ring).
      assert (0 < sqrt 2) by (apply sqrt_lt_R0; lra). field. lra.
    - destruct m as [|m]; [lia|]. replace (S m - 1)%nat with m by lia. rewrite NU_mm_step by lia.
      assert (0 < sqrt (INR (2 * S m))) by (apply sqrt_lt_R0; apply lt_0_INR; lia). field. lra. }
  rewrite Er', Ek', Ep'.
  replace (tri m + m + m + 1)%nat with (tri (S m) + m)%nat by (rewrite tri_S; lia).
  set (p1 := st1 (st1 p _ _) _ _). set (F := fun '(k, p) l => _).
  pose proof (fold_seq_inv (fun l (s : nat * (nat -> R)) => fst s = (tri (l - 1) + m)%nat /\
     (forall l' m', (m' < m)%nat -> (m' <= l')%nat -> (l' <= LMAX)%nat -> snd s (tri l' + m')%nat = NU l' m' x u) /\
     (forall l', (m <= l')%nat -> (l' < l)%nat -> snd s (tri l' + m)%nat = if (l' + 2 <? l)%nat then NU l' m x u else NU l' m x 1 * scalef))
     F (LMAX - 1 - m) (m + 2)%nat ((tri (S m) + m)%nat, p1)) as J.
  destruct (fold_left F (seq (m + 2) (LMAX - 1 - m)) ((tri (S m) + m)%nat, p1)) as [k q].
  replace (m + 2 + (LMAX - 1 - m))%nat with (S LMAX) in J by lia. cbn [fst snd] in J.
  destruct J as (J1 & J2 & J3).
  - split; [do 2 f_equal; lia|]. cbn [snd]. split.
    + intros l' m' H1 H2 H3. unfold p1. rewrite !st1_other; [apply IH; lia| |]; intros Q; apply tri_inj in Q; lia.
    + intros l' H1 H2. replace (l' + 2 <? m + 2)%nat with false by lia. unfold p1.
      destruct (Nat.eq_dec l' m) as [->|N]; [rewrite st1_other, st1_same; [reflexivity|intros Q; apply tri_inj in Q; lia]|].
      assert (l' = S m) by lia. subst l'. rewrite st1_same, NU_next.
      replace (INR (2 * m + 3)) with (2 * INR m + 3) by (rewrite plus_INR, mult_INR; cbn; ring). ring.
  - intros l [k0 q0] Hl (A & B & D). cbn [fst snd] in *. unfold F.
    assert (E0 : (k0 + l = tri l + m)%nat) by (rewrite A, (tri_m1 l) by lia; lia). rewrite E0. cbn [fst snd].
    replace (tri l + m - l)%nat with (tri (l - 1) + m)%nat by (pose proof (tri_m1 l ltac:(lia)); lia).
    replace (tri l + m + 1 - 2 * l)%nat with (tri (l - 2) + m)%nat by (pose proof (tri_m2 l ltac:(lia)); lia).
    split; [do 2 f_equal; lia|]. split.
    + intros l' m' H1 H2 H3. rewrite !st1_other; [apply B; lia| |]; intros Q; apply tri_inj in Q; lia.
    + intros l' H1 H2. destruct (Nat.eq_dec l' (l - 2)) as [->|N2].
      * rewrite st1_same, st1_other by (intros Q; apply tri_inj in Q; lia). rewrite D by lia.
        replace (l - 2 + 2 <? l)%nat with false by lia. replace (l - 2 + 2 <? S l)%nat with true by lia.
        rewrite (NU_scale (l - 2) m x u). field. apply sf_nz.
      * rewrite st1_other by (intros Q; apply tri_inj in Q; lia). destruct (Nat.eq_dec l' l) as [->|N].
        -- rewrite st1_same. replace (l + 2 <? S l)%nat with false by lia. rewrite !D by lia.
           replace (l - 1 + 2 <? l)%nat with false by lia. replace (l - 2 + 2 <? l)%nat with false by lia.
           destruct (C l m ltac:(lia) ltac:(lia)) as [C1 C2]. rewrite C1, C2, (NU_rec l m) by lia. ring.
        -- rewrite st1_other by (intros Q; apply tri_inj in Q; lia). rewrite D by lia.
           destruct (Nat.ltb_spec (l' + 2) l); destruct (Nat.ltb_spec (l' + 2) (S l)); try reflexivity; lia.
  - split; [reflexivity|]. split; [reflexivity|]. split; [reflexivity|].
    rewrite J1. replace (S LMAX - 1)%nat with LMAX by lia.
    replace (tri LMAX + m - LMAX)%nat with (tri (LMAX - 1) + m)%nat by (pose proof (tri_m1 LMAX ltac:(lia)); lia).
    intros l m' H1 H2 H3. destruct (Nat.eq_dec m' m) as [->|N].
    + destruct (Nat.eq_dec l (LMAX - 1)) as [->|N1].
      * rewrite st1_same. rewrite st1_other by (intros Q; apply tri_inj in Q; lia). rewrite J3 by lia.
        replace (LMAX - 1 + 2 <? S LMAX)%nat with false by lia. rewrite (NU_scale (LMAX - 1) m x u). field. apply sf_nz.
      * rewrite st1_other by (intros Q; apply tri_inj in Q; lia). destruct (Nat.eq_dec l LMAX) as [->|N3].
        -- rewrite st1_same, J3 by lia. replace (LMAX + 2 <? S LMAX)%nat with false by lia. rewrite (NU_scale LMAX m x u). field. apply sf_nz.
        -- rewrite st1_other by (intros Q; apply tri_inj in Q; lia). rewrite J3 by lia. replace (l + 2 <? S LMAX)%nat with true by lia. reflexivity.
    + rewrite !st1_other by (intros Q; apply tri_inj in Q; lia). apply J2; lia.
Qed.

Lemma holmes_p_ok LMAX x : (2 <= LMAX)%nat -> forall l m, (m <= l)%nat -> (l <= LMAX)%nat -> holmes_p LMAX x (tri l + m) = NU l m x (uval x).
Proof.
  intros HL. unfold holmes_p. cbv zeta. pose proof (holmes_coef_ok LMAX ltac:(lia)) as C.
  destruct (holmes_coef LMAX) as [f1 f2]. cbn [fst snd] in C. set (u := uval x).
  pose proof (holmes_zonal_ok LMAX x u f1 f2 ltac:(lia) C) as Z. set (p0 := holmes_zonal LMAX x f1 f2) in *.
  pose proof (fold_seq_inv (fun m (s : R * nat * R * (nat -> R)) => let '(resc, ks, pmm, p) := s in
     resc = u ^ (m - 1) / scalef /\ ks = (tri (m - 1) + (m - 1))%nat /\
     pmm = (if (m =? 1)%nat then sqrt 2 else NU (m - 1) (m - 1) x 1) * scalef /\ rows_ok LMAX (m - 1) x u p)
     (holmes_step LMAX x u f1 f2) (LMAX - 1) 1 (/ scalef, 0%nat, sqrt 2 * scalef, p0)) as I.
  destruct (fold_left (holmes_step LMAX x u f1 f2) (seq 1 (LMAX - 1)) (/ scalef, 0%nat, sqrt 2 * scalef, p0)) as [[[resc ks] pmm] p].
  destruct I as (I1 & I2 & I3 & I4).
  - split; [cbn [Nat.sub pow]; field; apply sf_nz|]. split; [reflexivity|]. split; [reflexivity|].
    intros l m H1 H2 H3. assert (m = 0)%nat by lia. subst m. rewrite Nat.add_0_r. apply Z. lia.
  - intros m [[[r0 k0] q0] pp] Hm (A & B & D & E).
    pose proof (holmes_step_ok LMAX x u f1 f2 r0 k0 q0 pp m ltac:(lia) C A B D E) as S1.
    destruct (holmes_step LMAX x u f1 f2 (r0, k0, q0, pp) m) as [[[r1 k1] q1] pp1]. replace (S m - 1)%nat with m by lia.
    replace (S m =? 1)%nat with false by lia. exact S1.
  - replace (1 + (LMAX - 1))%nat with LMAX in * by lia. replace (LMAX =? 1)%nat with false in I3 by lia.
    intros l m Hm Hl. rewrite I2.
    replace (tri (LMAX - 1) + (LMAX - 1) + (LMAX - 1 + 2))%nat with (tri LMAX + LMAX)%nat by (pose proof (tri_m1 LMAX ltac:(lia)); lia).
    destruct (Nat.eq_dec m LMAX) as [->|N].
    + assert (l = LMAX) by lia. subst l. rewrite st1_same, I1, I3.
      rewrite (NU_scale LMAX LMAX x u). destruct LMAX as [|L]; [lia|]. replace (S L - 1)%nat with L by lia. rewrite NU_mm_step by lia. cbn [pow].
      assert (0 < sqrt (INR (2 * S L))) by (apply sqrt_lt_R0; apply lt_0_INR; lia). pose proof sf_nz. field. lra.
    + rewrite st1_other by (intros Q; apply tri_inj in Q; lia). apply I4; lia.
Qed.

Lemma holmes_ok LMAX x : (2 <= LMAX)%nat -> forall l m, (l <= LMAX)%nat ->
  fst (holmes_tab LMAX x) l m = NU l m x (uval x) /\ snd (holmes_tab LMAX x) l m = DU l m x (uval x).
Proof.
  intros HL. assert (P : forall l m, (l <= LMAX)%nat -> fst (holmes_tab LMAX x) l m = NU l m x (uval x)).
  { intros l m Hl. unfold holmes_tab. cbn [fst]. replace (l <=? LMAX)%nat with true by lia. rewrite andb_true_r.
    destruct (Nat.leb_spec m l); [apply holmes_p_ok; lia|symmetry; apply NU_high; lia]. }
  intros l m Hl. split; [apply P; exact Hl|].
  assert (E : snd (holmes_tab LMAX x) l m = if ((m <=? l) && (l <=? LMAX))%nat then
      (if (l =? m)%nat then INR m * (x / uval x) * fst (holmes_tab LMAX x) l m
       else 1 / uval x * (INR l * x * fst (holmes_tab LMAX x) l m - flm l m * fst (holmes_tab LMAX x) (l - 1)%nat m)) else 0) by reflexivity.
  rewrite E, !P by lia. replace (l <=? LMAX)%nat with true by lia. rewrite andb_true_r.
  destruct (Nat.leb_spec m l); [|symmetry; apply DU_high; lia]. destruct (Nat.eqb_spec l m) as [->|N].
  - destruct m as [|m]; [unfold DU; cbn [INR]; ring|]. rewrite DU_sect by lia. reflexivity.
  - unfold DU. destruct l; [lia|]. rewrite flm_fLM. reflexivity.
Qed.
