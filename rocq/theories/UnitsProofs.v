From Coq Require Import Reals Lra String.
From Verif Require Import Base UnitsModel.
Close Scope Z_scope.
Open Scope R_scope.

Lemma GM_pos : 0 < GM. Proof. unfold GM, GM_e, GM_atm. lra. Qed.
Lemma G_pos : 0 < G. Proof. unfold G. lra. Qed.

Lemma rad_pos u : 0 < a_axis u -> 0 < rad_e u.
Proof. intros. unfold rad_e. apply Rmult_lt_0_compat; [assumption|apply exp_pos]. Qed.

Lemma rad_cubed u : flat u < 1 -> rad_e u ^ 3 = a_axis u ^ 2 * b_axis u.
Proof.
  intros H. unfold rad_e, b_axis.
  assert (E : Rpower (1 - flat u) (1/3) ^ 3 = 1 - flat u).
  { rewrite <- Rpower_pow by apply exp_pos. rewrite Rpower_mult.
    replace (1 / 3 * INR 3) with 1 by (cbn; lra). apply Rpower_1. lra. }
  rewrite Rpow_mult_distr, E. ring.
Qed.

Lemma rho_pos u : 0 < a_axis u -> 0 < rho_e u.
Proof.
  intros H. unfold rho_e. pose proof (rad_pos u H). pose proof GM_pos. pose proof G_pos. pose proof PI_RGT_0.
  apply Rdiv_lt_0_compat; [lra|]. apply Rmult_lt_0_compat; [apply Rmult_lt_0_compat; assumption|]. now apply pow_lt.
Qed.

Lemma mass_eq u : 0 < a_axis u -> G * mass u = GM.
Proof.
  intros H. unfold mass, rho_e. pose proof (rad_pos u H). pose proof G_pos. pose proof PI_RGT_0.
  field. repeat split; lra.
Qed.

Lemma tab_nth n f l d : (l < n)%nat -> nth l (tab n f) d = f l.
Proof.
  intros H. unfold tab. rewrite nth_indep with (d' := f 0%nat) by (rewrite map_length, seq_length; lia).
  rewrite map_nth, seq_nth by lia. now rewrite Nat.add_0_l.
Qed.
Lemma tab_len n f : List.length (tab n f) = n.
Proof. unfold tab. now rewrite map_length, seq_length. Qed.

Lemma take_idx_ok x n : (n <= List.length x)%nat -> take_idx x n = Ok (firstn n x).
Proof. intros H. unfold take_idx. now rewrite (proj2 (Nat.leb_le _ _) H). Qed.

Lemma nth_firstn_lt A (x : list A) n l d : (l < n)%nat -> nth l (firstn n x) d = nth l x d.
Proof.
  revert n l; induction x as [|a x IH]; intros [|n] [|l] H; cbn; try lia; auto. apply IH. lia.
Qed.

(** value of the fraction array *)
Definition frac (kl : list R) (elastic ellipsoidal : bool) (fl : R) (l : nat) : R :=
  (1 + (if elastic then nth l kl 0 else 0)) / (if ellipsoidal then 1 - fl else 1).

Lemma fraction_ok n kl el ep fl : (el = true -> n <= List.length kl)%nat ->
  exists fr, fraction n kl el ep fl = Ok fr /\ forall l, (l < n)%nat -> nth l fr 0 = frac kl el ep fl l.
Proof.
  intros H. unfold fraction, frac. destruct el.
  - rewrite take_idx_ok by auto. cbn. eexists; split; [reflexivity|]. intros l Hl.
    set (f := fun x => _).
    rewrite nth_indep with (d' := f 0) by (rewrite map_length, firstn_length; specialize (H eq_refl); lia).
    rewrite map_nth, nth_firstn_lt by exact Hl. unfold f. destruct ep; lra.
  - cbn. eexists; split; [reflexivity|]. intros l Hl. set (f := fun x => _).
    rewrite nth_indep with (d' := f 0) by (rewrite map_length, repeat_length; lia).
    rewrite map_nth.
    rewrite nth_repeat. unfold f. destruct ep; lra.
Qed.

Lemma harmonic_ok hl kl ll el ep u lm : lmax u = Some lm ->
  (lm < List.length hl)%nat -> (el = true -> lm < List.length kl)%nat -> (lm < List.length ll)%nat ->
  exists h, harmonic hl kl ll el ep u = Ok h /\
    lmax h = Some lm /\ a_axis h = a_axis u /\ flat h = flat u /\
    exists n1 cw mw gh cu ch cv mv ug mb pa,
      norm h = Some n1 /\ cmwe h = Some cw /\ mmwe h = Some mw /\ mmGH h = Some gh /\ mmCU h = Some cu /\ mmCH h = Some ch /\
      cmVCU h = Some cv /\ mVCU h = Some mv /\ microGal h = Some ug /\ mbar h = Some mb /\ Pa h = Some pa /\
      List.length n1 = S lm /\ List.length cw = S lm /\ List.length mw = S lm /\ List.length gh = S lm /\
      List.length cu = S lm /\ List.length ch = S lm /\ List.length cv = S lm /\ List.length mv = S lm /\
      List.length ug = S lm /\ List.length mb = S lm /\ List.length pa = S lm /\
      forall l, (l <= lm)%nat ->
        nth l n1 0 = 1 /\
        nth l cw 0 = rho_e u * rad_e u * (2 * INR l + 1) / (3 * frac kl el ep (flat u) l) /\
        nth l mw 0 = 10 * nth l cw 0 /\
        nth l gh 0 = 10 * rad_e u /\
        nth l cu 0 = 10 * rad_e u * nth l hl 0 / frac kl el ep (flat u) l /\
        nth l ch 0 = 10 * rad_e u * nth l ll 0 / frac kl el ep (flat u) l /\
        nth l cv 0 = rad_e u * (2 * INR l + 1) / 2 /\
        nth l mv 0 = nth l cv 0 / 100 /\
        nth l ug 0 = 10 ^ 6 * GM * (INR l + 1) / rad_e u ^ 2 /\
        nth l mb 0 = g_wmo / 1000 * nth l cw 0 /\
        nth l pa 0 = 100 * nth l mb 0.
Proof.
  intros Hl H1 H2 H3. unfold harmonic. rewrite Hl.
  destruct (fraction_ok (S lm) kl el ep (flat u)) as (fr & -> & Hfr); [intros E; specialize (H2 E); lia|]. cbn [bind].
  rewrite (take_idx_ok hl) by lia. rewrite (take_idx_ok ll) by lia. cbn [bind].
  eexists; split; [reflexivity|]. cbn [lmax a_axis flat norm cmwe mmwe mmGH mmCU mmCH cmVCU mVCU microGal mbar Pa].
  do 3 (split; [auto|]). do 11 eexists. do 11 (split; [reflexivity|]). do 11 (split; [apply tab_len|]).
  intros l Hlm. rewrite !tab_nth, !nth_firstn_lt by lia. rewrite !Hfr by lia.
  set (F := frac _ _ _ _ _). unfold Rdiv. rewrite ?Rinv_mult.
  replace (/ (3 * 10 ^ 3)) with (/3 * /1000) by (rewrite <- Rinv_mult; f_equal; lra).
  repeat split; try lra.
Qed.

Lemma spatial_ok hl kl ll el u lm : lmax u = Some lm -> (el = true -> lm < List.length kl)%nat ->
  exists s, spatial hl kl ll el u = Ok s /\
    lmax s = Some lm /\ a_axis s = a_axis u /\ flat s = flat u /\
    mmCU s = mmCU u /\ mmCH s = mmCH u /\ cmVCU s = cmVCU u /\ mVCU s = mVCU u /\ mbar s = mbar u /\ Pa s = Pa u /\
    exists n1 cw mw gh ug,
      norm s = Some n1 /\ cmwe s = Some cw /\ mmwe s = Some mw /\ mmGH s = Some gh /\ microGal s = Some ug /\
      List.length n1 = S lm /\ List.length cw = S lm /\ List.length mw = S lm /\ List.length gh = S lm /\ List.length ug = S lm /\
      forall l, (l <= lm)%nat ->
        nth l n1 0 = 1 /\
        nth l cw 0 = 3 * frac kl el false (flat u) l / (2 * INR l + 1) / (4 * PI * (rad_e u * rho_e u)) /\
        nth l mw 0 = nth l cw 0 / 10 /\
        nth l gh 0 = / (4 * PI * rad_e u) /\
        nth l ug 0 = rad_e u ^ 2 / (4 * PI * 10 ^ 6 * GM * (INR l + 1)).
Proof.
  intros Hl H2. unfold spatial. rewrite Hl.
  destruct (fraction_ok (S lm) kl el false (flat u)) as (fr & -> & Hfr); [intros E; specialize (H2 E); lia|]. cbn [bind].
  eexists; split; [reflexivity|]. cbn [lmax a_axis flat norm cmwe mmwe mmGH mmCU mmCH cmVCU mVCU microGal mbar Pa].
  do 9 (split; [auto|]). do 5 eexists. do 5 (split; [reflexivity|]). do 5 (split; [apply tab_len|]).
  intros l Hlm. rewrite !tab_nth by lia. rewrite !Hfr by lia.
  set (F := frac _ _ _ _ _). replace (1 + 2 * INR l) with (2 * INR l + 1) by lra.
  replace 40 with (4 * 10) by lra. unfold Rdiv. rewrite ?Rinv_mult. repeat split; ring.
Qed.

Lemma frac_ellip kl el fl l : frac kl el true fl l = frac kl el false fl l / (1 - fl).
Proof. unfold frac. unfold Rdiv. rewrite Rinv_1. ring. Qed.
Lemma INR_odd l : 2 * INR l + 1 <> 0. Proof. pose proof (pos_INR l). lra. Qed.
Lemma INR_suc l : INR l + 1 <> 0. Proof. pose proof (pos_INR l). lra. Qed.
