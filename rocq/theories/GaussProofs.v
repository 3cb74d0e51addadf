From Coq Require Import Reals Lra.
From Coquelicot Require Import Coquelicot.
From Verif Require Import Base GaussModel LegendreSpec.
Close Scope Z_scope.
Open Scope R_scope.

(** ** the integrals J_l = int_{-1}^{1} exp(b t) (1 - t^2)^l dt *)
Definition kern (b : R) (l : nat) (t : R) : R := exp (b * t) * (1 - t ^ 2) ^ l.
Definition J (b : R) (l : nat) : R := RInt (kern b l) (-1) 1.

Lemma kern_cont b l t : continuous (kern b l) t.
Proof.
  apply (ex_derive_continuous (kern b l)). unfold kern. auto_derive. auto.
Qed.
Lemma kern_int b l : ex_RInt (kern b l) (-1) 1.
Proof. apply (ex_RInt_continuous (V := R_CompleteNormedModule)). intros. apply kern_cont. Qed.

Lemma J_pos b l : 0 < J b l.
Proof.
  apply RInt_gt_0; [lra| |].
  - intros x Hx. unfold kern. apply Rmult_lt_0_compat; [apply exp_pos|]. apply pow_lt. nra.
  - intros. apply kern_cont.
Qed.

Lemma pow_1m1 k (s : R) : s ^ 2 = 1 -> (1 - s ^ 2) ^ (S k) = 0.
Proof. intros ->. replace (1 - 1) with 0 by ring. cbn. ring. Qed.

Lemma RInt_lin2 (f g : R -> R) a c u v : ex_RInt f u v -> ex_RInt g u v ->
  is_RInt (fun t => a * f t + c * g t) u v (a * RInt f u v + c * RInt g u v).
Proof.
  intros Hf Hg.
  apply (is_RInt_plus (V := R_NormedModule) (fun t => a * f t) (fun t => c * g t)).
  - apply (is_RInt_scal (V := R_NormedModule)). now apply (RInt_correct (V := R_CompleteNormedModule)).
  - apply (is_RInt_scal (V := R_NormedModule)). now apply (RInt_correct (V := R_CompleteNormedModule)).
Qed.
(** fundamental theorem of calculus for smooth integrands *)
Lemma FTC (F f : R -> R) u v : (forall x, is_derive F x (f x)) -> (forall x, continuous f x) -> is_RInt f u v (F v - F u).
Proof. intros H C. apply (is_RInt_derive (V := R_CompleteNormedModule) F f); intros; [apply H|apply C]. Qed.
Lemma int_unique (f : R -> R) u v x y : is_RInt f u v x -> is_RInt f u v y -> x = y.
Proof. intros H K. apply (is_RInt_unique (V := R_CompleteNormedModule)) in H, K. congruence. Qed.

Ltac derive_fix k L1 x := change (match k with O => 1 | S _ => INR k + 1 end) with (INR (S k)); fold L1; cbn [pow];
  replace (1 + - (x * (x * 1))) with (1 - x * (x * 1)) by ring; generalize ((1 - x * (x * 1)) ^ k); intros pk.

Lemma J_rec b k : b ^ 2 * J b (S (S k)) =
  4 * INR (S (S k)) * INR (S k) * J b k - 2 * INR (S (S k)) * (2 * INR (S (S k)) - 1) * J b (S k).
Proof.
  set (L := INR (S (S k))). set (L1 := INR (S k)).
  assert (EL : L = L1 + 1) by (unfold L, L1; rewrite !S_INR; ring).
  pose (F := fun t => exp (b * t) * (b * (1 - t ^ 2) ^ (S (S k)) + 2 * L * t * (1 - t ^ 2) ^ (S k))).
  pose (g := fun t => b ^ 2 * kern b (S (S k)) t + (2 * L * (2 * L - 1)) * kern b (S k) t).
  pose (f := fun t => 1 * g t + (- (4 * L * L1)) * kern b k t).
  assert (D : is_RInt f (-1) 1 (F 1 - F (-1))).
  { apply (FTC F f).
    - intros x. unfold F. auto_derive; [auto|]. unfold f, g, kern.
      change (pred (S (S k))) with (S k). change (pred (S k)) with k.
      fold L; rewrite EL. derive_fix k L1 x. ring.
    - intros x. apply (ex_derive_continuous f). unfold f, g, kern. auto_derive. auto. }
  assert (E0 : F 1 - F (-1) = 0) by (unfold F; rewrite !pow_1m1 by ring; ring).
  rewrite E0 in D.
  pose proof (RInt_lin2 (kern b (S (S k))) (kern b (S k)) (b ^ 2) (2 * L * (2 * L - 1)) (-1) 1 (kern_int _ _) (kern_int _ _)) as K1.
  fold g in K1. assert (Ig : ex_RInt g (-1) 1) by (eexists; exact K1).
  pose proof (RInt_lin2 g (kern b k) 1 (- (4 * L * L1)) (-1) 1 Ig (kern_int _ _)) as K2. fold f in K2.
  pose proof (int_unique _ _ _ _ _ D K2) as E.
  rewrite (is_RInt_unique _ _ _ _ K1) in E. fold (J b (S (S k))) (J b (S k)) (J b k) in E. lra.
Qed.

Lemma J_step b k : b * J b (S k) < 2 * INR (S k) * J b k.
Proof.
  set (L1 := INR (S k)).
  assert (L1p : 0 < L1) by (unfold L1; apply lt_0_INR; lia).
  pose (G := fun t => exp (b * t) * (1 - t ^ 2) ^ (S k)).
  pose (g := fun t => 2 * L1 * ((1 - t) * kern b k t)).
  pose (f := fun t => (2 * L1) * kern b k t + (- b) * kern b (S k) t).
  pose (h := fun t => 1 * g t + (-1) * f t).
  assert (C : forall t, continuous g t).
  { intros t. apply (ex_derive_continuous g). unfold g, kern. auto_derive. auto. }
  assert (Pg : 0 < RInt g (-1) 1).
  { apply RInt_gt_0; [lra| |intros; apply C].
    intros x Hx. unfold g, kern. apply Rmult_lt_0_compat; [lra|]. apply Rmult_lt_0_compat; [lra|].
    apply Rmult_lt_0_compat; [apply exp_pos|]. apply pow_lt. nra. }
  assert (D : is_RInt h (-1) 1 (G 1 - G (-1))).
  { apply (FTC G h).
    - intros x. unfold G. auto_derive; [auto|]. unfold h, f, g, kern.
      change (pred (S k)) with k. derive_fix k L1 x. ring.
    - intros x. apply (ex_derive_continuous h). unfold h, f, g, kern. auto_derive. auto. }
  assert (E0 : G 1 - G (-1) = 0) by (unfold G; rewrite !pow_1m1 by ring; ring).
  rewrite E0 in D.
  assert (Ig : ex_RInt g (-1) 1) by (apply (ex_RInt_continuous (V := R_CompleteNormedModule)); intros; apply C).
  pose proof (RInt_lin2 (kern b k) (kern b (S k)) (2 * L1) (- b) (-1) 1 (kern_int _ _) (kern_int _ _)) as K1. fold f in K1.
  assert (If : ex_RInt f (-1) 1) by (eexists; exact K1).
  pose proof (RInt_lin2 g f 1 (-1) (-1) 1 Ig If) as K2. fold h in K2.
  pose proof (int_unique _ _ _ _ _ D K2) as E.
  rewrite (is_RInt_unique _ _ _ _ K1) in E. fold (J b (S k)) (J b k) in E. lra.
Qed.

Lemma J_0 b : b * J b 0 = exp b - exp (- b).
Proof.
  pose (F := fun t => exp (b * t)). pose (f := fun t => b * kern b 0 t + 0 * kern b 0 t).
  assert (D : is_RInt f (-1) 1 (F 1 - F (-1))).
  { apply (FTC F f).
    - intros x. unfold F. auto_derive; [auto|]. unfold f, kern; cbn [pow]. ring.
    - intros x. apply (ex_derive_continuous f). unfold f, kern. auto_derive. auto. }
  pose proof (RInt_lin2 (kern b 0) (kern b 0) b 0 (-1) 1 (kern_int _ _) (kern_int _ _)) as K. fold f in K.
  pose proof (int_unique _ _ _ _ _ D K) as E. fold (J b 0) in E. unfold F in E.
  replace (b * 1) with b in E by ring. replace (b * -1) with (- b) in E by ring. lra.
Qed.

Lemma J_1 b : b ^ 2 * J b 1 = 2 * (exp b + exp (- b)) - 2 * J b 0.
Proof.
  pose (F := fun t => exp (b * t) * (b * (1 - t ^ 2) + 2 * t)).
  pose (f := fun t => b ^ 2 * kern b 1 t + 2 * kern b 0 t).
  assert (D : is_RInt f (-1) 1 (F 1 - F (-1))).
  { apply (FTC F f).
    - intros x. unfold F. auto_derive; [auto|]. unfold f, kern; cbn [pow]. ring.
    - intros x. apply (ex_derive_continuous f). unfold f, kern. auto_derive. auto. }
  pose proof (RInt_lin2 (kern b 1) (kern b 0) (b ^ 2) 2 (-1) 1 (kern_int _ _) (kern_int _ _)) as K. fold f in K.
  pose proof (int_unique _ _ _ _ _ D K) as E. fold (J b 0) (J b 1) in E. unfold F in E.
  replace (b * 1) with b in E by ring. replace (b * -1) with (- b) in E by ring.
  replace (1 - 1 ^ 2) with 0 in E by ring. replace (1 - (-1) ^ 2) with 0 in E by ring. lra.
Qed.

(** ** the exact weights (no cut-off), normalised: W 0 = 1 *)
Definition W (b : R) (l : nat) : R := (b / 2) ^ l / INR (fact l) * (J b l / J b 0).

Lemma W_pos b l : 0 < b -> 0 < W b l.
Proof.
  intros Hb. unfold W. pose proof (J_pos b l). pose proof (J_pos b 0). pose proof (INR_fact_lt_0 l).
  apply Rmult_lt_0_compat; apply Rdiv_lt_0_compat; try assumption. apply pow_lt. lra.
Qed.
Lemma W_0 b : W b 0 = 1.
Proof. unfold W. cbn [pow fact]. pose proof (J_pos b 0). cbn [INR]. field. lra. Qed.
Lemma W_dec b l : 0 < b -> W b (S l) < W b l.
Proof.
  intros Hb. unfold W. pose proof (J_pos b 0) as P0. pose proof (INR_fact_lt_0 l) as Pf. pose proof (J_step b l) as Hs.
  assert (P1 : 0 < INR (S l)) by (apply lt_0_INR; lia).
  change (fact (S l)) with (S l * fact l)%nat. rewrite mult_INR. cbn [pow].
  replace (b / 2 * (b / 2) ^ l / (INR (S l) * INR (fact l)) * (J b (S l) / J b 0))
    with ((b / 2) ^ l / INR (fact l) / J b 0 * (b * J b (S l) / (2 * INR (S l)))) by (field; repeat split; lra).
  replace ((b / 2) ^ l / INR (fact l) * (J b l / J b 0)) with ((b / 2) ^ l / INR (fact l) / J b 0 * J b l) by (field; lra).
  apply Rmult_lt_compat_l.
  - apply Rdiv_lt_0_compat; [|assumption]. apply Rdiv_lt_0_compat; [|assumption]. apply pow_lt. lra.
  - apply Rmult_lt_reg_r with (2 * INR (S l)); [lra|]. unfold Rdiv. rewrite Rmult_assoc, Rinv_l by lra. lra.
Qed.
Lemma W_1 b : 0 < b -> W b 1 = (1 + exp (-2 * b)) / (1 - exp (-2 * b)) - 1 / b.
Proof.
  intros Hb. unfold W. cbn [pow fact]. pose proof (J_pos b 0) as P0. pose proof (J_1 b) as H1. pose proof (J_0 b) as H0.
  cbn [INR Nat.mul Nat.add].
  assert (E : exp (-2 * b) = exp (- b) * / exp b).
  { rewrite <- exp_Ropp, <- exp_plus. f_equal. ring. }
  rewrite E. pose proof (exp_pos b) as Pe.
  assert (D : exp b - exp (- b) <> 0) by (rewrite <- H0; nra).
  replace (b / 2 * 1 / 1 * (J b 1 / J b 0)) with (b ^ 2 * J b 1 / (2 * (b * J b 0))) by (field; lra).
  rewrite H1, H0. replace (J b 0) with ((exp b - exp (- b)) / b) by (rewrite <- H0; field; lra).
  assert (D2 : 1 - exp (- b) * / exp b <> 0).
  { intros Z. apply D. apply Rmult_eq_reg_r with (/ exp b); [|apply Rinv_neq_0_compat; lra].
    rewrite Rmult_0_l, Rmult_minus_distr_r, Rinv_r by lra. exact Z. }
  field. repeat split; try lra. 
Qed.
Lemma W_rec b l : 0 < b -> W b (S (S l)) = (1 - 2 * INR (S (S l))) / b * W b (S l) + W b l.
Proof.
  intros Hb. unfold W. pose proof (J_pos b 0) as P0. pose proof (J_rec b l) as H.
  pose proof (INR_fact_lt_0 l) as Pf.
  assert (P1 : 0 < INR (S l)) by (apply lt_0_INR; lia).
  assert (P2 : 0 < INR (S (S l))) by (apply lt_0_INR; lia).
  change (fact (S (S l))) with (S (S l) * (S l * fact l))%nat. change (fact (S l)) with (S l * fact l)%nat.
  rewrite !mult_INR. cbn [pow].
  replace (b / 2 * (b / 2 * (b / 2) ^ l) / (INR (S (S l)) * (INR (S l) * INR (fact l))) * (J b (S (S l)) / J b 0))
    with ((b / 2) ^ l / INR (fact l) / J b 0 * (b ^ 2 * J b (S (S l)) / (4 * INR (S (S l)) * INR (S l)))) by (field; repeat split; lra).
  rewrite H. field. repeat split; lra.
Qed.

(** ** the loop *)
Lemma nth_firstn_lt' (x : list R) n l d : (l < n)%nat -> nth l (firstn n x) d = nth l x d.
Proof.
  revert n l; induction x as [|a x IH]; intros [|n] [|l] H; cbn; try lia; auto. apply IH. lia.
Qed.

Lemma gauss_loop_spec cut b n : forall l wl, (2 <= l)%nat -> length wl = (l + n)%nat ->
  let r := gauss_loop cut b n l wl in
  length r = (l + n)%nat /\ (forall j, (j < l)%nat -> nth j r 0 = nth j wl 0) /\
  exists N, (l <= N <= l + n)%nat /\
    (forall j, (l <= j < N)%nat -> nth j r 0 = (1 - 2 * INR j) / b * nth (j - 1) r 0 + nth (j - 2) r 0 /\ cut <= nth j r 0) /\
    (forall j, (N <= j < l + n)%nat -> nth j r 0 = cut) /\
    ((N < l + n)%nat -> (1 - 2 * INR N) / b * nth (N - 1) r 0 + nth (N - 2) r 0 < cut).
Proof.
  induction n as [|n IH]; intros l wl Hl Hlen; cbn [gauss_loop]; cbv zeta.
  - split; [exact Hlen|]. split; [auto|]. exists l. split; [lia|]. split; [intros; lia|]. split; intros; lia.
  - set (v := (1 - 2 * INR l) / b * nth (l - 1) wl 0 + nth (l - 2) wl 0).
    destruct (Rlt_dec v cut) as [Hv|Hv].
    + assert (Hf : length (firstn l wl) = l) by (rewrite firstn_length; lia).
      assert (P : forall j, (j < l)%nat -> nth j (firstn l wl ++ repeat cut (length wl - l)) 0 = nth j wl 0).
      { intros j Hj. rewrite app_nth1 by lia. now apply nth_firstn_lt'. }
      split; [rewrite app_length, repeat_length; lia|]. split; [exact P|].
      exists l. split; [lia|]. split; [intros; lia|]. split.
      * intros j Hj. rewrite app_nth2 by lia. rewrite Hf.
        rewrite nth_indep with (d' := cut) by (rewrite repeat_length; lia). apply nth_repeat.
      * intros _. rewrite !P by lia. exact Hv.
    + destruct (IH (S l) (upd wl l v)) as (L & P & N & HN & A & B & C); [lia|rewrite upd_length; lia|].
      set (r := gauss_loop cut b n (S l) (upd wl l v)) in *.
      split; [lia|].
      assert (P' : forall j, (j < l)%nat -> nth j r 0 = nth j wl 0).
      { intros j Hj. rewrite P by lia. rewrite upd_nth. now replace (Nat.eqb l j) with false by (symmetry; apply Nat.eqb_neq; lia). }
      split; [exact P'|].
      assert (Pl : nth l r 0 = v).
      { rewrite P by lia. rewrite upd_nth, Nat.eqb_refl. now replace (Nat.ltb l (length wl)) with true by (symmetry; apply Nat.ltb_lt; lia). }
      exists N. split; [lia|]. split; [|split].
      * intros j Hj. destruct (Nat.eq_dec j l) as [->|Hne]; [|apply A; lia].
        rewrite Pl, !P' by lia. split; [reflexivity|]. fold v. lra.
      * intros j Hj. apply B. lia.
      * intros HN'. apply C. lia.
Qed.

Definition w0 : R := 1 / (2 * PI).
Lemma w0_pos : 0 < w0. Proof. unfold w0. pose proof PI_RGT_0. apply Rdiv_lt_0_compat; lra. Qed.

Lemma W_mono b i j : 0 < b -> (i <= j)%nat -> W b j <= W b i.
Proof. intros Hb. induction 1 as [|j _ IH]; [lra|]. pose proof (W_dec b j Hb). lra. Qed.

Lemma gauss_b_pos hw : cos (hw / rad_earth_km) <> 1 -> 0 < gauss_b hw.
Proof.
  intros H. unfold gauss_b. pose proof (COS_bound (hw / rad_earth_km)).
  apply Rdiv_lt_0_compat; [|lra]. rewrite <- ln_1. apply ln_increasing; lra.
Qed.
Lemma gauss_b_min hw : cos (hw / rad_earth_km) <> 1 -> ln 2 / 2 <= gauss_b hw.
Proof.
  intros H. unfold gauss_b. pose proof (COS_bound (hw / rad_earth_km)).
  assert (0 < ln 2) by (rewrite <- ln_1; apply ln_increasing; lra).
  unfold Rdiv. apply Rmult_le_compat_l; [lra|]. apply Rinv_le_contravar; lra.
Qed.

(** complete description of the result *)
Lemma gauss_exact hw LMAX cut : cut <= hw -> (1 <= LMAX)%nat -> cos (hw / rad_earth_km) <> 1 ->
  exists wl, gauss_weights hw LMAX cut = Ok wl /\ length wl = S LMAX /\
    nth 0 wl 0 = w0 /\ nth 1 wl 0 = w0 * W (gauss_b hw) 1 /\
    forall l, (2 <= l <= LMAX)%nat -> nth l wl 0 = Rmax (w0 * W (gauss_b hw) l) cut.
Proof.
  intros Hc HL Hcos. pose proof (gauss_b_pos hw Hcos) as Hb. unfold gauss_weights.
  destruct (Rlt_dec hw cut) as [X|_]; [lra|]. destruct LMAX as [|k]; [lia|]. cbv zeta. fold w0.
  rewrite <- (W_1 _ Hb). set (b := gauss_b hw) in *.
  set (wl0 := upd (upd (repeat 0 (S k + 1)) 0 w0) 1 (w0 * W b 1)).
  assert (Ln : length wl0 = (2 + k)%nat) by (unfold wl0; rewrite !upd_length, repeat_length; lia).
  destruct (gauss_loop_spec cut b k 2 wl0 ltac:(lia) Ln) as (L & P & N & HN & A & B & C).
  set (r := gauss_loop cut b k 2 wl0) in *. exists r. split; [reflexivity|]. split; [lia|].
  assert (R0 : nth 0 r 0 = w0).
  { rewrite P by lia. unfold wl0. rewrite Nat.add_comm. reflexivity. }
  assert (R1 : nth 1 r 0 = w0 * W b 1).
  { rewrite P by lia. unfold wl0. rewrite Nat.add_comm. reflexivity. }
  split; [exact R0|]. split; [exact R1|].
  assert (E : forall j, (j < N)%nat -> nth j r 0 = w0 * W b j).
  { intros j. induction j as [| |j IH1 IH2] using two_step; intros Hj.
    - rewrite R0, W_0. ring.
    - exact R1.
    - destruct (A (S (S j)) ltac:(lia)) as (E & _). rewrite E.
      replace (S (S j) - 1)%nat with (S j) by lia. replace (S (S j) - 2)%nat with j by lia.
      rewrite IH1, IH2 by lia. rewrite (W_rec b j Hb). ring. }
  intros l Hl. destruct (le_lt_dec N l) as [G|G].
  - rewrite B by lia. rewrite Rmax_right; [reflexivity|].
    assert (HNk : (N < 2 + k)%nat) by lia. specialize (C HNk). destruct N as [|[|N]]; [lia|lia|].
    replace (S (S N) - 1)%nat with (S N) in C by lia. replace (S (S N) - 2)%nat with N in C by lia.
    rewrite !E in C by lia. pose proof (W_rec b N Hb) as HR. pose proof (W_mono b (S (S N)) l Hb G). pose proof w0_pos.
    assert (w0 * W b (S (S N)) < cut) by (rewrite HR; lra). nra.
  - rewrite E by lia. destruct (A l ltac:(lia)) as (_ & A2). rewrite E in A2 by lia. now rewrite Rmax_left by lra.
Qed.

(** ** W as Legendre coefficient of the Gaussian averaging function *)
Definition gk (b : R) (l : nat) (t : R) : R := exp (b * t) * legP l t.
Definition M (b : R) (l : nat) : R := RInt (gk b l) (-1) 1.
Lemma gk_derive b l x : is_derive (gk b l) x (b * gk b l x + exp (b * x) * legD l x).
Proof.
  unfold gk. replace (b * (exp (b * x) * legP l x) + exp (b * x) * legD l x)
    with (plus (mult (b * exp (b * x)) (legP l x)) (mult (exp (b * x)) (legD l x))) by (unfold plus, mult; cbn; ring).
  apply (is_derive_mult (K := R_AbsRing) (fun t => exp (b * t)) (legP l)).
  - auto_derive; [auto|]. ring.
  - apply legP_derive.
  - intros; apply Rmult_comm.
Qed.
Lemma gk_cont b l x : continuous (gk b l) x.
Proof. apply (ex_derive_continuous (gk b l)). eexists. apply gk_derive. Qed.
Lemma gk_int b l : ex_RInt (gk b l) (-1) 1.
Proof. apply (ex_RInt_continuous (V := R_CompleteNormedModule)). intros. apply gk_cont. Qed.

Lemma M_rec b l : b * M b (S (S l)) = b * M b l - (2 * INR l + 3) * M b (S l).
Proof.
  pose (F := fun t => gk b (S (S l)) t - gk b l t).
  pose (g := fun t => b * gk b (S (S l)) t + (- b) * gk b l t).
  pose (f := fun t => 1 * g t + (2 * INR l + 3) * gk b (S l) t).
  assert (D : is_RInt f (-1) 1 (F 1 - F (-1))).
  { apply (FTC F f).
    - intros x. unfold F.
      replace (f x) with (minus (b * gk b (S (S l)) x + exp (b * x) * legD (S (S l)) x) (b * gk b l x + exp (b * x) * legD l x)).
      + apply (is_derive_minus (V := R_NormedModule)); apply gk_derive.
      + unfold f, g, minus, plus, opp. cbn -[gk legP legD INR]. unfold gk at 3 4 5.
        pose proof (leg_deriv_diff l x) as E.
        replace (legD (S (S l)) x) with ((2 * INR l + 3) * legP (S l) x + legD l x) by lra. unfold gk. ring.
    - intros x. unfold f, g. apply (ex_derive_continuous (fun t => 1 * (b * gk b (S (S l)) t + - b * gk b l t) + (2 * INR l + 3) * gk b (S l) t)).
      auto_derive. repeat split; eexists; apply gk_derive. }
  assert (E0 : F 1 - F (-1) = 0).
  { unfold F, gk. rewrite !legP_1, !legP_m1. cbn [pow]. ring. }
  rewrite E0 in D.
  pose proof (RInt_lin2 (gk b (S (S l))) (gk b l) b (- b) (-1) 1 (gk_int _ _) (gk_int _ _)) as K1. fold g in K1.
  assert (Ig : ex_RInt g (-1) 1) by (eexists; exact K1).
  pose proof (RInt_lin2 g (gk b (S l)) 1 (2 * INR l + 3) (-1) 1 Ig (gk_int _ _)) as K2. fold f in K2.
  pose proof (int_unique _ _ _ _ _ D K2) as E.
  rewrite (is_RInt_unique _ _ _ _ K1) in E. fold (M b (S (S l))) (M b (S l)) (M b l) in E. lra.
Qed.
Lemma M_0 b : M b 0 = J b 0.
Proof. unfold M, J. apply RInt_ext. intros. unfold gk, kern. cbn. ring. Qed.
Lemma M_1 b : 2 * M b 1 = b * J b 1.
Proof.
  pose (F := fun t => exp (b * t) * (1 - t ^ 2)).
  pose (f := fun t => b * kern b 1 t + (-2) * gk b 1 t).
  assert (D : is_RInt f (-1) 1 (F 1 - F (-1))).
  { apply (FTC F f).
    - intros x. unfold F. auto_derive; [auto|]. unfold f, kern, gk; cbn [pow legP]. ring.
    - intros x. apply (ex_derive_continuous f). unfold f, kern, gk. cbn [legP]. auto_derive. auto. }
  pose proof (RInt_lin2 (kern b 1) (gk b 1) b (-2) (-1) 1 (kern_int _ _) (gk_int _ _)) as K. fold f in K.
  pose proof (int_unique _ _ _ _ _ D K) as E. fold (J b 1) (M b 1) in E. unfold F in E.
  replace (1 - 1 ^ 2) with 0 in E by ring. replace (1 - (-1) ^ 2) with 0 in E by ring. lra.
Qed.
Lemma W_M b l : 0 < b -> W b l = M b l / M b 0.
Proof.
  intros Hb. pose proof (J_pos b 0) as P0. pose proof (M_0 b) as E0.
  induction l as [| |l IH1 IH2] using two_step.
  - rewrite W_0. field. lra.
  - unfold W. cbn [pow fact INR Nat.mul Nat.add]. pose proof (M_1 b). rewrite E0.
    replace (M b 1) with (b * J b 1 / 2) by lra. field. lra.
  - rewrite (W_rec b l Hb), IH1, IH2. pose proof (M_rec b l) as R.
    replace (M b (S (S l))) with ((b * M b (S (S l))) / b) by (field; lra). rewrite R, !S_INR. field. split; lra.
Qed.
(** in terms of the normalised averaging kernel exp(-b (1 - t)) *)
Lemma W_jekeli b l : 0 < b ->
  W b l = RInt (fun t => exp (- b * (1 - t)) * legP l t) (-1) 1 / RInt (fun t => exp (- b * (1 - t))) (-1) 1.
Proof.
  intros Hb. rewrite (W_M b l Hb).
  assert (K : forall k, RInt (fun t => exp (- b * (1 - t)) * legP k t) (-1) 1 = exp (- b) * M b k).
  { intros k. apply (is_RInt_unique (V := R_CompleteNormedModule)).
    apply (is_RInt_ext (fun t => scal (exp (- b)) (gk b k t))).
    - intros x _. unfold scal, gk; cbn. unfold mult; cbn. rewrite <- Rmult_assoc, <- exp_plus. do 2 f_equal. ring.
    - apply (is_RInt_scal (V := R_NormedModule)). apply (RInt_correct (V := R_CompleteNormedModule)). apply gk_int. }
  rewrite (K l). replace (RInt (fun t => exp (- b * (1 - t))) (-1) 1) with (exp (- b) * M b 0).
  - pose proof (exp_pos (- b)). pose proof (J_pos b 0). rewrite M_0. field. split; lra.
  - rewrite <- (K 0%nat). apply RInt_ext. intros. cbn [legP]. now rewrite Rmult_1_r.
Qed.
