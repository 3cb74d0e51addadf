(** C71: time_series.smooth, default mode and weighted mode.
    Specification: the six-parameter signal, its misfit over one window. *)
From Coq Require Import Reals Lra.
From Verif Require Import Base DestripeModel DestripeProofs LinAlg RegressModel RegressProofs TsModel PropTs.
Close Scope Z_scope.
Open Scope R_scope.

(** constant + trend + annual + semi-annual signal, time in years *)
Record signal := mksig { g_c : R; g_trend : R; g_as : R; g_ac : R; g_ss : R; g_sc : R }.
Definition line (g : signal) (x : R) : R := g_c g + g_trend g * x.
Definition annual (g : signal) (x : R) : R := g_as g * sin (2 * PI * x) + g_ac g * cos (2 * PI * x).
Definition semiannual (g : signal) (x : R) : R := g_ss g * sin (4 * PI * x) + g_sc g * cos (4 * PI * x).
Definition sig (g : signal) (x : R) : R := line g x + annual g x + semiannual g x.
(** squared misfit to the epochs k .. k+2H *)
Definition misfit (t d : list R) (H k : nat) (f : R -> R) : R := rsum (2 * H + 1) (fun i => (val d (k + i) - f (val t (k + i)%nat)) ^ 2).
Definition best (t d : list R) (H k : nat) (g : signal) : Prop := forall g', misfit t d H k (sig g) <= misfit t d H k (sig g').
(** the six functions can be told apart on the window *)
Definition separable (t : list R) (H k : nat) : Prop :=
  forall g, (forall i, (i <= 2 * H)%nat -> sig g (val t (k + i)) = 0) -> g = mksig 0 0 0 0 0 0.

(** correspondence with coefficient vectors *)
Definition vec (g : signal) (j : nat) : R :=
  match j with 0%nat => g_c g | 1%nat => g_trend g | 2%nat => g_as g | 3%nat => g_ac g | 4%nat => g_ss g | _ => g_sc g end.
Definition unvec (x : nat -> R) : signal := mksig (x 0%nat) (x 1%nat) (x 2%nat) (x 3%nat) (x 4%nat) (x 5%nat).
Lemma comb_unvec t i x k : comb 6 (seas_col t i) x k = sig (unvec x) (val t (i + k)).
Proof. unfold comb, sig, line, annual, semiannual, unvec, val. cbn [rsum g_c g_trend g_as g_ac g_ss g_sc seas_col]. unfold at_. ring. Qed.
Lemma unvec_vec g : unvec (vec g) = g.
Proof. destruct g; reflexivity. Qed.
Lemma unvec_ext x y : (forall j, (j < 6)%nat -> x j = y j) -> unvec x = unvec y.
Proof. intros E. unfold unvec. rewrite !E by lia. reflexivity. Qed.
Lemma vec_unvec x j : (j < 6)%nat -> vec (unvec x) j = x j.
Proof. intros L. do 6 (destruct j as [|j]; [reflexivity|]). lia. Qed.
Lemma sep_indep t H k : separable t H k <-> independent 6 (2 * H + 1) (seas_col t k).
Proof.
  split.
  - intros S x Hx. assert (E : unvec x = mksig 0 0 0 0 0 0). { apply S. intros i Li. rewrite <- comb_unvec. apply Hx. lia. }
    intros j Lj. rewrite <- (vec_unvec x j Lj), E. do 6 (destruct j as [|j]; [reflexivity|]). lia.
  - intros I g Hg. rewrite <- (unvec_vec g). assert (Z : forall j, (j < 6)%nat -> vec g j = 0).
    { apply I. intros i Li. rewrite comb_unvec, unvec_vec. apply Hg. lia. }
    unfold unvec. rewrite !Z by lia. reflexivity.
Qed.
Lemma misfit_dot t d H k x : misfit t d H k (sig (unvec x)) =
  dot (2 * H + 1) (fun i => at_ d (k + i) - comb 6 (seas_col t k) x i) (fun i => at_ d (k + i) - comb 6 (seas_col t k) x i).
Proof. unfold misfit, dot. apply rsum_ext. intros i _. rewrite comb_unvec. unfold val, at_. ring. Qed.
Definition fit (t d : list R) (H k : nat) : signal := unvec (lsq 6 (2 * H + 1) (seas_col t k) (fun i => at_ d (k + i))).
Lemma fit_best t d H k : best t d H k (fit t d H k).
Proof. intros g'. rewrite <- (unvec_vec g'). unfold fit. rewrite !misfit_dot. apply lsq_min. Qed.
Lemma best_fit t d H k g : separable t H k -> best t d H k g -> g = fit t d H k.
Proof.
  intros S B. apply sep_indep in S. unfold fit. set (b := lsq _ _ _ _). set (n := (2 * H + 1)%nat) in *. set (A := seas_col t k) in *.
  pose proof (B (fit t d H k)) as M. unfold fit in M. fold n A b in M. rewrite <- (unvec_vec g) in M. rewrite !misfit_dot in M. fold n A in M.
  set (dd := fun i => at_ d (k + i)) in *.
  change (dot n (fun i => at_ d (k + i) - comb 6 A (vec g) i) (fun i => at_ d (k + i) - comb 6 A (vec g) i)) with
    (dot n (fun i => dd i - comb 6 A (vec g) i) (fun i => dd i - comb 6 A (vec g) i)) in M.
  rewrite (normal_min 6 n A dd b ltac:(intros; apply lsq_normal; auto) (vec g)) in M.
  change (dot n (fun i => at_ d (k + i) - comb 6 A b i) (fun i => at_ d (k + i) - comb 6 A b i)) with
    (dot n (fun i => dd i - comb 6 A b i) (fun i => dd i - comb 6 A b i)) in M.
  pose proof (dot_self_nonneg n (fun i => comb 6 A b i - comb 6 A (vec g) i)) as NN.
  assert (Z : dot n (fun i => comb 6 A b i - comb 6 A (vec g) i) (fun i => comb 6 A b i - comb 6 A (vec g) i) = 0) by lra.
  rewrite <- (unvec_vec g). apply unvec_ext. intros j Lj.
  assert (b j - vec g j = 0); [|lra]. apply (S (fun j => b j - vec g j)); auto. intros i Li. rewrite comb_sub.
  pose proof (dot_self_zero n _ Z i Li) as Q. cbv beta in Q. lra.
Qed.
Lemma exact_best t d H k g : (forall i, (i <= 2 * H)%nat -> val d (k + i) = sig g (val t (k + i))) -> best t d H k g.
Proof.
  intros E g'. unfold misfit at 1. rewrite (rsum_ext _ _ (fun _ => 0)).
  - rewrite rsum_zero. apply rsum_nonneg. intros; apply pow2_ge_0.
  - intros i Li. rewrite E by lia. ring.
Qed.

Lemma window_ok erf tppf t d H i err stdev conf w : window_fit erf tppf t d H i err stdev conf = Ok w ->
  separable t H i /\
  let g := fit t d H i in let x := val t (i + H) in
  s_data w = line g x /\ s_trend w = g_trend g /\ s_annual w = annual g x /\ s_semiann w = semiannual g x /\
  s_season w = s_annual w + s_semiann w /\ s_reduce w = val d (i + H) /\ s_noise w = val d (i + H) - s_data w - s_season w /\
  (s_annamp w, s_annphase w) = amplitude (g_as g) (g_ac g) /\ (s_semiamp w, s_semiphase w) = amplitude (g_ss g) (g_sc g) /\
  exists B, is_id 6 (mmul 6 (gram (2 * H + 1) (seas_col t i)) B) /\
  s_error w = if Req_EM_T err 0 then t_star erf tppf stdev conf (Z.of_nat (2 * H + 1) - 6) *
      sqrt (misfit t d H i (sig g) / IZR (Z.of_nat (2 * H + 1) - 6) * B 1%nat 1%nat)
    else Rabs err * sqrt (B 1%nat 1%nat).
Proof.
  unfold window_fit. destruct (inv 6 (gram (2 * H + 1) (seas_col t i))) as [B|] eqn:EB; cbn [bind]; [|discriminate].
  intros Q. assert (X : forall a b : seasonal, Ok a = Ok b -> b = a) by congruence. apply X in Q. clear X.
  split; [apply sep_indep, gram_inv; eauto|]. cbv zeta.
  set (b := lsq 6 (2 * H + 1) (seas_col t i) (fun k => at_ d (i + k))) in *.
  assert (EF : fit t d H i = unvec b) by reflexivity. rewrite EF.
  pose proof (inv_ok _ _ _ EB) as HB.
  rewrite Q. cbn [s_data s_trend s_season s_annual s_annamp s_annphase s_semiann s_semiamp s_semiphase s_noise s_reduce s_error].
  unfold line, annual, semiannual, unvec, val, amplitude. cbn [g_c g_trend g_as g_ac g_ss g_sc seas_col]. change (nth ?a ?l 0) with (at_ l a).
  split; [ring|]. split; [reflexivity|]. split; [ring|]. split; [ring|]. split; [ring|]. split; [reflexivity|]. split; [reflexivity|].
  split; [f_equal; unfold Rdiv; ring|]. split; [f_equal; unfold Rdiv; ring|].
  exists B. split; [exact HB|]. destruct (Req_EM_T err 0).
  - f_equal. f_equal. f_equal. f_equal. change (mksig (b 0%nat) (b 1%nat) (b 2%nat) (b 3%nat) (b 4%nat) (b 5%nat)) with (unvec b). rewrite misfit_dot. reflexivity.
  - rewrite (rsum_ext _ _ (fun k => err ^ 2 * rsum 6 (fun l => B 1%nat l * seas_col t i l k) ^ 2)) by (intros; ring).
    rewrite rsum_scal, normeq_sq by (auto; lia). rewrite sqrt_mult_alt by apply pow2_ge_0. rewrite <- (Rsqr_pow2 err), sqrt_Rsqr_abs. reflexivity.
Qed.
Lemma window_sing erf tppf t d H i err stdev conf : ~ separable t H i -> window_fit erf tppf t d H i err stdev conf = Err OtherExn.
Proof.
  intros N. unfold window_fit. destruct (inv 6 (gram (2 * H + 1) (seas_col t i))) as [B|e] eqn:EB.
  - exfalso. apply N, sep_indep, gram_inv. eauto.
  - cbn [bind]. f_equal. unfold inv in EB. destruct (is_idb _ _); congruence.
Qed.
Lemma mapM_nth {A B} (f : A -> res B) l out : mapM f l = Ok out -> length out = length l /\ forall k a b, (k < length l)%nat -> f (nth k l a) = Ok (nth k out b).
Proof.
  revert out. induction l as [|x l IH]; intros out E; cbn in E.
  - injection E as <-. split; [reflexivity|]. cbn. lia.
  - destruct (f x) as [y|] eqn:Ef; cbn [bind] in E; [|discriminate]. destruct (mapM f l) as [ys|] eqn:Em; cbn [bind] in E; [|discriminate].
    injection E as <-. destruct (IH ys eq_refl) as [L N]. split; [cbn; lia|]. intros [|k] a b Lk; cbn; [exact Ef|]. apply N. cbn in Lk. lia.
Qed.
Lemma mapM_all {A B} (f : A -> res B) l : (forall a, In a l -> exists b, f a = Ok b) -> exists out, mapM f l = Ok out.
Proof.
  induction l as [|x l IH]; intros H; [exists []; reflexivity|].
  destruct (H x ltac:(left; auto)) as [y Ey]. destruct (IH ltac:(intros; apply H; right; auto)) as [ys Eys]. exists (y :: ys). cbn. rewrite Ey. cbn [bind]. rewrite Eys. reflexivity.
Qed.
Lemma mapM_fail {A B} (f : A -> res B) l e : (forall a e', In a l -> f a = Err e' -> e' = e) -> (exists a, In a l /\ f a = Err e) -> mapM f l = Err e.
Proof.
  induction l as [|x l IH]; intros H [a [Ia Ea]]; [contradiction|]. cbn. destruct (f x) as [y|e'] eqn:Ex; cbn [bind].
  - rewrite IH; [reflexivity| |].
    + intros a0 e0 I0 E0. apply (H a0 e0); auto. right; auto.
    + destruct Ia as [->|Ia]; [congruence|]. exists a. auto.
  - f_equal. eapply H; [left; reflexivity|exact Ex].
Qed.

Section Default.
Context (erf : R -> R) (tppf : R -> Z -> R) (t d : list R) (H : nat) (err stdev conf : R).
Let run := smooth erf tppf t d H err stdev conf.
Lemma smooth_facts out time : run = Ok (out, time) -> length t = length d -> (2 * H <= length t)%nat /\ length out = (length t - 2 * H)%nat /\
  time = slice t H (length t - H) /\ forall k w, (k < length out)%nat -> window_fit erf tppf t d H k err stdev conf = Ok (nth k out w).
Proof.
  unfold run, smooth. intros E Ed. destruct (Nat.eqb_spec (length t) 1); [discriminate|]. destruct (Nat.ltb_spec (length t) (2 * H)); [discriminate|].
  destruct (_ && _)%bool; [discriminate|]. destruct (mapM _ _) as [l|] eqn:EM; cbn [bind] in E; [|discriminate].
  assert (X : forall (a b : list seasonal * list R), Ok a = Ok b -> b = a) by congruence. apply X in E. clear X.
  assert (E1 : out = l) by congruence. assert (E2 : time = slice t H (length t - H)) by congruence. clear E. subst out time.
  destruct (mapM_nth _ _ _ EM) as [L N]. rewrite seq_length in L. split; [lia|]. split; [auto|]. split; [reflexivity|].
  intros k w Lk. rewrite seq_length in N. specialize (N k 0%nat w ltac:(lia)). rewrite seq_nth in N by lia. exact N.
Qed.
End Default.

(** the call succeeds exactly when the six functions can be told apart on every window; otherwise numpy raises LinAlgError *)
Theorem C71_returns : forall erf tppf t d H err stdev conf, length t = length d -> (2 <= length t)%nat -> (2 * H <= length t)%nat ->
  ((forall k, (k + 2 * H < length t)%nat -> separable t H k) -> exists out time, smooth erf tppf t d H err stdev conf = Ok (out, time)) /\
  ((exists k, (k + 2 * H < length t)%nat /\ ~ separable t H k) -> smooth erf tppf t d H err stdev conf = Err OtherExn) /\
  ((H < 3)%nat -> (2 * H < length t)%nat -> smooth erf tppf t d H err stdev conf = Err OtherExn).
Proof.
  intros erf tppf t d H err stdev conf E L2 LH.
  assert (U : smooth erf tppf t d H err stdev conf =
    bind (mapM (fun i => window_fit erf tppf t d H i err stdev conf) (seq 0 (length t - 2 * H))) (fun l => Ok (l, slice t H (length t - H)))).
  { unfold smooth. destruct (Nat.eqb_spec (length t) 1); [lia|]. destruct (Nat.ltb_spec (length t) (2 * H)); [lia|].
    destruct (Nat.ltb_spec (length d) (length t)); [lia|]. rewrite andb_false_r. reflexivity. }
  rewrite U.
  assert (F : (exists k, (k + 2 * H < length t)%nat /\ ~ separable t H k) ->
    bind (mapM (fun i => window_fit erf tppf t d H i err stdev conf) (seq 0 (length t - 2 * H))) (fun l => Ok (l, slice t H (length t - H))) = Err OtherExn).
  { intros [k [Lk N]]. rewrite (mapM_fail _ _ OtherExn); [reflexivity| |].
    - intros a e' _. unfold window_fit. destruct (inv _ _) as [B|e2] eqn:EB; cbn [bind]; [discriminate|]. unfold inv in EB. destruct (is_idb _ _); congruence.
    - exists k. split; [apply in_seq; lia|apply window_sing; auto]. }
  split; [|split].
  - intros S. destruct (mapM_all (fun i => window_fit erf tppf t d H i err stdev conf) (seq 0 (length t - 2 * H))) as [l El].
    + intros a Ha. apply in_seq in Ha. specialize (S a ltac:(lia)). apply sep_indep, gram_inv in S. destruct S as [B EB].
      unfold window_fit. rewrite EB. cbn [bind]. eexists. reflexivity.
    + rewrite El. cbn [bind]. eauto.
  - exact F.
  - intros H3 LN. apply F. exists 0%nat. split; [lia|]. intros S. apply sep_indep, independent_le in S. lia.
Qed.
(** every output epoch: values are those of the best fitting signal of its window, and the data are split into
    smoothed + seasonal + noise *)
Theorem C71_best_fit : forall erf tppf t d H err stdev conf out time, smooth erf tppf t d H err stdev conf = Ok (out, time) -> length t = length d ->
  length out = (length t - 2 * H)%nat /\ length time = length out /\
  forall k w0, (k < length out)%nat -> let w := nth k out w0 in let x := val time k in
   x = val t (k + H) /\ s_reduce w = val d (k + H) /\ s_reduce w = s_data w + s_season w + s_noise w /\ s_season w = s_annual w + s_semiann w /\
   (exists g, best t d H k g) /\
   forall g, best t d H k g -> s_data w = line g x /\ s_trend w = g_trend g /\ s_annual w = annual g x /\ s_semiann w = semiannual g x /\
     (s_annamp w, s_annphase w) = amplitude (g_as g) (g_ac g) /\ (s_semiamp w, s_semiphase w) = amplitude (g_ss g) (g_sc g) /\
     s_annual w = s_annamp w * sin (2 * PI * x + s_annphase w * PI / 180) /\
     s_semiann w = s_semiamp w * sin (4 * PI * x + s_semiphase w * PI / 180).
Proof.
  intros erf tppf t d H err stdev conf out time E Ed. destruct (smooth_facts _ _ _ _ _ _ _ _ _ _ E Ed) as (LH & LO & -> & W).
  rewrite slice_len by lia. split; [exact LO|]. split; [lia|]. intros k w0 Lk. cbv zeta.
  assert (TX : val (slice t H (length t - H)) k = val t (k + H)). { unfold val. rewrite slice_nth by lia. f_equal. lia. }
  rewrite TX. specialize (W k w0 Lk). apply window_ok in W. cbv zeta in W. destruct W as (S & A1 & A2 & A3 & A4 & A5 & A6 & A7 & A8 & A9 & _).
  split; [reflexivity|]. split; [exact A6|]. split; [rewrite A7, A6; ring|]. split; [exact A5|].
  split; [exists (fit t d H k); apply fit_best|]. intros g Hg. rewrite (best_fit t d H k g S Hg).
  repeat (split; [assumption|]).
  pose proof (C55_amplitude (g_as (fit t d H k)) (g_ac (fit t d H k))) as P1. rewrite <- A8 in P1. cbn [fst snd] in P1.
  pose proof (C55_amplitude (g_ss (fit t d H k)) (g_sc (fit t d H k))) as P2. rewrite <- A9 in P2. cbn [fst snd] in P2.
  destruct P1 as (_ & _ & _ & _ & _ & P1). destruct P2 as (_ & _ & _ & _ & _ & P2). rewrite P1, P2. split; assumption.
Qed.
(** data that are such a signal are separated exactly, without noise and (when no data error is given) without error *)
Theorem C71_exact : forall erf tppf t d H err stdev conf out time g, smooth erf tppf t d H err stdev conf = Ok (out, time) -> length t = length d ->
  (forall i, (i < length t)%nat -> val d i = sig g (val t i)) ->
  forall k w0, (k < length out)%nat -> let w := nth k out w0 in let x := val time k in
   s_data w = line g x /\ s_trend w = g_trend g /\ s_annual w = annual g x /\ s_semiann w = semiannual g x /\ s_noise w = 0 /\ (err = 0 -> s_error w = 0).
Proof.
  intros erf tppf t d H err stdev conf out time g E Ed Hd k w0 Lk. cbv zeta.
  destruct (C71_best_fit _ _ _ _ _ _ _ _ _ _ E Ed) as (LO & LT & B). destruct (B k w0 Lk) as (TX & R1 & R2 & R3 & _ & B').
  assert (BG : best t d H k g) by (apply exact_best; intros i Li; apply Hd; lia).
  destruct (B' g BG) as (A1 & A2 & A3 & A4 & _). repeat (split; [assumption|]). split.
  - rewrite A1, R3, A3, A4, R1 in R2. rewrite Hd in R2 by lia. rewrite <- TX in R2. unfold sig in R2. lra.
  - intros ->. destruct (smooth_facts _ _ _ _ _ _ _ _ _ _ E Ed) as (_ & _ & _ & W). specialize (W k w0 Lk). apply window_ok in W. cbv zeta in W.
    destruct W as (S & _ & _ & _ & _ & _ & _ & _ & _ & _ & M & _ & ER). rewrite ER. destruct (Req_EM_T 0 0); [|lra].
    rewrite <- (best_fit t d H k g S BG). unfold misfit. rewrite (rsum_ext _ _ (fun _ => 0)).
    + rewrite rsum_zero. unfold Rdiv. rewrite !Rmult_0_l, sqrt_0. ring.
    + intros i Li. rewrite Hd by lia. ring.
Qed.
(** a known data error: the trend error is proportional to it, is positive, and does not depend on the data *)
Theorem C71_data_error : forall erf tppf t H k w0 stdev conf d1 d2 e1 e2 out1 out2 time1 time2, e1 <> 0 -> e2 <> 0 ->
  length t = length d1 -> length t = length d2 ->
  smooth erf tppf t d1 H e1 stdev conf = Ok (out1, time1) -> smooth erf tppf t d2 H e2 stdev conf = Ok (out2, time2) ->
  (k < length out1)%nat -> Rabs e2 * s_error (nth k out1 w0) = Rabs e1 * s_error (nth k out2 w0) /\ 0 < s_error (nth k out1 w0).
Proof.
  intros erf tppf t H k w0 stdev conf d1 d2 e1 e2 out1 out2 time1 time2 N1 N2 L1 L2 E1 E2 Lk.
  destruct (smooth_facts _ _ _ _ _ _ _ _ _ _ E1 L1) as (_ & LO1 & _ & W1). destruct (smooth_facts _ _ _ _ _ _ _ _ _ _ E2 L2) as (_ & LO2 & _ & W2).
  specialize (W1 k w0 Lk). specialize (W2 k w0 ltac:(lia)). apply window_ok in W1. apply window_ok in W2. cbv zeta in W1, W2.
  destruct W1 as (S & _ & _ & _ & _ & _ & _ & _ & _ & _ & B1 & H1 & R1). destruct W2 as (_ & _ & _ & _ & _ & _ & _ & _ & _ & _ & B2 & H2 & R2).
  destruct (Req_EM_T e1 0); [contradiction|]. destruct (Req_EM_T e2 0); [contradiction|].
  assert (BB : B1 1%nat 1%nat = B2 1%nat 1%nat).
  { pose proof (inv_sym 6 _ B1 ltac:(intros; apply dot_sym) H1) as [_ I1].
    pose proof (mmul_id_l 6 _ B2 1%nat 1%nat I1 ltac:(lia)) as Q1. pose proof (mmul_id_r 6 B1 _ 1%nat 1%nat H2 ltac:(lia)) as Q2.
    rewrite mmul_assoc in Q1. rewrite <- Q1. symmetry. exact Q2. }
  pose proof (proj1 (inv_sym 6 _ B2 ltac:(intros; apply dot_sym) H2)) as SY.
  rewrite R1, R2, BB. split; [ring|]. apply Rmult_lt_0_compat; [apply Rabs_pos_lt; auto|].
  apply sqrt_lt_R0. rewrite <- (normeq_sq 6 (2 * H + 1) (seas_col t k) B2 1 H2) by lia.
  apply sep_indep in S.
  destruct (Rle_lt_or_eq_dec 0 (rsum (2 * H + 1) (fun i => rsum 6 (fun k0 => B2 1%nat k0 * seas_col t k k0 i) ^ 2))) as [P|Z]; auto.
  { apply rsum_nonneg. intros; apply pow2_ge_0. }
  exfalso. symmetry in Z. rewrite (normeq_sq 6 (2 * H + 1) (seas_col t k) B2 1 H2) in Z by lia.
  assert (CZ : forall i, (i < 2 * H + 1)%nat -> comb 6 (seas_col t k) (B2 1%nat) i = 0).
  { apply dot_self_zero. rewrite <- Z. apply normeq_dot; auto; lia. }
  pose proof (S (B2 1%nat) CZ) as BZ. specialize (H2 1%nat 1%nat ltac:(lia) ltac:(lia)). unfold mmul in H2.
  rewrite (rsum_ext 6 _ (fun _ => 0)) in H2.
  - rewrite rsum_zero in H2. unfold delta in H2. cbn in H2. lra.
  - intros j Lj. rewrite (SY j 1%nat Lj) by lia. rewrite (BZ j Lj). ring.
Qed.

(** ** weighted mode *)
(** weight of the k-th epoch of a window: triangle, or Gaussian with a standard deviation of 2 epochs *)
Definition triangle (H k : nat) : R := INR H + 1 - Rabs (INR k - INR H).
Definition gaussian (H k : nat) : R := / (2 * sqrt (2 * PI)) * exp (- ((INR k - INR H) ^ 2 / (2 * 2 ^ 2))).
Definition weight_fn (WEIGHT : nat) : nat -> nat -> R := if (WEIGHT =? 1)%nat then triangle else gaussian.
(** sum over the windows i .. i+2H that contain epoch j *)
Definition over (n H j : nat) (f : nat -> R) : R := rsum (n - 2 * H) (fun i => if ((i <=? j) && (j <=? i + 2 * H))%nat then f i else 0).
Lemma accum_over n H v j : accum n H v j = over n H j (fun i => v i (j - i)%nat).
Proof.
  unfold accum, over. generalize (n - 2 * H)%nat as m. induction m as [|m IH]; [reflexivity|].
  rewrite seq_S, fold_left_app. cbn [fold_left Nat.add rsum]. unfold add_window at 1. rewrite IH.
  destruct ((m <=? j) && (j <=? m + 2 * H))%nat; ring.
Qed.
Lemma win_weight_ok W H k : (k <= 2 * H)%nat -> win_weight W H k = weight_fn W H k.
Proof.
  intros L. unfold win_weight, weight_fn. destruct (W =? 1)%nat.
  - unfold triangle. destruct (Nat.leb_spec k H).
    + rewrite plus_INR. cbn [INR]. rewrite Rabs_left1. { ring. } apply le_INR in H0. lra.
    + rewrite minus_INR by lia. rewrite plus_INR, mult_INR. cbn [INR]. rewrite Rabs_right. { ring. }
      assert (INR H < INR k) by (apply lt_INR; auto). lra.
  - unfold gaussian, Rdiv. rewrite Ropp_mult_distr_l. ring.
Qed.
Lemma weight_pos W H k : (k <= 2 * H)%nat -> 0 < weight_fn W H k.
Proof.
  intros L. unfold weight_fn. destruct (W =? 1)%nat.
  - unfold triangle. assert (Rabs (INR k - INR H) <= INR H); [|lra]. apply Rabs_le.
    pose proof (pos_INR k). assert (INR k <= INR (2 * H)) by (apply le_INR; auto). rewrite mult_INR in *. cbn [INR] in *. lra.
  - unfold gaussian. apply Rmult_lt_0_compat; [|apply exp_pos]. apply Rinv_0_lt_compat. pose proof PI_RGT_0.
    assert (0 < sqrt (2 * PI)) by (apply sqrt_lt_R0; lra). lra.
Qed.
Lemma over_ext n H j f g : (forall i, (i <= j <= i + 2 * H)%nat -> (i < n - 2 * H)%nat -> f i = g i) -> over n H j f = over n H j g.
Proof. intros E. apply rsum_ext. intros i Li. destruct (Nat.leb_spec i j), (Nat.leb_spec j (i + 2 * H)); cbn [andb]; auto. Qed.
Lemma over_scal n H j f c : over n H j (fun i => f i * c) = c * over n H j f.
Proof. unfold over. rewrite <- rsum_scal. apply rsum_ext. intros i _. destruct (_ && _); ring. Qed.
Lemma over_pos n H j f : (2 * H < n)%nat -> (j < n)%nat -> (forall i, (i <= j <= i + 2 * H)%nat -> 0 < f i) -> 0 < over n H j f.
Proof.
  intros LH Lj P. set (i0 := Nat.min j (n - 2 * H - 1)).
  assert (I0 : (i0 <= j <= i0 + 2 * H /\ i0 < n - 2 * H)%nat) by (unfold i0; lia).
  apply Rlt_le_trans with (f i0); [apply P; lia|]. unfold over.
  eapply Rle_trans; [|apply (rsum_pos_term _ (fun i => if ((i <=? j) && (j <=? i + 2 * H))%nat then f i else 0) i0); [|lia]].
  - cbv beta. destruct (Nat.leb_spec i0 j), (Nat.leb_spec j (i0 + 2 * H)); cbn [andb]; try lia. lra.
  - intros i Li. cbv beta. destruct (Nat.leb_spec i j), (Nat.leb_spec j (i + 2 * H)); cbn [andb]; try lra. left. apply P. lia.
Qed.
(** weighted mean, over the windows containing epoch j, of f i *)
Definition wmean (W n H j : nat) (f : nat -> R) : R :=
  over n H j (fun i => weight_fn W H (j - i) * f i) / over n H j (fun i => weight_fn W H (j - i)).
Lemma over_plus n H j f g : over n H j (fun i => f i + g i) = over n H j f + over n H j g.
Proof. unfold over. rewrite <- rsum_plus. apply rsum_ext. intros i _. destruct (_ && _); ring. Qed.
Lemma wmean_plus W n H j f g : wmean W n H j (fun i => f i + g i) = wmean W n H j f + wmean W n H j g.
Proof.
  unfold wmean. rewrite (over_ext n H j _ (fun i => weight_fn W H (j - i) * f i + weight_fn W H (j - i) * g i)) by (intros; ring).
  rewrite over_plus. unfold Rdiv. ring.
Qed.
Lemma wmean_const W n H j f c : (2 * H < n)%nat -> (j < n)%nat -> (forall i, (i <= j <= i + 2 * H)%nat -> (i < n - 2 * H)%nat -> f i = c) -> wmean W n H j f = c.
Proof.
  intros LH Lj E. unfold wmean. rewrite (over_ext n H j _ (fun i => weight_fn W H (j - i) * c)) by (intros; rewrite E by auto; ring).
  rewrite over_scal. field. apply Rgt_not_eq. apply over_pos; auto. intros; apply weight_pos; lia.
Qed.
Lemma wmean_model W n H j v u : (2 * H < n)%nat -> (j < n)%nat -> (forall i, (i <= j <= i + 2 * H)%nat -> (i < n - 2 * H)%nat -> v i (j - i)%nat = u i) ->
  ratio (accum n H (fun i k => win_weight W H k * v i k) j) (accum n H (fun _ => win_weight W H) j) = Some (wmean W n H j u).
Proof.
  intros LH Lj E. rewrite !accum_over. unfold ratio, wmean.
  rewrite (over_ext n H j (fun i => win_weight W H (j - i) * v i (j - i)%nat) (fun i => weight_fn W H (j - i) * u i)).
  2:{ intros i Hi Li. rewrite win_weight_ok by lia. rewrite E by auto. reflexivity. }
  rewrite (over_ext n H j (fun i => win_weight W H (j - i)) (fun i => weight_fn W H (j - i))) by (intros; apply win_weight_ok; lia).
  destruct (Req_EM_T _ 0) as [Z|]; [|reflexivity]. exfalso. revert Z. apply Rgt_not_eq. apply over_pos; auto. intros; apply weight_pos; lia.
Qed.
(** every epoch of the series gets the weighted mean over the windows containing it of the values of their best fitting signals *)
Theorem C71_weighted_fit : forall t d H W gs, length t = length d -> (2 * H < length t)%nat ->
  (forall i, (i + 2 * H < length t)%nat -> separable t H i /\ best t d H i (gs i)) ->
  let r := smooth_weighted t d H W in forall j, (j < length t)%nat -> let x := val t j in let M := wmean W (length t) H j in
  w_weight r j = over (length t) H j (fun i => weight_fn W H (j - i)) /\ 0 < w_weight r j /\
  w_data r j = Some (M (fun i => line (gs i) x)) /\ w_season r j = Some (M (fun i => annual (gs i) x + semiannual (gs i) x)) /\
  w_annual r j = Some (M (fun i => annual (gs i) x)) /\ w_semiann r j = Some (M (fun i => semiannual (gs i) x)) /\
  w_annamp r j = Some (M (fun i => fst (amplitude (g_as (gs i)) (g_ac (gs i))))) /\
  w_annphase r j = Some (M (fun i => snd (amplitude (g_as (gs i)) (g_ac (gs i))))) /\
  w_semiamp r j = Some (M (fun i => fst (amplitude (g_ss (gs i)) (g_sc (gs i))))) /\
  w_semiphase r j = Some (M (fun i => snd (amplitude (g_ss (gs i)) (g_sc (gs i))))) /\
  w_noise r j = Some (val d j - M (fun i => line (gs i) x) - M (fun i => annual (gs i) x + semiannual (gs i) x)).
Proof.
  intros t d H W gs Ed LH HG r j Lj x M.
  assert (F : forall i, (i < length t - 2 * H)%nat -> gs i = fit t d H i). { intros i Li. destruct (HG i ltac:(lia)). apply best_fit; auto. }
  assert (SM : w_data r j = Some (M (fun i => line (gs i) x))).
  { apply wmean_model; auto. intros i Hi Li. rewrite F by auto. unfold line, fit, unvec. cbn [g_c g_trend seas_col]. replace (i + (j - i))%nat with j by lia. unfold x, val, at_. ring. }
  assert (SE : w_season r j = Some (M (fun i => annual (gs i) x + semiannual (gs i) x))).
  { apply wmean_model; auto. intros i Hi Li. rewrite F by auto. unfold annual, semiannual, fit, unvec. cbn [g_as g_ac g_ss g_sc seas_col]. replace (i + (j - i))%nat with j by lia. unfold x, val, at_. ring. }
  assert (WW : w_weight r j = over (length t) H j (fun i => weight_fn W H (j - i))).
  { unfold r, smooth_weighted. cbn [w_weight]. rewrite accum_over. apply over_ext. intros; apply win_weight_ok; lia. }
  split; [exact WW|]. split; [rewrite WW; apply over_pos; auto; intros; apply weight_pos; lia|].
  split; [exact SM|]. split; [exact SE|].
  split. { apply wmean_model; auto. intros i Hi Li. rewrite F by auto. unfold annual, fit, unvec. cbn [g_as g_ac seas_col]. replace (i + (j - i))%nat with j by lia. unfold x, val, at_. ring. }
  split. { apply wmean_model; auto. intros i Hi Li. rewrite F by auto. unfold semiannual, fit, unvec. cbn [g_ss g_sc seas_col]. replace (i + (j - i))%nat with j by lia. unfold x, val, at_. ring. }
  split. { apply wmean_model; auto. intros i Hi Li. rewrite F by auto. reflexivity. }
  split. { apply wmean_model; auto. intros i Hi Li. rewrite F by auto. unfold amplitude, fit, unvec, Rdiv. cbn [snd g_as g_ac]. ring. }
  split. { apply wmean_model; auto. intros i Hi Li. rewrite F by auto. reflexivity. }
  split. { apply wmean_model; auto. intros i Hi Li. rewrite F by auto. unfold amplitude, fit, unvec, Rdiv. cbn [snd g_ss g_sc]. ring. }
  change (w_noise r j) with (osub (at_ d j) (w_data r j) (w_season r j)). rewrite SM, SE. reflexivity.
Qed.
(** data that are one signal are separated exactly at every epoch; a series shorter than one window gives no numbers *)
Theorem C71_weighted_exact : forall t d H W g, length t = length d -> (2 * H < length t)%nat ->
  (forall i, (i + 2 * H < length t)%nat -> separable t H i) -> (forall i, (i < length t)%nat -> val d i = sig g (val t i)) ->
  let r := smooth_weighted t d H W in forall j, (j < length t)%nat -> let x := val t j in
  w_data r j = Some (line g x) /\ w_season r j = Some (annual g x + semiannual g x) /\ w_annual r j = Some (annual g x) /\ w_semiann r j = Some (semiannual g x) /\
  w_annamp r j = Some (fst (amplitude (g_as g) (g_ac g))) /\ w_annphase r j = Some (snd (amplitude (g_as g) (g_ac g))) /\
  w_semiamp r j = Some (fst (amplitude (g_ss g) (g_sc g))) /\ w_semiphase r j = Some (snd (amplitude (g_ss g) (g_sc g))) /\ w_noise r j = Some 0.
Proof.
  intros t d H W g Ed LH S Hd r j Lj x.
  pose proof (C71_weighted_fit t d H W (fun _ => g) Ed LH) as T. cbv zeta in T.
  specialize (T ltac:(intros i Li; split; [auto|apply exact_best; intros; apply Hd; lia]) j Lj).
  assert (WC : forall c, wmean W (length t) H j (fun _ => c) = c) by (intros c; apply wmean_const; auto).
  cbv beta in T. rewrite !WC in T.
  destruct T as (_ & _ & T1 & T2 & T3 & T4 & T5 & T6 & T7 & T8 & T9). fold r x in T1, T2, T3, T4, T5, T6, T7, T8, T9.
  repeat (split; [assumption|]). rewrite T9. f_equal. rewrite Hd by auto. fold x. unfold sig. ring.
Qed.
Theorem C71_weighted_short : forall t d H W j, (length t <= 2 * H)%nat -> w_data (smooth_weighted t d H W) j = None /\ w_noise (smooth_weighted t d H W) j = None.
Proof.
  intros t d H W j L. assert (A : forall v, accum (length t) H v j = 0). { intros v. unfold accum. replace (length t - 2 * H)%nat with 0%nat by lia. reflexivity. }
  unfold smooth_weighted. cbn [w_data w_noise]. rewrite !A. unfold ratio. destruct (Req_EM_T 0 0); [|lra]. split; reflexivity.
Qed.

(** seven epochs an eighth of a year apart can be told apart; quarterly epochs never can *)
Definition eighths : list R := [0; 1/8; 2/8; 3/8; 4/8; 5/8; 6/8].
Lemma separable_eighths : separable eighths 3 0.
Proof.
  intros g H. destruct g as [c b s1 c1 s2 c2].
  pose proof (H 0%nat ltac:(lia)) as E0. pose proof (H 1%nat ltac:(lia)) as E1. pose proof (H 2%nat ltac:(lia)) as E2. pose proof (H 3%nat ltac:(lia)) as E3.
  pose proof (H 4%nat ltac:(lia)) as E4. pose proof (H 5%nat ltac:(lia)) as E5. pose proof (H 6%nat ltac:(lia)) as E6. clear H.
  unfold sig, line, annual, semiannual, val, eighths in *. cbn [g_c g_trend g_as g_ac g_ss g_sc Nat.add nth] in *.
  replace (2 * PI * 0) with 0 in E0 by ring. replace (4 * PI * 0) with 0 in E0 by ring.
  replace (2 * PI * (1 / 8)) with (PI / 4) in E1 by field. replace (4 * PI * (1 / 8)) with (PI / 2) in E1 by field.
  replace (2 * PI * (2 / 8)) with (PI / 2) in E2 by field. replace (4 * PI * (2 / 8)) with PI in E2 by field.
  replace (2 * PI * (3 / 8)) with (PI / 4 + PI / 2) in E3 by field. replace (4 * PI * (3 / 8)) with (PI / 2 + PI) in E3 by field.
  replace (2 * PI * (4 / 8)) with PI in E4 by field. replace (4 * PI * (4 / 8)) with (PI + PI) in E4 by field.
  replace (2 * PI * (5 / 8)) with (PI / 4 + PI) in E5 by field. replace (4 * PI * (5 / 8)) with (PI / 2 + PI + PI) in E5 by field.
  replace (2 * PI * (6 / 8)) with (PI / 2 + PI) in E6 by field. replace (4 * PI * (6 / 8)) with (PI + PI + PI) in E6 by field.
  rewrite ?neg_sin, ?neg_cos, ?sin_plus, ?cos_plus, ?sin_PI4, ?cos_PI4, ?sin_PI2, ?cos_PI2, ?sin_0, ?cos_0, ?sin_PI, ?cos_PI in *.
  assert (SQ : 1 / sqrt 2 * (1 / sqrt 2) = 1 / 2).
  { assert (P : 0 < sqrt 2) by (apply sqrt_lt_R0; lra). replace (1 / sqrt 2 * (1 / sqrt 2)) with (1 / (sqrt 2 * sqrt 2)) by (field; lra). rewrite sqrt_sqrt by lra. reflexivity. }
  set (q := 1 / sqrt 2) in *. clearbody q.
  assert (A1 : c1 = b / 4) by lra. assert (A2 : s1 = b / 4) by lra. subst c1 s1.
  assert (Q : b * (q - 1 / 2) = 0) by lra.
  assert (B0 : b = 0). { apply Rmult_integral in Q. destruct Q as [|Q]; [auto|]. exfalso. assert (q = 1 / 2) by lra. subst q. lra. }
  subst b. f_equal; lra.
Qed.
Example C71_nonvacuous : forall erf tppf d, length d = 7%nat -> exists out time, smooth erf tppf eighths d 3 0 0 0 = Ok (out, time) /\ length out = 1%nat.
Proof.
  intros erf tppf d L. destruct (C71_returns erf tppf eighths d 3 0 0 0) as [A _]; [cbn; lia|cbn; lia|cbn; lia|].
  destruct A as (out & time & E). { intros k Lk. cbn in Lk. assert (k = 0%nat) by lia. subst. apply separable_eighths. }
  exists out, time. split; [exact E|]. destruct (C71_best_fit _ _ _ _ _ _ _ _ _ _ E ltac:(cbn; lia)) as [LO _]. exact LO.
Qed.
(** Refuted for quarterly (and coarser even) sampling: every call with a complete window raises *)
Theorem C71_quarterly_refuted : forall erf tppf d H n err stdev conf, (2 * H < n)%nat -> (2 <= n)%nat -> length d = n ->
  smooth erf tppf (map (fun i => INR i / 4) (seq 0 n)) d H err stdev conf = Err OtherExn.
Proof.
  intros erf tppf d H n err stdev conf LH L2 Ld. set (t := map _ _).
  assert (LT : length t = n) by (unfold t; rewrite map_length, seq_length; reflexivity).
  destruct (C71_returns erf tppf t d H err stdev conf) as (_ & F & _); try lia. apply F. exists 0%nat. split; [lia|].
  intros S. specialize (S (mksig 0 0 0 0 1 0)). assert (Z : mksig 0 0 0 0 1 0 = mksig 0 0 0 0 0 0); [|congruence || (assert (g_ss (mksig 0 0 0 0 1 0) = g_ss (mksig 0 0 0 0 0 0)) as Q by (rewrite Z; reflexivity); cbn in Q; lra)].
  apply S. intros i Li. unfold sig, line, annual, semiannual, val. cbn [g_c g_trend g_as g_ac g_ss g_sc Nat.add].
  assert (TI : nth i t 0 = INR i / 4). { unfold t. rewrite (nth_indep _ 0 (INR 0 / 4)) by (rewrite map_length, seq_length; lia). rewrite (map_nth (fun i => INR i / 4)), seq_nth by lia. reflexivity. }
  rewrite TI. replace (4 * PI * (INR i / 4)) with (INR i * PI) by field. rewrite (sin_eq_0_1 (INR i * PI)); [ring|exists (Z.of_nat i); rewrite INR_IZR_INZ; reflexivity].
Qed.
