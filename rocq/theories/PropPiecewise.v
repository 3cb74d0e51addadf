(** C57: time_series.piecewise. *)
From Coq Require Import Reals Lra.
From Verif Require Import Base DestripeModel DestripeProofs LinAlg RegressModel RegressProofs PropRegress PropRegress2.
Close Scope Z_scope.
Open Scope R_scope.

(** Specification.  Two line segments meeting at time tc, from epoch k on the second: level, slope before, slope after;
    then seasonal and extra terms with coefficients from b 3 on. *)
Definition segments (b0 before after tc : R) (late : bool) (x : R) : R :=
  if late then b0 + before * tc + after * (x - tc) else b0 + before * x.
Definition rest (cycles : list R) (terms : list (list R)) (t : list R) (b : nat -> R) (i : nat) : R :=
  cyc_part cycles b 3 (nth i t 0) + term_part terms b (3 + 2 * length cycles) i.
Definition broken (k : nat) (tc : R) (cycles : list R) (terms : list (list R)) (t : list R) (b : nat -> R) (i : nat) : R :=
  segments (b 0%nat) (b 1%nat) (b 2%nat) tc (k <=? i)%nat (nth i t 0) + rest cycles terms t b i.
Definition pterms (cycles : list R) (terms : list (list R)) : nat := (3 + 2 * length cycles + length terms)%nat.
Definition prun erf tppf t d bp bt cycles terms err weight stdev conf aicc : res pw_result :=
  piecewise erf tppf t d bp bt cycles terms err weight stdev conf aicc.

(** coefficients as the code solves for them: third = change of slope *)
Definition to_change (b : nat -> R) (j : nat) : R := if (j =? 2)%nat then b 2%nat - b 1%nat else b j.

Lemma pw_length t k tc cs Ts : length (pw_design t k tc cs Ts) = pterms cs Ts.
Proof. unfold pw_design, pterms. rewrite !app_length, cycle_cols_length. cbn [length]. lia. Qed.
Lemma pw_signal t k tc cs Ts b i : (i < length t)%nat ->
  comb (pterms cs Ts) (col (pw_design t k tc cs Ts)) (to_change b) i = broken k tc cs Ts t b i.
Proof.
  intros L. unfold pterms, comb. rewrite <- Nat.add_assoc, rsum_app. unfold broken. f_equal.
  - cbn [rsum]. unfold col, pw_design. cbn [app nth]. unfold to_change. cbn [Nat.eqb].
    rewrite at_map by auto. rewrite tab_at by auto. unfold segments. unfold at_. destruct (k <=? i)%nat; ring.
  - rewrite rsum_app. unfold rest. f_equal.
    + rewrite <- (comb_cycles t cs b 3 i L). apply rsum_ext. intros j Lj.
      unfold to_change. destruct (Nat.eqb_spec (3 + j) 2); [lia|]. f_equal.
      unfold pw_design. change (3 + j)%nat with (length [map (fun _ => 1%R) t; t; tab (length t) (fun i => if (k <=? i)%nat then (at_ t i - tc)%R else 0%R)] + j)%nat.
      rewrite col_app2, col_app1; auto. rewrite cycle_cols_length; auto.
    + rewrite <- comb_terms. apply rsum_ext. intros j Lj. unfold to_change.
      destruct (Nat.eqb_spec (3 + (2 * length cs + j)) 2); [lia|]. rewrite Nat.add_assoc. f_equal.
      unfold pw_design. rewrite <- Nat.add_assoc.
      change (3 + (2 * length cs + j))%nat with (length [map (fun _ => 1%R) t; t; tab (length t) (fun i => if (k <=? i)%nat then (at_ t i - tc)%R else 0%R)] + (2 * length cs + j))%nat.
      rewrite col_app2. rewrite <- (cycle_cols_length t cs), col_app2. reflexivity.
Qed.
Lemma upd_at l j v k : (j < length l)%nat -> at_ (upd l j v) k = if (k =? j)%nat then v else at_ l k.
Proof.
  intros L. unfold at_. rewrite upd_nth. rewrite (Nat.eqb_sym k j). destruct (Nat.eqb_spec j k); auto. subst.
  destruct (Nat.ltb_spec k (length l)); [reflexivity|lia].
Qed.

Lemma pw_core erf tppf t d bp bt cs Ts err weight stdev conf aicc q :
  prun erf tppf t d bp bt cs Ts err weight stdev conf aicc = Ok q ->
  exists k tc s, breakpoint t bp bt = Ok (k, tc) /\ (length t <> 1)%nat /\
   fit_core (pw_design t k tc cs Ts) (length t) d err weight aicc = Ok (p_fit q) /\
   core_facts (pw_design t k tc cs Ts) (length t) d err weight (p_fit q) s /\
   p_beta q = upd (f_beta (p_fit q)) 2 (at_ (f_beta (p_fit q)) 1 + at_ (f_beta (p_fit q)) 2).
Proof.
  unfold prun, piecewise. destruct (length t =? 1)%nat eqn:E1; [discriminate|]. apply Nat.eqb_neq in E1.
  destruct (breakpoint t bp bt) as [[k tc]|] eqn:ER; cbn [bind]; [|discriminate].
  destruct (fit_core (pw_design t k tc cs Ts) (length t) d err weight aicc) as [f|] eqn:EF; cbn [bind]; [|discriminate].
  destruct (core_ok _ _ _ _ _ _ _ EF) as [s [C _]].
  assert (X : forall a b : pw_result, Ok a = Ok b -> b = a) by congruence.
  intros Q. exists k, tc, s. destruct weight; [|destruct (Req_EM_T (is_scalar err) 0)]; apply X in Q; rewrite Q; cbn [p_fit p_beta]; auto 10.
Qed.

(** The returned coefficients are: level, slope before the break, slope after it, then seasonal and extra ones; the model
    is the corresponding broken line plus seasonal terms and is the unique best fit of that shape. *)
Theorem C57_least_squares : forall erf tppf t d bp bt cycles terms err weight stdev conf aicc q,
  prun erf tppf t d bp bt cycles terms err weight stdev conf aicc = Ok q -> no_zero_error weight err ->
  exists k tc, breakpoint t bp bt = Ok (k, tc) /\
  let n := length t in let b := val (p_beta q) in let w := weights weight err in let sig := broken k tc cycles terms t in
  length (p_beta q) = pterms cycles terms /\ length (f_model (p_fit q)) = n /\ length (f_residual (p_fit q)) = n /\
  (forall i, (i < n)%nat -> val (f_model (p_fit q)) i = sig b i /\ val d i = val (f_model (p_fit q)) i + val (f_residual (p_fit q)) i) /\
  (forall b', misfit n w (val d) (sig b) <= misfit n w (val d) (sig b')) /\
  (forall b', misfit n w (val d) (sig b') = misfit n w (val d) (sig b) -> forall j, (j < pterms cycles terms)%nat -> b' j = b j).
Proof.
  intros erf tppf t d bp bt cs Ts err weight stdev conf aicc q Q NZ.
  destruct (pw_core _ _ _ _ _ _ _ _ _ _ _ _ _ _ Q) as (k & tc & s & EB & _ & _ & C & EBt).
  exists k, tc. split; auto. cbv zeta.
  pose proof (core_weights _ _ _ _ _ _ _ C NZ) as W.
  pose proof (core_pythagoras _ _ _ _ _ _ _ C) as P.
  pose proof (core_independent _ _ _ _ _ _ _ C) as I.
  pose proof C as C'. destruct C' as (_ & LD & _ & _ & _ & LB & EM & ERs & _).
  set (D := pw_design t k tc cs Ts) in *. set (n := length t) in *. set (b := val (p_beta q)).
  assert (LDs : length D = pterms cs Ts) by apply pw_length.
  assert (CB : forall j, to_change b j = at_ (f_beta (p_fit q)) j).
  { intros j. unfold b, to_change, val. rewrite EBt. change (nth ?x ?l 0) with (at_ l x).
    assert (L2 : (2 < length (f_beta (p_fit q)))%nat) by (rewrite LB, LDs; unfold pterms; lia).
    rewrite !upd_at by auto. destruct (Nat.eqb_spec j 2); [subst; cbn [Nat.eqb]; ring|reflexivity]. }
  assert (SG : forall b' i, (i < n)%nat -> comb (length D) (col D) (to_change b') i = broken k tc cs Ts t b' i).
  { intros b' i Li. rewrite LDs. apply (pw_signal t k tc cs Ts b' i Li). }
  assert (M : forall i, (i < n)%nat -> val (f_model (p_fit q)) i = broken k tc cs Ts t b i).
  { intros i Li. rewrite EM. unfold val at 1. change (nth i ?l 0) with (at_ l i). rewrite tab_at by auto. rewrite <- SG by auto.
    apply comb_ext; auto. }
  assert (MF : forall b', misfit n (weights weight err) (val d) (broken k tc cs Ts t b') =
     misfit n (weights weight err) (val d) (broken k tc cs Ts t b) +
     misfit n (weights weight err) (broken k tc cs Ts t b) (broken k tc cs Ts t b')).
  { intros b'. unfold misfit. specialize (P (to_change b')).
    rewrite (rsum_ext n (fun i => weights weight err i * (val d i - broken k tc cs Ts t b' i) ^ 2)
      (fun i => f_w (p_fit q) i * (at_ d i - comb (length D) (col D) (to_change b') i) ^ 2)).
    2:{ intros i Li. destruct (W i Li) as [-> _]. rewrite SG by auto. reflexivity. }
    rewrite P. f_equal; apply rsum_ext; intros i Li; destruct (W i Li) as [-> _];
     change (at_ (f_model (p_fit q)) i) with (val (f_model (p_fit q)) i); rewrite M by auto; auto.
    rewrite SG by auto. reflexivity. }
  assert (NN : forall b' i, (i < n)%nat -> 0 <= weights weight err i * (broken k tc cs Ts t b i - broken k tc cs Ts t b' i) ^ 2).
  { intros b' i Li. destruct (W i Li). apply Rmult_le_pos; [lra|apply pow2_ge_0]. }
  repeat split.
  - rewrite EBt, upd_length, LB. exact LDs.
  - rewrite EM; apply tab_len.
  - rewrite ERs; apply tab_len.
  - apply M; auto.
  - rewrite ERs. unfold val at 3. change (nth i ?l 0) with (at_ l i). rewrite tab_at by auto. unfold val, at_. ring.
  - intros b'. rewrite (MF b'). pose proof (rsum_nonneg n _ (NN b')) as X. unfold misfit at 3. lra.
  - intros b' E j Lj. rewrite (MF b') in E.
    assert (Z : forall i, (i < n)%nat -> broken k tc cs Ts t b i - broken k tc cs Ts t b' i = 0).
    { intros i Li. pose proof (rsum_pos_term n _ i (NN b') Li) as X. cbv beta in X. unfold misfit at 2 in E.
      destruct (W i Li) as [_ Wp]. pose proof (pow2_ge_0 (broken k tc cs Ts t b i - broken k tc cs Ts t b' i)) as Y.
      assert (V : (broken k tc cs Ts t b i - broken k tc cs Ts t b' i) ^ 2 = 0) by nra.
      apply Rsqr_0_uniq. rewrite Rsqr_pow2. exact V. }
    assert (E2 : forall j, (j < length D)%nat -> to_change b' j - to_change b j = 0).
    { apply (I (fun j => to_change b' j - to_change b j)).
      intros i Li. rewrite comb_sub, !SG by auto. specialize (Z i Li). lra. }
    unfold to_change in E2. pose proof (E2 1%nat ltac:(rewrite LDs; unfold pterms; lia)) as H1. pose proof (E2 j ltac:(rewrite LDs; auto)) as Hj.
    cbn [Nat.eqb] in H1. destruct (Nat.eqb_spec j 2); [subst; lra|lra].
Qed.

(** Errors.  With WEIGHT each coefficient except the third has error sqrt(cov_jj).  With a constant DATA_ERR e the code
    leaves out the square root: the reported error is e^2 cov_jj instead of |e| sqrt(cov_jj), so it
    has the wrong unit and doubling e makes it four times as large. *)
Theorem C57_errors : forall erf tppf t d bp bt cycles terms err weight stdev conf aicc q,
  prun erf tppf t d bp bt cycles terms err weight stdev conf aicc = Ok q -> no_zero_error weight err ->
  forall j, (j < pterms cycles terms)%nat -> j <> 2%nat -> let c := f_cov (p_fit q) j j in 0 < c /\
  (weight = true -> val (p_error q) j = sqrt c) /\
  (forall e, weight = false -> err = Scalar e -> e <> 0 -> val (p_error q) j = e ^ 2 * c /\
     (val (p_error q) j = Rabs e * sqrt c <-> Rabs e * sqrt c = 1)) /\
  (weight = false -> err = Scalar 0 -> val (p_error q) j = t_star erf tppf stdev conf (f_dof (p_fit q)) * sqrt (p_mse q * c)).
Proof.
  intros erf tppf t d bp bt cs Ts err weight stdev conf aicc q Q NZ j Lj N2 c.
  destruct (pw_core _ _ _ _ _ _ _ _ _ _ _ _ _ _ Q) as (k & tc & s & EB & N1 & EF & C & EBt).
  pose proof (core_weights _ _ _ _ _ _ _ C NZ) as W.
  pose proof (fun j => cov_diag_pos _ _ _ _ _ _ _ j C) as CP. pose proof (fun j => core_normeq _ _ _ _ _ _ _ j C) as NE.
  rewrite pw_length in CP, NE. specialize (CP j Lj). specialize (NE j Lj). fold c in CP, NE.
  destruct C as (_ & LD & _ & EN & _ & LB & _ & ERs & SW & W0 & W1 & _ & G).
  set (D := pw_design t k tc cs Ts) in *. assert (LDs : length D = pterms cs Ts) by apply pw_length.
  unfold prun, piecewise in Q. destruct (Nat.eqb_spec (length t) 1); [congruence|]. rewrite EB in Q. cbn [bind] in Q. fold D in Q. rewrite EF in Q. cbn [bind] in Q.
  assert (X : forall a b : pw_result, Ok a = Ok b -> b = a) by congruence.
  assert (C2 : forall l, length l = length D -> val (comb2 l) j = val l j).
  { intros l Ll. unfold comb2, val. change (nth j ?l 0) with (at_ l j). rewrite upd_at by (rewrite Ll, LDs; unfold pterms; lia). destruct (Nat.eqb_spec j 2); congruence. }
  split; [exact CP|]. split; [|split].
  - intros ->. apply X in Q. rewrite Q. cbn [p_error]. rewrite C2 by apply tab_len. unfold val. change (nth j ?l 0) with (at_ l j). rewrite tab_at by (rewrite LDs; auto).
    f_equal. rewrite <- NE. destruct (W1 eq_refl) as [es [E1 [E2 [_ E3]]]]. rewrite E2. apply rsum_ext. intros i Li. rewrite E3, Rinv_inv. reflexivity.
  - intros e -> -> He. cbn [is_scalar] in Q. destruct (Req_EM_T e 0); [contradiction|]. apply X in Q.
    assert (V : val (p_error q) j = e ^ 2 * c).
    { rewrite Q. cbn [p_error]. rewrite C2 by apply tab_len.
      unfold val. change (nth j ?l 0) with (at_ l j). rewrite tab_at by (rewrite LDs; auto).
      destruct (W0 eq_refl) as [E1 _].
      rewrite (rsum_ext _ _ (fun i => e ^ 2 * (normeq D (p_fit q) j i * / s i) ^ 2)).
      2:{ intros i Li. rewrite E1, Rinv_1. ring. }
      rewrite rsum_scal, NE. reflexivity. }
    split; [exact V|]. rewrite V.
    set (y := Rabs e * sqrt c).
    assert (Y : e ^ 2 * c = y * y). { unfold y. rewrite <- (sqrt_sqrt c) at 1 by lra. pose proof (Rsqr_abs e) as A. unfold Rsqr in A. replace (e ^ 2) with (e * e) by ring. rewrite A. ring. }
    assert (Yp : 0 < y). { unfold y. apply Rmult_lt_0_compat; [apply Rabs_pos_lt; auto|apply sqrt_lt_R0; auto]. }
    rewrite Y. split; intros H.
    + apply (Rmult_eq_reg_l y); lra.
    + rewrite H. ring.
  - intros -> ->. cbn [is_scalar] in Q. destruct (Req_EM_T 0 0); [|contradiction]. apply X in Q.
    assert (RM : p_mse q = mse (p_fit q)) by (rewrite Q; reflexivity).
    assert (RE : p_error q = comb2 (map (fun s0 => t_star erf tppf stdev conf (f_dof (p_fit q)) * s0) (tab (length D) (fun j => sqrt (mse (p_fit q) * f_cov (p_fit q) j j))))) by (rewrite Q; reflexivity).
    rewrite RE, C2 by (rewrite map_length; apply tab_len). rewrite RM. unfold val. change (nth j ?l 0) with (at_ l j). rewrite at_map by (rewrite tab_len, LDs; auto).
    rewrite tab_at by (rewrite LDs; auto). reflexivity.
Qed.

(** doubling DATA_ERR makes every reported error four times as large (it should only double) *)
Theorem C57_error_scaling_refuted : forall erf tppf t d bp bt cycles terms e stdev conf aicc q q', e <> 0 ->
  prun erf tppf t d bp bt cycles terms (Scalar e) false stdev conf aicc = Ok q ->
  prun erf tppf t d bp bt cycles terms (Scalar (2 * e)) false stdev conf aicc = Ok q' ->
  forall j, (j < pterms cycles terms)%nat -> val (p_error q') j = 4 * val (p_error q) j /\ 0 < val (p_error q) j.
Proof.
  intros erf tppf t d bp bt cs Ts e stdev conf aicc q q' He Q Q' j Lj.
  destruct (pw_core _ _ _ _ _ _ _ _ _ _ _ _ _ _ Q) as (k & tc & s & EB & N1 & EF & C & EBt).
  destruct (pw_core _ _ _ _ _ _ _ _ _ _ _ _ _ _ Q') as (k' & tc' & s' & EB' & _ & EF' & C' & EBt').
  assert (k' = k) by congruence. assert (tc' = tc) by congruence. subst k' tc'.
  assert (EC : f_cov (p_fit q') = f_cov (p_fit q)).
  { revert EF EF'. unfold fit_core. destruct (negb _); [discriminate|]. destruct (unweighted _ _ _) as [b|]; cbn [bind]; [|discriminate].
    destruct (_ =? 0)%Z; [discriminate|]. destruct (inv _ _) as [H|]; cbn [bind]; [|discriminate].
    intros A B. assert (X : forall a b : lsfit, Ok a = Ok b -> b = a) by congruence. apply X in A, B. rewrite A, B. reflexivity. }
  pose proof (fun l H H2 => C57_errors _ _ _ _ _ _ _ _ _ _ _ _ _ _ Q I l H H2) as E. pose proof (fun l H H2 => C57_errors _ _ _ _ _ _ _ _ _ _ _ _ _ _ Q' I l H H2) as E'.
  assert (G : forall l, (l < pterms cs Ts)%nat -> l <> 2%nat -> val (p_error q) l = e ^ 2 * f_cov (p_fit q) l l /\ val (p_error q') l = 4 * e ^ 2 * f_cov (p_fit q) l l /\ 0 < f_cov (p_fit q) l l).
  { intros l Ll Nl. destruct (E l Ll Nl) as (P & _ & H & _). destruct (H e eq_refl eq_refl He) as [H1 _].
    destruct (E' l Ll Nl) as (_ & _ & H' & _). destruct (H' (2 * e) eq_refl eq_refl ltac:(lra)) as [H1' _].
    rewrite H1, H1', EC. repeat split; auto. ring. }
  assert (E2 : 0 < e ^ 2) by (rewrite <- Rsqr_pow2; apply Rsqr_pos_lt; auto).
  destruct (Nat.eq_dec j 2) as [->|N]; [|destruct (G j Lj N) as (-> & -> & P); split; [ring|apply Rmult_lt_0_compat; auto]].
  (* third coefficient: root sum of squares of the entries 1 and 2 of temp_err *)
  assert (T : exists T1 T2, 0 < T1 /\ 0 <= T2 /\ val (p_error q) 2 = sqrt (T1 ^ 2 + T2 ^ 2) /\ val (p_error q') 2 = sqrt ((4 * T1) ^ 2 + (4 * T2) ^ 2)).
  { set (D := pw_design t k tc cs Ts) in *. assert (LDs : length D = pterms cs Ts) by apply pw_length.
    pose proof (fun j => core_normeq _ _ _ _ _ _ _ j C) as NE. pose proof (fun j => core_normeq _ _ _ _ _ _ _ j C') as NE'.
    pose proof (cov_diag_pos _ _ _ _ _ _ _ 1%nat C ltac:(rewrite LDs; unfold pterms; lia)) as P1.
    pose proof (cov_diag_nonneg _ _ _ _ _ _ _ 2%nat C ltac:(rewrite LDs; auto)) as P2.
    exists (e ^ 2 * f_cov (p_fit q) 1%nat 1%nat), (e ^ 2 * f_cov (p_fit q) 2%nat 2%nat).
    assert (X : forall a b : pw_result, Ok a = Ok b -> b = a) by congruence.
    destruct C as (_ & _ & _ & _ & _ & _ & _ & _ & _ & W0 & _). destruct C' as (_ & _ & _ & _ & _ & _ & _ & _ & _ & W0' & _).
    destruct (W0 eq_refl) as [S1 _]. destruct (W0' eq_refl) as [S1' _].
    assert (TV : forall z f s0 l, (forall i, s0 i = 1) -> (forall j, (j < length D)%nat -> rsum (length t) (fun i => (normeq D f j i * / s0 i) ^ 2) = f_cov f j j) -> (l < length D)%nat ->
       rsum (length t) (fun i => (normeq D f l i * z) ^ 2) = z ^ 2 * f_cov f l l).
    { intros z f s0 l SS NN Ll. rewrite <- (NN l Ll), <- rsum_scal. apply rsum_ext. intros i _. rewrite SS, Rinv_1. ring. }
    assert (R : forall z q0, prun erf tppf t d bp bt cs Ts (Scalar z) false stdev conf aicc = Ok q0 -> z <> 0 ->
       fit_core D (length t) d (Scalar z) false aicc = Ok (p_fit q0) ->
       p_error q0 = comb2 (tab (length D) (fun j => rsum (length t) (fun i => (normeq D (p_fit q0) j i * z) ^ 2)))).
    { clear - EB N1 X. intros z q0 Q0 Hz EF0. unfold prun, piecewise in Q0. destruct (Nat.eqb_spec (length t) 1); [congruence|].
      rewrite EB in Q0. cbn [bind] in Q0. fold D in Q0. rewrite EF0 in Q0. cbn [bind is_scalar] in Q0. destruct (Req_EM_T z 0); [contradiction|].
      apply X in Q0. rewrite Q0. reflexivity. }
    assert (L1 : (1 < length D)%nat) by (rewrite LDs; unfold pterms; lia). assert (L2 : (2 < length D)%nat) by (rewrite LDs; auto).
    assert (G2 : forall l, length l = length D -> val (comb2 l) 2 = sqrt (at_ l 1 ^ 2 + at_ l 2 ^ 2)).
    { intros l Ll. unfold comb2, val. change (nth 2 ?l 0) with (at_ l 2). rewrite upd_at by lia. reflexivity. }
    repeat split.
    - apply Rmult_lt_0_compat; auto.
    - apply Rmult_le_pos; [lra|auto].
    - rewrite (R e q Q He EF), G2 by apply tab_len. rewrite !tab_at by auto. rewrite !(TV e (p_fit q) s) by auto. reflexivity.
    - rewrite (R (2 * e) q' Q' ltac:(lra) EF'), G2 by apply tab_len. rewrite !tab_at by auto. rewrite !(TV (2 * e) (p_fit q') s') by auto. rewrite EC. f_equal. ring. }
  destruct T as (T1 & T2 & P1 & P2 & -> & ->).
  replace ((4 * T1) ^ 2 + (4 * T2) ^ 2) with (4 ^ 2 * (T1 ^ 2 + T2 ^ 2)) by ring.
  rewrite sqrt_mult_alt by lra. rewrite sqrt_pow2 by lra. split; [reflexivity|].
  apply sqrt_lt_R0. assert (0 < T1 ^ 2) by (apply pow_lt; auto). pose proof (pow2_ge_0 T2). lra.
Qed.

(** The error of the slope after the break: the code combines the errors of the two solved coefficients as if they were
    independent; the variance of their sum has the extra term 2 cov_12. *)
Theorem C57_break_slope_error_refuted : forall erf tppf t d bp bt cycles terms err stdev conf aicc q,
  prun erf tppf t d bp bt cycles terms err true stdev conf aicc = Ok q -> no_zero_error true err ->
  let cov := f_cov (p_fit q) in
  val (p_error q) 2 = sqrt (cov 1%nat 1%nat + cov 2%nat 2%nat) /\
  (val (p_error q) 2 = sqrt (cov 1%nat 1%nat + cov 2%nat 2%nat + 2 * cov 1%nat 2%nat) <-> cov 1%nat 2%nat = 0).
Proof.
  intros erf tppf t d bp bt cs Ts err stdev conf aicc q Q NZ cov.
  destruct (pw_core _ _ _ _ _ _ _ _ _ _ _ _ _ _ Q) as (k & tc & s & EB & N1 & EF & C & EBt).
  set (D := pw_design t k tc cs Ts) in *. assert (LDs : length D = pterms cs Ts) by apply pw_length.
  assert (L1 : (1 < length D)%nat) by (rewrite LDs; unfold pterms; lia). assert (L2 : (2 < length D)%nat) by (rewrite LDs; unfold pterms; lia).
  pose proof (cov_diag_pos _ _ _ _ _ _ _ 1%nat C L1) as P1. pose proof (cov_diag_pos _ _ _ _ _ _ _ 2%nat C L2) as P2. fold cov in P1, P2.
  pose proof (fun j => core_normeq _ _ _ _ _ _ _ j C) as NE. fold cov in NE.
  destruct C as (_ & LD & _ & EN & _ & LB & _ & ERs & SW & W0 & W1 & _ & G). fold cov in G.
  assert (VAR : 0 <= cov 1%nat 1%nat + cov 2%nat 2%nat + 2 * cov 1%nat 2%nat).
  { set (A := fun j i => s i * col D j i) in *.
    pose proof (normeq_dot _ _ _ _ 1%nat 1%nat G L1 L1) as E11. pose proof (normeq_dot _ _ _ _ 2%nat 2%nat G L2 L2) as E22. pose proof (normeq_dot _ _ _ _ 1%nat 2%nat G L1 L2) as E12.
    fold A in E11, E22, E12. rewrite <- E11, <- E22, <- E12.
    set (u := comb (length D) A (cov 1%nat)). set (v := comb (length D) A (cov 2%nat)).
    pose proof (dot_self_nonneg (length t) (fun i => u i + v i)) as NN. rewrite dot_plus, (dot_sym _ _ u), (dot_sym _ _ v), !dot_plus, (dot_sym _ v u) in NN. lra. }
  unfold prun, piecewise in Q. destruct (Nat.eqb_spec (length t) 1); [congruence|]. rewrite EB in Q. cbn [bind] in Q. fold D in Q. rewrite EF in Q. cbn [bind] in Q.
  assert (X : forall a b : pw_result, Ok a = Ok b -> b = a) by congruence. apply X in Q.
  assert (V : val (p_error q) 2 = sqrt (cov 1%nat 1%nat + cov 2%nat 2%nat)).
  { rewrite Q. cbn [p_error]. unfold comb2, val. change (nth 2 ?l 0) with (at_ l 2). rewrite upd_at by (rewrite tab_len; auto). cbn [Nat.eqb].
    rewrite !tab_at by auto. destruct (W1 eq_refl) as [es [E1 [E2 [_ E3]]]]. rewrite E2.
    assert (Y : forall j, (j < length D)%nat -> rsum (length t) (fun i => (normeq D (p_fit q) j i * at_ (map fixed es) i) ^ 2) = cov j j).
    { intros j Lj. rewrite <- (NE j Lj). apply rsum_ext. intros i Li. rewrite E3, Rinv_inv. reflexivity. }
    rewrite !Y by auto. rewrite !pow2_sqrt by lra. reflexivity. }
  split; [exact V|]. rewrite V. split.
  - intros H. apply sqrt_inj in H; lra.
  - intros ->. f_equal. ring.
Qed.
(** and it is not zero in general: epochs 0..3, break at epoch 2, unit errors (true standard error sqrt(11/6), reported sqrt(23/6)) *)
Lemma pw_example_ind : independent 3 4 (col (pw_design [0; 1; 2; 3] 2 2 [] [])).
Proof.
  intros x H. pose proof (H 0%nat ltac:(lia)) as H0. pose proof (H 1%nat ltac:(lia)) as H1. pose proof (H 2%nat ltac:(lia)) as H2. pose proof (H 3%nat ltac:(lia)) as H3.
  unfold comb, col, pw_design, tab in H0, H1, H2, H3. cbn in H0, H1, H2, H3.
  intros j Lj. destruct j as [|[|[|]]]; [lra|lra|lra|lia].
Qed.
Theorem C57_break_slope_error_witness : exists q, prun (fun x => x) (fun _ _ => 2) [0; 1; 2; 3] [1; 3; 2; 7] (Some 2%Z) None [] [] (Array [1; 1; 1; 1]) true 0 0 true = Ok q /\
  f_cov (p_fit q) 1%nat 2%nat = -1 /\ val (p_error q) 2 = sqrt (23 / 6).
Proof.
  assert (B : breakpoint [0; 1; 2; 3] (Some 2%Z) None = Ok (2%nat, 2)) by reflexivity.
  assert (R : exists f, fit_core (pw_design [0; 1; 2; 3] 2 2 [] []) 4 [1; 3; 2; 7] (Array [1; 1; 1; 1]) true true = Ok f).
  { apply (core_returns_weighted (pw_design [0; 1; 2; 3] 2 2 [] []) 4 [1; 3; 2; 7] [1; 1; 1; 1] true).
    - intros c Hc. cbn in Hc. destruct Hc as [<-|[<-|[<-|[]]]]; reflexivity.
    - reflexivity.
    - reflexivity.
    - split; [apply pw_example_ind|cbn; lia]. }
  assert (Q : exists q, prun (fun x => x) (fun _ _ => 2) [0; 1; 2; 3] [1; 3; 2; 7] (Some 2%Z) None [] [] (Array [1; 1; 1; 1]) true 0 0 true = Ok q).
  { destruct R as [f Hf]. unfold prun, piecewise. change (length [0; 1; 2; 3]) with 4%nat. cbn [Nat.eqb]. rewrite B. cbn [bind]. rewrite Hf. cbn [bind]. eauto. }
  destruct Q as [q Q]. exists q. split; auto.
  destruct (pw_core _ _ _ _ _ _ _ _ _ _ _ _ _ _ Q) as (k & tc & s & EB & _ & EF & C & _).
  rewrite B in EB. assert (k = 2%nat /\ tc = 2) as [-> ->] by (split; congruence).
  destruct C as (_ & _ & _ & _ & _ & _ & _ & _ & _ & _ & W1 & _ & G).
  destruct (W1 eq_refl) as [es [E1 [_ [_ E3]]]]. assert (es = [1; 1; 1; 1]) by congruence. subst es.
  assert (S : forall i, (i < 4)%nat -> s i = 1).
  { intros i Li. rewrite E3. rewrite fixed_id by (intros e He; cbn in He; intuition lra). destruct i as [|[|[|[|]]]]; cbn; try lra; lia. }
  change (length (pw_design [0; 1; 2; 3] 2 2 [] [])) with 3%nat in G. change (length [0; 1; 2; 3]) with 4%nat in G.
  set (cov := f_cov (p_fit q)) in *.
  assert (GG : forall i j, (i < 3)%nat -> (j < 3)%nat -> mmul 3 (gram 4 (col (pw_design [0; 1; 2; 3] 2 2 [] []))) cov i j = delta i j).
  { intros i j Li Lj. rewrite <- (G i j Li Lj). unfold mmul. apply rsum_ext. intros l Ll. f_equal. unfold gram. apply dot_ext; intros m Lm; rewrite S by auto; ring. }
  pose proof (GG 0%nat 1%nat ltac:(lia) ltac:(lia)) as A0. pose proof (GG 1%nat 1%nat ltac:(lia) ltac:(lia)) as A1. pose proof (GG 2%nat 1%nat ltac:(lia) ltac:(lia)) as A2.
  pose proof (GG 0%nat 2%nat ltac:(lia) ltac:(lia)) as B0. pose proof (GG 1%nat 2%nat ltac:(lia) ltac:(lia)) as B1. pose proof (GG 2%nat 2%nat ltac:(lia) ltac:(lia)) as B2.
  unfold mmul, gram, dot, col, pw_design, tab, delta in A0, A1, A2, B0, B1, B2. cbn in A0, A1, A2, B0, B1, B2.
  assert (cov 1%nat 2%nat = -1) by lra. assert (cov 1%nat 1%nat = 1 / 2) by lra. assert (cov 2%nat 2%nat = 10 / 3) by lra.
  split; auto.
  destruct (C57_break_slope_error_refuted _ _ _ _ _ _ _ _ _ _ _ _ _ Q ltac:(intros e He; cbn in He; intuition lra)) as [V _].
  rewrite V. fold cov. f_equal. lra.
Qed.

(** BREAK_TIME selects the epoch nearest to it (the first one in case of a tie) *)
Lemma argmin_fold t b : forall l best, let r := fold_left (fun best i => if dist_le t b best i then best else i) l best in
  (r = best \/ In r l) /\ Rabs (at_ t r - b) <= Rabs (at_ t best - b) /\ (forall i, In i l -> Rabs (at_ t r - b) <= Rabs (at_ t i - b)).
Proof.
  induction l as [|x l IH]; intros best; cbn [fold_left].
  - cbv zeta. split; [auto|split; [lra|intros i []]].
  - cbv zeta. specialize (IH (if dist_le t b best x then best else x)). cbv zeta in IH.
    set (r := fold_left _ l _) in *. destruct IH as (M & A & B).
    unfold dist_le in *. destruct (Rle_dec (Rabs (at_ t best - b)) (Rabs (at_ t x - b))) as [H|H].
    + split; [destruct M; [auto|right; right; auto]|]. split; [lra|]. intros i [<-|Hi]; [lra|auto].
    + split; [destruct M; [right; left; auto|right; right; auto]|]. split; [lra|]. intros i [<-|Hi]; [lra|auto].
Qed.
Theorem C57_break_time : forall t b, t <> [] -> exists k, breakpoint t None (Some b) = Ok (k, b) /\ (k < length t)%nat /\
  forall i, (i < length t)%nat -> Rabs (val t k - b) <= Rabs (val t i - b).
Proof.
  intros t b H. exists (argmin_dist t b). assert (L : (0 < length t)%nat) by (destruct t; [congruence|cbn; lia]).
  unfold breakpoint. destruct (Nat.eqb_spec (length t) 0); [lia|]. split; [reflexivity|].
  destruct (argmin_fold t b (seq 0 (length t)) 0%nat) as (M & _ & B). fold (argmin_dist t b) in M, B. split.
  - destruct M as [->|M]; [auto|]. apply in_seq in M. lia.
  - intros i Li. apply (B i). apply in_seq. lia.
Qed.
(** Refuted: with BREAK_TIME between two epochs the fitted shape is two segments meeting at BREAK_TIME only if the nearest
    epoch does not precede it; otherwise the epoch just before the break is put on the later segment. *)
Theorem C57_break_time_refuted : forall t b k cycles terms c, breakpoint t None (Some b) = Ok (k, b) ->
  (forall i j, (i < j < length t)%nat -> val t i < val t j) -> (k < length t)%nat -> (c 1%nat <> c 2%nat) ->
  ((forall i, (i < length t)%nat -> broken k b cycles terms t c i =
      segments (c 0%nat) (c 1%nat) (c 2%nat) b (if Rle_dec b (val t i) then true else false) (val t i) + rest cycles terms t c i)
   <-> b <= val t k).
Proof.
  intros t b k cs Ts c EB INC Lk Nc. split.
  - intros H. specialize (H k Lk). unfold broken in H. rewrite Nat.leb_refl in H. unfold val in H.
    destruct (Rle_dec b (nth k t 0)) as [|N]; [auto|]. exfalso. unfold segments in H.
    assert (E : (c 1%nat - c 2%nat) * (nth k t 0 - b) = 0) by lra. apply Rmult_integral in E. destruct E; lra.
  - intros Hb i Li. unfold broken. fold (val t i). f_equal. destruct (Nat.leb_spec k i) as [G|G].
    + destruct (Rle_dec b (val t i)) as [|N]; [reflexivity|]. exfalso. destruct (Nat.eq_dec i k); [subst; lra|]. pose proof (INC k i ltac:(lia)). lra.
    + destruct (Rle_dec b (val t i)) as [Hle|]; [|reflexivity]. exfalso.
      (* epoch i < k is at least as near *)
      destruct (C57_break_time t b ltac:(destruct t; [cbn in Lk; lia|discriminate])) as [k' [E' [_ M]]].
      assert (k' = k) by congruence. subst k'. specialize (M i Li). pose proof (INC i k ltac:(lia)).
      rewrite !Rabs_right in M by lra. lra.
Qed.
Theorem C57_no_break : forall erf tppf t d cycles terms err weight stdev conf aicc, length t <> 1%nat ->
  prun erf tppf t d None None cycles terms err weight stdev conf aicc = Err UnboundLocalError.
Proof.
  intros. unfold prun, piecewise. destruct (Nat.eqb_spec (length t) 1); [contradiction|]. reflexivity.
Qed.
