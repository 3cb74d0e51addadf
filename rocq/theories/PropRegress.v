(** C53: time_series.regress; C57: time_series.piecewise.
    Specification first: the fitted signal written out, and squared misfits. *)
From Coq Require Import Reals Lra.
From Verif Require Import Base DestripeModel DestripeProofs LinAlg RegressModel RegressProofs.
Close Scope Z_scope.
Open Scope R_scope.

(** polynomial of degree [order] in time relative to r, coefficients b 0 .. b order *)
Definition poly_part (order : nat) (r : R) (b : nat -> R) (x : R) : R := rsum (order + 1) (fun o => b o * (x - r) ^ o).
(** one sine and one cosine per period, coefficients from b k on *)
Fixpoint cyc_part (cycles : list R) (b : nat -> R) (k : nat) (x : R) : R :=
  match cycles with
  | [] => 0
  | c :: cs => b k * sin (2 * PI * x / c) + b (k + 1)%nat * cos (2 * PI * x / c) + cyc_part cs b (k + 2) x
  end.
(** extra terms, epoch i *)
Fixpoint term_part (terms : list (list R)) (b : nat -> R) (k i : nat) : R :=
  match terms with [] => 0 | T :: Ts => b k * nth i T 0 + term_part Ts b (k + 1) i end.
(** value at epoch i of the signal with coefficients b *)
Definition other_part (order : nat) (cycles : list R) (terms : list (list R)) (t : list R) (b : nat -> R) (i : nat) : R :=
  cyc_part cycles b (order + 1) (nth i t 0) + term_part terms b (order + 1 + 2 * length cycles) i.
Definition signal (order : nat) (r : R) (cycles : list R) (terms : list (list R)) (t : list R) (b : nat -> R) (i : nat) : R :=
  poly_part order r b (nth i t 0) + other_part order cycles terms t b i.
Definition nterms (order : nat) (cycles : list R) (terms : list (list R)) : nat := (order + 1 + 2 * length cycles + length terms)%nat.
(** only the zero signal vanishes at every epoch *)
Definition identifiable (order : nat) (r : R) (cycles : list R) (terms : list (list R)) (t : list R) : Prop :=
  forall b, (forall i, (i < length t)%nat -> signal order r cycles terms t b i = 0) ->
  forall j, (j < nterms order cycles terms)%nat -> b j = 0.
(** reference epoch selected by RELATIVE *)
Definition mean_of (v : list R) : R := fold_right Rplus 0 v / INR (length v).
(** the element x at index k, negative indices counting from the end *)
Definition item (t : list R) (k : Z) (x : R) : Prop := exists i : nat, nth_error t i = Some x /\ (k = Z.of_nat i \/ k = Z.of_nat i - Z.of_nat (length t))%Z.
Definition epoch (rel : relative) (t : list R) (r : R) : Prop :=
  match rel with
  | RelVal v => r = v
  | RelAll => r = mean_of t
  | RelIdx ix => exists v, Forall2 (item t) ix v /\ r = mean_of v
  end.
Lemma item_ok t k x : item t k x <-> py_get t k = Ok x.
Proof.
  unfold py_get. split.
  - intros (i & E & H). assert (i < length t)%nat by (apply nth_error_Some; congruence).
    replace (if (k <? 0)%Z then (k + Z.of_nat (length t))%Z else k) with (Z.of_nat i) by (destruct (k <? 0)%Z eqn:K; lia).
    replace ((0 <=? Z.of_nat i) && (Z.of_nat i <? Z.of_nat (length t)))%Z%bool with true by lia. rewrite Nat2Z.id, E. reflexivity.
  - set (j := if (k <? 0)%Z then _ else k). destruct ((0 <=? j) && (j <? Z.of_nat (length t)))%Z%bool eqn:B; [|discriminate].
    destruct (nth_error t (Z.to_nat j)) eqn:E; [|discriminate]. intros [= <-]. exists (Z.to_nat j). split; [exact E|]. subst j. destruct (k <? 0)%Z; lia.
Qed.
Lemma epoch_iff rel t r : epoch rel t r <-> t_rel rel t = Ok r.
Proof.
  assert (X : forall a b : R, Ok a = Ok b <-> b = a) by (split; congruence).
  destruct rel as [ix|v|]; cbn [epoch t_rel]; [|rewrite X; tauto|rewrite X; tauto].
  assert (M : forall v, Forall2 (item t) ix v <-> mapM (py_get t) ix = Ok v).
  { induction ix as [|k ix IH]; intros v; cbn [mapM].
    - split; [intros H; inversion H; auto|intros [= <-]; constructor].
    - split.
      + intros H. inversion H; subst. apply item_ok in H2. rewrite H2. cbn [bind]. apply IH in H4. rewrite H4. reflexivity.
      + destruct (py_get t k) as [x|] eqn:E; cbn [bind]; [|discriminate]. destruct (mapM (py_get t) ix) as [w|] eqn:F; cbn [bind]; [|discriminate].
        intros [= <-]. constructor; [apply item_ok; auto|]. apply IH. auto. }
  split.
  - intros (v & H & ->). apply M in H. rewrite H. reflexivity.
  - destruct (mapM (py_get t) ix) as [v|] eqn:F; cbn [bind]; [|discriminate]. intros H. apply X in H. exists v. split; [apply M; auto|exact H].
Qed.
Definition misfit (n : nat) (w d m : nat -> R) : R := rsum n (fun i => w i * (d i - m i) ^ 2).
Definition val (l : list R) (i : nat) : R := nth i l 0.

Lemma col_app1 D E j i : (j < length D)%nat -> col (D ++ E) j i = col D j i.
Proof. intros L. unfold col. rewrite app_nth1 by auto. reflexivity. Qed.
Lemma col_app2 D E j i : col (D ++ E) (length D + j) i = col E j i.
Proof. unfold col. rewrite app_nth2 by lia. f_equal. f_equal. lia. Qed.
Lemma cycle_cols_length t cs : length (cycle_cols t cs) = (2 * length cs)%nat.
Proof. unfold cycle_cols. induction cs; cbn in *; lia. Qed.
Lemma comb_cycles t cs : forall b k i, (i < length t)%nat ->
  rsum (2 * length cs) (fun j => b (k + j)%nat * col (cycle_cols t cs) j i) = cyc_part cs b k (nth i t 0).
Proof.
  induction cs as [|c cs IH]; intros b k i L; [reflexivity|].
  replace (2 * length (c :: cs))%nat with (S (S (2 * length cs))) by (cbn; lia).
  rewrite !rsum_head. cbn [cyc_part]. rewrite <- (IH b (k + 2)%nat i L).
  change (cycle_cols t (c :: cs)) with (map (fun x => sin (2 * PI * x / c)) t :: map (fun x => cos (2 * PI * x / c)) t :: cycle_cols t cs).
  rewrite (rsum_ext _ (fun j => b (k + S (S j))%nat * _) (fun j => b (k + 2 + j)%nat * col (cycle_cols t cs) j i)).
  2:{ intros j _. replace (k + S (S j))%nat with (k + 2 + j)%nat by lia. reflexivity. }
  replace (k + 0)%nat with k by lia. unfold col at 1 2. cbn [nth]. rewrite !at_map by auto. unfold at_. ring.
Qed.
Lemma comb_terms Ts : forall b k i, rsum (length Ts) (fun j => b (k + j)%nat * col Ts j i) = term_part Ts b k i.
Proof.
  induction Ts as [|T Ts IH]; intros b k i; [reflexivity|].
  cbn [length]. rewrite rsum_head. cbn [term_part]. rewrite <- (IH b (k + 1)%nat i). replace (k + 0)%nat with k by lia.
  f_equal. apply rsum_ext. intros j _. replace (k + S j)%nat with (k + 1 + j)%nat by lia. reflexivity.
Qed.
Lemma design_length order r t cs Ts : length (design order r t cs Ts) = nterms order cs Ts.
Proof. unfold design, nterms. rewrite !app_length, map_length, seq_length, cycle_cols_length. lia. Qed.
Lemma design_poly_col order r t cs Ts o i : (o < order + 1)%nat -> (i < length t)%nat -> col (design order r t cs Ts) o i = (nth i t 0 - r) ^ o.
Proof.
  intros Lo Li. unfold design. rewrite col_app1 by (rewrite map_length, seq_length; auto).
  unfold col. rewrite (nth_indep _ [] ((fun o => map (fun x => (x - r) ^ o) t) 0%nat)) by (rewrite map_length, seq_length; auto).
  rewrite (map_nth (fun o => map (fun x => (x - r) ^ o) t)), seq_nth by auto. rewrite at_map by auto. reflexivity.
Qed.
Lemma design_simple order r t cs Ts b i : (i < length t)%nat ->
  comb (order + 1) (col (design order r t cs Ts)) b i = poly_part order r b (nth i t 0).
Proof. intros L. unfold comb, poly_part. apply rsum_ext. intros o Lo. rewrite design_poly_col by auto. reflexivity. Qed.
Lemma design_signal order r t cs Ts b i : (i < length t)%nat ->
  comb (nterms order cs Ts) (col (design order r t cs Ts)) b i = signal order r cs Ts t b i.
Proof.
  intros L. unfold signal, nterms, comb. rewrite <- Nat.add_assoc. rewrite rsum_app. f_equal.
  - apply (design_simple order r t cs Ts b i L).
  - unfold other_part. rewrite rsum_app. unfold design.
    assert (LP : length (map (fun o => map (fun x => (x - r) ^ o) t) (seq 0 (order + 1))) = (order + 1)%nat) by (rewrite map_length, seq_length; auto).
    f_equal.
    + rewrite <- (comb_cycles t cs b (order + 1) i L). apply rsum_ext. intros j Lj. f_equal.
      set (P := map (fun o => map (fun x => (x - r) ^ o) t) (seq 0 (order + 1))) in *.
      replace (order + 1 + j)%nat with (length P + j)%nat by lia. rewrite col_app2, col_app1; auto. rewrite cycle_cols_length; auto.
    + rewrite <- comb_terms. apply rsum_ext. intros j Lj. rewrite Nat.add_assoc. f_equal.
      set (P := map (fun o => map (fun x => (x - r) ^ o) t) (seq 0 (order + 1))) in *.
      replace (order + 1 + 2 * length cs + j)%nat with (length P + (2 * length cs + j))%nat by lia.
      rewrite col_app2. rewrite <- (cycle_cols_length t cs), col_app2. reflexivity.
Qed.
Lemma design_identifiable order r t cs Ts : independent (nterms order cs Ts) (length t) (col (design order r t cs Ts)) <-> identifiable order r cs Ts t.
Proof.
  unfold independent, identifiable. split; intros H x Hx; apply H; intros i Li; specialize (Hx i Li).
  - rewrite design_signal; auto.
  - rewrite design_signal in Hx; auto.
Qed.
Lemma design_columns order r t cs Ts : columns_ok (design order r t cs Ts) (length t) <-> (forall T, In T Ts -> length T = length t).
Proof.
  unfold columns_ok, design. split; intros H c Hc.
  - apply H. rewrite !in_app_iff. auto.
  - rewrite !in_app_iff in Hc. destruct Hc as [Hc|[Hc|Hc]]; auto.
    + apply in_map_iff in Hc. destruct Hc as [o [<- _]]. apply map_length.
    + unfold cycle_cols in Hc. apply in_flat_map in Hc. destruct Hc as [x [_ Hc]]. cbn in Hc. destruct Hc as [<-|[<-|[]]]; apply map_length.
Qed.

(** the weights the user means: 1 without WEIGHT, 1/error^2 with WEIGHT *)
Definition weights (weight : bool) (err : data_err) (i : nat) : R :=
  match weight, err with
  | true, Array es => / val es i ^ 2
  | _, _ => 1
  end.
Definition no_zero_error (weight : bool) (err : data_err) : Prop :=
  match weight, err with true, Array es => forall e, In e es -> e <> 0 | _, _ => True end.

Lemma fixed_id es : (forall e, In e es -> e <> 0) -> map fixed es = es.
Proof.
  intros H. rewrite <- (map_id es) at 2. apply map_ext_in. intros e He. unfold fixed. destruct (Req_EM_T e 0); auto. elim (H e He); auto.
Qed.
Lemma core_weights D n d err weight f s : core_facts D n d err weight f s -> no_zero_error weight err ->
  forall i, (i < n)%nat -> f_w f i = weights weight err i /\ 0 < weights weight err i.
Proof.
  intros C NZ i Li. destruct C as (_ & _ & _ & _ & _ & _ & _ & _ & W & W0 & W1 & _ & _).
  destruct (W i Li) as [S1 S2]. destruct weight.
  - destruct (W1 eq_refl) as [es [-> [_ [L E]]]]. cbn [weights no_zero_error] in *. rewrite E in *. rewrite fixed_id in * by auto.
    unfold at_ in *. fold (val es i) in *.
    assert (V : val es i <> 0). { apply NZ. apply nth_In. lia. }
    assert (P : 0 < val es i ^ 2) by (rewrite <- Rsqr_pow2; apply Rsqr_pos_lt; auto).
    split.
    + rewrite S2. field. exact V.
    + apply Rinv_0_lt_compat; auto.
  - destruct (W0 eq_refl) as [W2 _]. rewrite S2, W2. cbn [weights]. split; lra.
Qed.

Definition run erf tppf t d order cycles terms err weight rel stdev conf aicc : res regression :=
  regress erf tppf t d order cycles terms err weight rel stdev conf aicc.

Lemma regress_core erf tppf t d order cycles terms err weight rel stdev conf aicc q :
  regress erf tppf t d order cycles terms err weight rel stdev conf aicc = Ok q ->
  exists r s, epoch rel t r /\ (length t <> 1)%nat /\ fit_core (design order r t cycles terms) (length t) d err weight aicc = Ok (r_fit q) /\
   core_facts (design order r t cycles terms) (length t) d err weight (r_fit q) s /\
   r_simple q = tab (length t) (comb (order + 1) (col (design order r t cycles terms)) (at_ (f_beta (r_fit q)))) /\
   r_season q = tab (length t) (fun i => at_ (f_model (r_fit q)) i - at_ (r_simple q) i).
Proof.
  unfold regress. destruct (length t =? 1)%nat eqn:E1; [discriminate|]. apply Nat.eqb_neq in E1.
  destruct (t_rel rel t) as [r|] eqn:ER; cbn [bind]; [|discriminate].
  destruct (fit_core (design order r t cycles terms) (length t) d err weight aicc) as [f|] eqn:EF; cbn [bind]; [|discriminate].
  destruct (core_ok _ _ _ _ _ _ _ EF) as [s [C _]].
  assert (X : forall a b : regression, Ok a = Ok b -> b = a) by congruence.
  intros Q. exists r, s. rewrite epoch_iff. destruct weight; [|destruct (Req_EM_T (is_scalar err) 0)]; apply X in Q; rewrite Q; cbn [r_fit r_simple r_season]; auto 10.
Qed.

(** The decomposition and the least squares property, in all modes.  [b] are the returned
    coefficients: the model is the signal with coefficients b, simple its polynomial part,
    season the rest, residual = data - model; no other coefficients fit (weighted by 1/error^2 if WEIGHT)
    as well. *)
Theorem C53_least_squares : forall erf tppf t d order cycles terms err weight rel stdev conf aicc q,
  run erf tppf t d order cycles terms err weight rel stdev conf aicc = Ok q -> no_zero_error weight err ->
  exists r, epoch rel t r /\
  let n := length t in let b := val (f_beta (r_fit q)) in let w := weights weight err in
  let sig := signal order r cycles terms t in
  length (f_beta (r_fit q)) = nterms order cycles terms /\
  length (f_model (r_fit q)) = n /\ length (f_residual (r_fit q)) = n /\ length (r_simple q) = n /\ length (r_season q) = n /\
  (forall i, (i < n)%nat ->
     val (f_model (r_fit q)) i = sig b i /\
     val d i = val (f_model (r_fit q)) i + val (f_residual (r_fit q)) i /\
     val (f_model (r_fit q)) i = val (r_simple q) i + val (r_season q) i /\
     val (r_simple q) i = poly_part order r b (val t i) /\
     val (r_season q) i = other_part order cycles terms t b i) /\
  (forall b', misfit n w (val d) (sig b) <= misfit n w (val d) (sig b')) /\
  (forall b', misfit n w (val d) (sig b') = misfit n w (val d) (sig b) -> forall j, (j < nterms order cycles terms)%nat -> b' j = b j).
Proof.
  intros erf tppf t d order cycles terms err weight rel stdev conf aicc q Q NZ.
  destruct (regress_core _ _ _ _ _ _ _ _ _ _ _ _ _ _ Q) as (r & s & Er & _ & _ & C & ES & EE).
  exists r. split; auto. cbv zeta.
  pose proof (core_weights _ _ _ _ _ _ _ C NZ) as W.
  pose proof (core_pythagoras _ _ _ _ _ _ _ C) as P.
  pose proof (core_independent _ _ _ _ _ _ _ C) as I.
  pose proof C as C'. destruct C' as (_ & LD & _ & _ & _ & LB & EM & ERs & _).
  set (D := design order r t cycles terms) in *. set (n := length t) in *. set (b := val (f_beta (r_fit q))).
  assert (LDs : length D = nterms order cycles terms) by apply design_length.
  assert (SG : forall b' i, (i < n)%nat -> comb (length D) (col D) b' i = signal order r cycles terms t b' i).
  { intros b' i Li. rewrite LDs. apply (design_signal order r t cycles terms b' i Li). }
  assert (M : forall i, (i < n)%nat -> val (f_model (r_fit q)) i = signal order r cycles terms t b i).
  { intros i Li. rewrite EM. unfold val at 1. change (nth i ?l 0) with (at_ l i). rewrite tab_at by auto. rewrite LDs. apply design_signal; auto. }
  assert (S1 : forall i, (i < n)%nat -> val (r_simple q) i = poly_part order r b (val t i)).
  { intros i Li. rewrite ES. unfold val at 1. change (nth i ?l 0) with (at_ l i). rewrite tab_at by auto. apply design_simple; auto. }
  assert (MF : forall b', misfit n (weights weight err) (val d) (signal order r cycles terms t b') =
     misfit n (weights weight err) (val d) (signal order r cycles terms t b) +
     misfit n (weights weight err) (signal order r cycles terms t b) (signal order r cycles terms t b')).
  { intros b'. unfold misfit. specialize (P b').
    rewrite (rsum_ext n (fun i => weights weight err i * (val d i - signal order r cycles terms t b' i) ^ 2)
      (fun i => f_w (r_fit q) i * (at_ d i - comb (length D) (col D) b' i) ^ 2)).
    2:{ intros i Li. destruct (W i Li) as [-> _]. rewrite SG by auto. reflexivity. }
    rewrite P. f_equal; apply rsum_ext; intros i Li; destruct (W i Li) as [-> _];
     change (at_ (f_model (r_fit q)) i) with (val (f_model (r_fit q)) i); rewrite M by auto; auto.
    rewrite SG by auto. reflexivity. }
  assert (NN : forall b' i, (i < n)%nat -> 0 <= weights weight err i * (signal order r cycles terms t b i - signal order r cycles terms t b' i) ^ 2).
  { intros b' i Li. destruct (W i Li). apply Rmult_le_pos; [lra|apply pow2_ge_0]. }
  repeat split.
  - rewrite LB; exact LDs.
  - rewrite EM; apply tab_len.
  - rewrite ERs; apply tab_len.
  - rewrite ES; apply tab_len.
  - rewrite EE; apply tab_len.
  - apply M; auto.
  - rewrite ERs. unfold val at 3. change (nth i ?l 0) with (at_ l i). rewrite tab_at by auto. unfold val, at_. ring.
  - rewrite EE. unfold val at 3. change (nth i ?l 0) with (at_ l i). rewrite tab_at by auto. unfold val, at_. ring.
  - apply S1; auto.
  - rewrite EE. unfold val at 1. change (nth i ?l 0) with (at_ l i). rewrite tab_at by auto.
    change (at_ ?l i) with (val l i). rewrite M, S1 by auto. unfold signal. unfold val. ring.
  - intros b'. rewrite (MF b'). pose proof (rsum_nonneg n _ (NN b')) as X. unfold misfit at 3. lra.
  - intros b' E j Lj. rewrite (MF b') in E.
    assert (Z : forall i, (i < n)%nat -> signal order r cycles terms t b i - signal order r cycles terms t b' i = 0).
    { intros i Li. pose proof (rsum_pos_term n _ i (NN b') Li) as X. cbv beta in X. unfold misfit at 2 in E.
      destruct (W i Li) as [_ Wp]. pose proof (pow2_ge_0 (signal order r cycles terms t b i - signal order r cycles terms t b' i)) as Y.
      assert (V : (signal order r cycles terms t b i - signal order r cycles terms t b' i) ^ 2 = 0) by nra.
      apply Rsqr_0_uniq. rewrite Rsqr_pow2. exact V. }
    assert (E2 : b' j - b j = 0); [|lra]. apply (I (fun j => b' j - b j)); [|rewrite LDs; auto].
    intros i Li. rewrite comb_sub, !SG by auto. specialize (Z i Li). unfold b in *. lra.
Qed.

(** residuals are orthogonal to every function of the design *)
Theorem C53_orthogonal : forall erf tppf t d order cycles terms err weight rel stdev conf aicc q,
  run erf tppf t d order cycles terms err weight rel stdev conf aicc = Ok q -> no_zero_error weight err ->
  forall r, epoch rel t r -> forall b',
  rsum (length t) (fun i => weights weight err i * signal order r cycles terms t b' i * val (f_residual (r_fit q)) i) = 0.
Proof.
  intros erf tppf t d order cycles terms err weight rel stdev conf aicc q Q NZ r Hr b'.
  destruct (regress_core _ _ _ _ _ _ _ _ _ _ _ _ _ _ Q) as (r' & s & Er & _ & _ & C & _).
  rewrite epoch_iff in *. assert (r' = r) by congruence. subst r'.
  pose proof (core_weights _ _ _ _ _ _ _ C NZ) as W. pose proof (core_orthogonal _ _ _ _ _ _ _ C) as O.
  rewrite design_length in O.
  rewrite (rsum_ext _ _ (fun i => rsum (nterms order cycles terms) (fun j => b' j * (f_w (r_fit q) i * col (design order r t cycles terms) j i * at_ (f_residual (r_fit q)) i)))).
  2:{ intros i Li. destruct (W i Li) as [<- _]. rewrite <- (design_signal order r t cycles terms b' i Li).
      unfold comb. change (val (f_residual (r_fit q)) i) with (at_ (f_residual (r_fit q)) i).
      rewrite Rmult_comm, <- Rmult_assoc, <- rsum_scal. apply rsum_ext; intros; ring. }
  rewrite rsum_swap. rewrite (rsum_ext _ _ (fun _ => 0)); [apply rsum_zero|].
  intros j Lj. rewrite rsum_scal, O by auto. ring.
Qed.

(** data that are exactly such a signal are recovered, and residuals vanish *)
Theorem C53_exact : forall erf tppf t d order cycles terms err weight rel stdev conf aicc q b r,
  run erf tppf t d order cycles terms err weight rel stdev conf aicc = Ok q -> no_zero_error weight err -> epoch rel t r ->
  (forall i, (i < length t)%nat -> val d i = signal order r cycles terms t b i) ->
  (forall j, (j < nterms order cycles terms)%nat -> val (f_beta (r_fit q)) j = b j) /\
  (forall i, (i < length t)%nat -> val (f_residual (r_fit q)) i = 0).
Proof.
  intros erf tppf t d order cycles terms err weight rel stdev conf aicc q b r Q NZ Hr E.
  destruct (C53_least_squares _ _ _ _ _ _ _ _ _ _ _ _ _ _ Q NZ) as (r' & Er & LB & _ & _ & _ & _ & V & MIN & UN).
  rewrite epoch_iff in *. assert (r' = r) by congruence. subst r'.
  assert (Z : misfit (length t) (weights weight err) (val d) (signal order r cycles terms t b) = 0).
  { unfold misfit. rewrite (rsum_ext _ _ (fun _ => 0)); [apply rsum_zero|]. intros i Li. rewrite E by auto. ring. }
  destruct (regress_core _ _ _ _ _ _ _ _ _ _ _ _ _ _ Q) as (r'' & s & _ & _ & _ & C & _).
  pose proof (core_weights _ _ _ _ _ _ _ C NZ) as W.
  assert (NN : 0 <= misfit (length t) (weights weight err) (val d) (signal order r cycles terms t (val (f_beta (r_fit q))))).
  { apply rsum_nonneg. intros i Li. destruct (W i Li). apply Rmult_le_pos; [lra|apply pow2_ge_0]. }
  assert (B : forall j, (j < nterms order cycles terms)%nat -> b j = val (f_beta (r_fit q)) j).
  { apply UN. pose proof (MIN b). lra. }
  split; [intros; symmetry; auto|].
  intros i Li. destruct (V i Li) as (M & DD & _).
  assert (S : signal order r cycles terms t (val (f_beta (r_fit q))) i = signal order r cycles terms t b i).
  { rewrite <- !(design_signal order r t cycles terms _ i Li). apply comb_ext; auto. intros j Lj. symmetry; auto. }
  rewrite E, M, S in DD by auto. lra.
Qed.

(** When regress returns: exactly if the design is identifiable and there are more (or fewer) epochs than
    coefficients; singular designs raise LinAlgError, exactly determined ones ZeroDivisionError. *)
Theorem C53_returns : forall erf tppf t d order cycles terms e rel stdev conf aicc r, (2 <= length t)%nat ->
  length d = length t -> (forall T, In T terms -> length T = length t) -> epoch rel t r ->
  ((exists q, run erf tppf t d order cycles terms (Scalar e) false rel stdev conf aicc = Ok q) <->
   identifiable order r cycles terms t /\ length t <> nterms order cycles terms) /\
  (forall es, length es = length t ->
   ((exists q, run erf tppf t d order cycles terms (Array es) true rel stdev conf aicc = Ok q) <->
    identifiable order r cycles terms t /\ length t <> nterms order cycles terms)) /\
  run erf tppf t d order cycles terms (Scalar e) true rel stdev conf aicc = Err ValueError.
Proof.
  intros erf tppf t d order cycles terms e rel stdev conf aicc r LT LD LTs Er.
  assert (HC : columns_ok (design order r t cycles terms) (length t)) by (apply design_columns; auto).
  assert (E1 : (exists f, fit_core (design order r t cycles terms) (length t) d (Scalar e) false aicc = Ok f) <->
     identifiable order r cycles terms t /\ length t <> nterms order cycles terms).
  { rewrite (core_returns _ _ d (Scalar e) aicc HC LD) by discriminate. rewrite design_length, design_identifiable. reflexivity. }
  assert (E2 : forall es, length es = length t -> (exists f, fit_core (design order r t cycles terms) (length t) d (Array es) true aicc = Ok f) <->
     identifiable order r cycles terms t /\ length t <> nterms order cycles terms).
  { intros es LE. rewrite (core_returns_weighted _ _ d es aicc HC LD LE). rewrite design_length, design_identifiable. reflexivity. }
  rewrite epoch_iff in Er. unfold run, regress.
  destruct (Nat.eqb_spec (length t) 1); [lia|]. rewrite Er. cbn [bind]. split; [|split].
  - rewrite <- E1. split.
    + intros [q Q]. destruct (fit_core (design order r t cycles terms) _ _ _ _ _) as [f|] eqn:EF in Q; [eauto|cbn [bind] in Q; discriminate].
    + intros [f Hf]. rewrite Hf. cbn [bind]. destruct (Req_EM_T (is_scalar (Scalar e)) 0); eauto.
  - intros es LE. rewrite <- (E2 es LE). split.
    + intros [q Q]. destruct (fit_core (design order r t cycles terms) _ _ _ _ _) as [f|] eqn:EF in Q; [eauto|cbn [bind] in Q; discriminate].
    + intros [f Hf]. rewrite Hf. cbn [bind]. eauto.
  - unfold fit_core. destruct (forallb _ _); reflexivity.
Qed.
