(** C53 continued: reference epoch, goodness of fit, errors, likelihood, side effects. *)
From Coq Require Import Reals Lra FinFun.
From Verif Require Import Base DestripeModel DestripeProofs LinAlg RegressModel RegressProofs PropRegress.
Close Scope Z_scope.
Open Scope R_scope.

Lemma cyc_ext cs : forall b b' k x, (forall j, (k <= j)%nat -> b j = b' j) -> cyc_part cs b k x = cyc_part cs b' k x.
Proof.
  induction cs as [|c cs IH]; intros b b' k x H; [reflexivity|]. cbn [cyc_part].
  rewrite (H k), (H (k + 1)%nat), (IH b b') by (try lia; intros; apply H; lia). reflexivity.
Qed.
Lemma term_ext Ts : forall b b' k i, (forall j, (k <= j)%nat -> b j = b' j) -> term_part Ts b k i = term_part Ts b' k i.
Proof.
  induction Ts as [|T Ts IH]; intros b b' k i H; [reflexivity|]. cbn [term_part].
  rewrite (H k), (IH b b') by (try lia; intros; apply H; lia). reflexivity.
Qed.
Lemma cyc_zero cs : forall k x, cyc_part cs (fun _ => 0) k x = 0.
Proof. induction cs as [|c cs IH]; intros; cbn [cyc_part]; [reflexivity|rewrite IH; ring]. Qed.
Lemma term_zero Ts : forall k i, term_part Ts (fun _ => 0) k i = 0.
Proof. induction Ts as [|T Ts IH]; intros; cbn [term_part]; [reflexivity|rewrite IH; ring]. Qed.
(** re-expressing a signal about another epoch: other coefficients and the leading polynomial one keep their values *)
Lemma signal_shift order r r' cs Ts t b : exists b', (forall i, signal order r' cs Ts t b' i = signal order r cs Ts t b i) /\
  (forall j, (order <= j)%nat -> b' j = b j) /\ (forall x, poly_part order r' b' x = poly_part order r b x).
Proof.
  destruct (peval_shift (order + 1) b (r' - r)) as [c [C1 C2]]. replace (order + 1 - 1)%nat with order in C2 by lia.
  exists (fun j => if (j <? order)%nat then c j else b j).
  assert (P : forall x, poly_part order r' (fun j => if (j <? order)%nat then c j else b j) x = poly_part order r b x).
  { intros x. unfold poly_part. fold (peval (order + 1) b (x - r)). replace (x - r) with ((x - r') + (r' - r)) by ring.
    rewrite C1. unfold peval. apply rsum_ext. intros o Lo. destruct (Nat.ltb_spec o order); auto.
    replace o with order in * by lia. rewrite C2. reflexivity. }
  split; [|split; auto].
  - intros i. unfold signal, other_part. f_equal; [|f_equal].
    + apply P.
    + apply cyc_ext. intros j Lj. destruct (Nat.ltb_spec j order); [lia|auto].
    + apply term_ext. intros j Lj. destruct (Nat.ltb_spec j order); [lia|auto].
  - intros j Lj. destruct (Nat.ltb_spec j order); [lia|auto].
Qed.

(** The reference epoch does not matter: whether the design is identifiable, the model, the residuals, the
    trend part and the seasonal part of the model, the leading polynomial coefficient (for ORDER=1 the trend)
    and all non-polynomial coefficients are the same for every RELATIVE. *)
Theorem C53_relative : forall erf tppf t d order cycles terms err weight rel rel' stdev conf aicc q q',
  run erf tppf t d order cycles terms err weight rel stdev conf aicc = Ok q ->
  run erf tppf t d order cycles terms err weight rel' stdev conf aicc = Ok q' -> no_zero_error weight err ->
  (forall j, (order <= j < nterms order cycles terms)%nat -> val (f_beta (r_fit q')) j = val (f_beta (r_fit q)) j) /\
  (forall i, (i < length t)%nat ->
     val (f_model (r_fit q')) i = val (f_model (r_fit q)) i /\ val (f_residual (r_fit q')) i = val (f_residual (r_fit q)) i /\
     val (r_simple q') i = val (r_simple q) i /\ val (r_season q') i = val (r_season q) i).
Proof.
  intros erf tppf t d order cycles terms err weight rel rel' stdev conf aicc q q' Q Q' NZ.
  destruct (C53_least_squares _ _ _ _ _ _ _ _ _ _ _ _ _ _ Q NZ) as (r & Er & _ & _ & _ & _ & _ & V & MIN & UN).
  destruct (C53_least_squares _ _ _ _ _ _ _ _ _ _ _ _ _ _ Q' NZ) as (r' & Er' & _ & _ & _ & _ & _ & V' & MIN' & UN').
  cbv zeta in *. set (b := val (f_beta (r_fit q))) in *. set (b' := val (f_beta (r_fit q'))) in *.
  destruct (signal_shift order r r' cycles terms t b) as [c [C1 [C2 _]]].
  destruct (signal_shift order r' r cycles terms t b') as [c' [C1' [C2' _]]].
  assert (X : forall y z, (forall i, y i = z i) -> misfit (length t) (weights weight err) (val d) y = misfit (length t) (weights weight err) (val d) z).
  { intros y z H. unfold misfit. apply rsum_ext. intros. rewrite H. reflexivity. }
  assert (EQ : forall j, (j < nterms order cycles terms)%nat -> c j = b' j).
  { apply UN'. apply Rle_antisym.
    - rewrite (X _ _ C1). rewrite <- (X _ _ C1'). apply MIN.
    - apply MIN'. }
  assert (SG : forall i, (i < length t)%nat -> signal order r' cycles terms t b' i = signal order r cycles terms t b i).
  { intros i Li. rewrite <- (C1 i). rewrite <- !(design_signal order r' t cycles terms _ i Li). apply comb_ext; auto. intros; symmetry; auto. }
  assert (B : forall j, (order <= j < nterms order cycles terms)%nat -> b' j = b j).
  { intros j Lj. rewrite <- EQ by lia. apply C2; lia. }
  assert (OT : forall i, (i < length t)%nat -> other_part order cycles terms t b' i = other_part order cycles terms t b i).
  { intros i Li.
    (* both parts are combinations of the same columns with the same coefficients *)
    pose proof (design_signal order 0 t cycles terms (fun j => if (j <? order + 1)%nat then 0 else b' j) i Li) as E1.
    pose proof (design_signal order 0 t cycles terms (fun j => if (j <? order + 1)%nat then 0 else b j) i Li) as E2.
    unfold signal in E1, E2.
    assert (P0 : forall z, poly_part order 0 (fun j => if (j <? order + 1)%nat then 0 else z j) (nth i t 0) = 0).
    { intros z. unfold poly_part. rewrite (rsum_ext _ _ (fun _ => 0)); [apply rsum_zero|]. intros o Lo. destruct (Nat.ltb_spec o (order + 1)); [ring|lia]. }
    assert (O : forall z, other_part order cycles terms t (fun j => if (j <? order + 1)%nat then 0 else z j) i = other_part order cycles terms t z i).
    { intros z. unfold other_part. f_equal; [apply cyc_ext|apply term_ext]; intros j Lj; destruct (Nat.ltb_spec j (order + 1)); auto; lia. }
    rewrite P0, O in E1, E2. rewrite <- (Rplus_0_l (other_part _ _ _ _ b' _)), <- (Rplus_0_l (other_part _ _ _ _ b _)), <- E1, <- E2.
    apply comb_ext; auto. intros j Lj. destruct (Nat.ltb_spec j (order + 1)); auto. apply B; lia. }
  split; [exact B|]. intros i Li.
  destruct (V i Li) as (M & DD & MS & S1 & S2). destruct (V' i Li) as (M' & DD' & MS' & S1' & S2').
  assert (EM : val (f_model (r_fit q')) i = val (f_model (r_fit q)) i) by (rewrite M, M'; apply SG; auto).
  assert (ES : val (r_season q') i = val (r_season q) i) by (rewrite S2, S2'; apply OT; auto).
  repeat split; auto; lra.
Qed.
Definition points (n : nat) : list R := map INR (seq 0 n).
Lemma points_ok n : NoDup (points n) /\ length (points n) = n.
Proof.
  split; [|unfold points; rewrite map_length, seq_length; auto]. unfold points.
  apply Injective_map_NoDup; [intros a c; apply INR_eq|apply seq_NoDup].
Qed.
Lemma poly_zero order r b : (forall x, poly_part order r b x = 0) -> forall j, (j < order + 1)%nat -> b j = 0.
Proof.
  intros H. destruct (points_ok (order + 1)) as [ND L].
  apply (powers_independent (order + 1) b (points (order + 1)) ND ltac:(lia)).
  intros a _. specialize (H (a + r)). unfold poly_part in H. replace (a + r - r) with a in H by ring. exact H.
Qed.
Theorem C53_relative_identifiable : forall order r r' cycles terms t,
  identifiable order r cycles terms t <-> identifiable order r' cycles terms t.
Proof.
  assert (G : forall order r r' cycles terms t, identifiable order r cycles terms t -> identifiable order r' cycles terms t).
  { intros order r r' cs Ts t I b Hb j Lj.
    destruct (signal_shift order r' r cs Ts t b) as [c [C1 [C2 C3]]].
    assert (Z : forall j, (j < nterms order cs Ts)%nat -> c j = 0). { apply I. intros i Li. rewrite C1. apply Hb; auto. }
    destruct (le_lt_dec order j) as [L|L].
    - rewrite <- (C2 j L). apply Z; auto.
    - apply (poly_zero order r' b); [|lia]. intros x. rewrite <- C3. unfold poly_part.
      rewrite (rsum_ext _ _ (fun _ => 0)); [apply rsum_zero|]. intros o Lo. rewrite Z by (unfold nterms; lia). ring. }
  intros; split; apply G.
Qed.
(** a pure polynomial fit needs only more distinct epochs than the degree *)
Theorem C53_polynomial_identifiable : forall order r t, NoDup t -> (order < length t)%nat -> identifiable order r [] [] t.
Proof.
  intros order r t ND L b Hb j Lj. unfold nterms in Lj. cbn [length] in Lj.
  apply (powers_independent (order + 1) b (map (fun x => x - r) t)).
  - apply Injective_map_NoDup; auto. intros a c E. lra.
  - rewrite map_length. lia.
  - intros a Ha. apply in_map_iff in Ha. destruct Ha as [x [<- Hx]]. apply (In_nth t x 0) in Hx. destruct Hx as [i [Li <-]].
    specialize (Hb i Li). unfold signal, other_part in Hb. cbn [cyc_part term_part] in Hb. unfold poly_part in Hb. unfold peval. lra.
  - lia.
Qed.

(** there are always more epochs than coefficients when a fit is returned *)
Lemma dof_pos erf tppf t d order cycles terms err weight rel stdev conf aicc q :
  run erf tppf t d order cycles terms err weight rel stdev conf aicc = Ok q ->
  (nterms order cycles terms < length t)%nat /\ f_dof (r_fit q) = (Z.of_nat (length t) - Z.of_nat (nterms order cycles terms))%Z.
Proof.
  intros Q. destruct (regress_core _ _ _ _ _ _ _ _ _ _ _ _ _ _ Q) as (r & s & _ & _ & _ & C & _).
  pose proof (core_independent _ _ _ _ _ _ _ C) as I. apply independent_le in I. rewrite design_length in I.
  destruct C as (_ & _ & N & _ & E & _). rewrite design_length in N, E. split; [lia|exact E].
Qed.
(** degrees of freedom = epochs - coefficients, always positive *)
Theorem C53_dof : forall erf tppf t d order cycles terms err weight rel stdev conf aicc q,
  run erf tppf t d order cycles terms err weight rel stdev conf aicc = Ok q ->
  (0 < f_dof (r_fit q))%Z /\ (f_dof (r_fit q) + Z.of_nat (length (f_beta (r_fit q))) = Z.of_nat (length d))%Z.
Proof.
  intros. destruct (dof_pos _ _ _ _ _ _ _ _ _ _ _ _ _ _ H) as [A B].
  destruct (regress_core _ _ _ _ _ _ _ _ _ _ _ _ _ _ H) as (r & s & _ & _ & _ & C & _).
  destruct C as (_ & LD & _ & _ & _ & LB & _). rewrite design_length in LB. rewrite LB, LD. lia.
Qed.

(** coefficient of determination: between 0 and 1 for unweighted fits of data that are not constant, 1 exactly for a
    perfect fit, and the adjusted value never exceeds it *)
Theorem C53_R2 : forall erf tppf t d order cycles terms err rel stdev conf aicc q,
  run erf tppf t d order cycles terms err false rel stdev conf aicc = Ok q -> (exists i j, (i < length t)%nat /\ (j < length t)%nat /\ val d i <> val d j) ->
  0 <= f_R2 (r_fit q) <= 1 /\ f_R2Adj (r_fit q) <= f_R2 (r_fit q) /\
  (f_R2 (r_fit q) = 1 <-> forall i, (i < length t)%nat -> val (f_residual (r_fit q)) i = 0).
Proof.
  intros erf tppf t d order cycles terms err rel stdev conf aicc q Q [i0 [j0 [Li0 [Lj0 Hne]]]].
  destruct (C53_least_squares _ _ _ _ _ _ _ _ _ _ _ _ _ _ Q I) as (r & Er & _ & _ & _ & _ & _ & V & MIN & _).
  destruct (regress_core _ _ _ _ _ _ _ _ _ _ _ _ _ _ Q) as (r' & s & _ & _ & EF & C & _).
  destruct (core_ok _ _ _ _ _ _ _ EF) as (s' & _ & [R2 R2A] & _).
  destruct (dof_pos _ _ _ _ _ _ _ _ _ _ _ _ _ _ Q) as [NL ND]. clear C.
  set (n := length t) in *. set (m := mean_ d) in *.
  set (ST := rsum n (fun i => (at_ d i - m) * (at_ d i - m))) in *.
  set (SE := rsum n (fun i => at_ (f_residual (r_fit q)) i * at_ (f_residual (r_fit q)) i)) in *.
  assert (PT : 0 < ST).
  { assert (NT : 0 <= ST) by (apply rsum_nonneg; intros; apply Rle_0_sqr). destruct NT as [|Z]; auto. exfalso. apply Hne.
    assert (Z' : forall i, (i < n)%nat -> at_ d i - m = 0) by (apply (dot_self_zero n (fun i => at_ d i - m)); symmetry; exact Z).
    pose proof (Z' i0 Li0). pose proof (Z' j0 Lj0). unfold at_, val in *. lra. }
  assert (PE : 0 <= SE) by (apply rsum_nonneg; intros; apply Rle_0_sqr).
  assert (LE : SE <= ST).
  { specialize (MIN (fun j => if (j =? 0)%nat then m else 0)). cbn [weights] in MIN. unfold misfit in MIN.
    assert (E1 : rsum n (fun i => 1 * (val d i - signal order r cycles terms t (val (f_beta (r_fit q))) i) ^ 2) = SE).
    { apply rsum_ext. intros i Li. destruct (V i Li) as (M & DD & _). rewrite <- M. unfold at_. fold (val (f_residual (r_fit q)) i). replace (val d i) with (val (f_model (r_fit q)) i + val (f_residual (r_fit q)) i) by lra. ring. }
    assert (E2 : rsum n (fun i => 1 * (val d i - signal order r cycles terms t (fun j => if (j =? 0)%nat then m else 0) i) ^ 2) = ST).
    { apply rsum_ext. intros i Li. assert (SS : signal order r cycles terms t (fun j => if (j =? 0)%nat then m else 0) i = m).
      { unfold signal. unfold poly_part. replace (order + 1)%nat with (S order) by lia. rewrite rsum_head. cbn [Nat.eqb].
        rewrite (rsum_ext order _ (fun _ => 0)) by (intros; ring). rewrite rsum_zero.
        unfold other_part. rewrite (cyc_ext cycles _ (fun _ => 0)) by (intros j Lj; destruct (Nat.eqb_spec j 0); [lia|auto]).
        rewrite (term_ext terms _ (fun _ => 0)) by (intros j Lj; destruct (Nat.eqb_spec j 0); [lia|auto]).
        rewrite cyc_zero, term_zero. cbn [pow]. ring. }
      rewrite SS. unfold at_, val. ring. }
    rewrite <- E1, <- E2. exact MIN. }
  assert (Q1 : 0 <= SE / ST) by (apply Rmult_le_pos; [auto|left; apply Rinv_0_lt_compat; auto]).
  assert (Q2 : SE / ST <= 1) by (apply (Rmult_le_reg_r ST); auto; unfold Rdiv; rewrite Rmult_assoc, Rinv_l by lra; lra).
  rewrite R2, R2A. split; [lra|]. split.
  - assert (F : 1 <= (INR n - 1) / IZR (f_dof (r_fit q))).
    { rewrite ND, minus_IZR, <- !INR_IZR_INZ. assert (A : INR (nterms order cycles terms) < INR n) by (apply lt_INR; auto).
      assert (B : 1 <= INR (nterms order cycles terms)). { change 1 with (INR 1). apply le_INR. unfold nterms; lia. }
      apply (Rmult_le_reg_r (INR n - INR (nterms order cycles terms))); [lra|]. unfold Rdiv. rewrite Rmult_assoc, Rinv_l by lra. lra. }
    nra.
  - split.
    + intros E. assert (Z : SE = 0). { assert (SE / ST = 0) by lra. apply (Rmult_eq_reg_r (/ ST)); [unfold Rdiv in *; lra|]. apply Rinv_neq_0_compat; lra. }
      intros i Li. apply (dot_self_zero n (at_ (f_residual (r_fit q))) Z i Li).
    + intros Z. assert (SE = 0). { unfold SE. rewrite (rsum_ext n _ (fun _ => 0)); [apply rsum_zero|]. intros i Li. unfold at_. fold (val (f_residual (r_fit q)) i). rewrite Z by auto. ring. }
      rewrite H. unfold Rdiv. ring.
Qed.

(** the design functions: signals with one unit coefficient; the normal matrix of the fit *)
Definition basis order r cycles terms t (j : nat) : nat -> R := signal order r cycles terms t (fun k => if (k =? j)%nat then 1 else 0).
Definition normal order r cycles terms t (w : nat -> R) (j k : nat) : R :=
  rsum (length t) (fun i => w i * basis order r cycles terms t j i * basis order r cycles terms t k i).
Lemma basis_col order r cycles terms t j i : (j < nterms order cycles terms)%nat -> (i < length t)%nat ->
  basis order r cycles terms t j i = col (design order r t cycles terms) j i.
Proof.
  intros Lj Li. unfold basis. rewrite <- (design_signal order r t cycles terms _ i Li). unfold comb.
  exact (rsum_delta (nterms order cycles terms) j (fun k => col (design order r t cycles terms) k i) Lj).
Qed.

(** Coefficient errors.  cov_mat is the inverse of the normal matrix and has a positive diagonal.  With WEIGHT the error
    of coefficient j is sqrt(cov_jj); with a constant DATA_ERR e it is |e| sqrt(cov_jj) (so it scales linearly with e);
    without either it is the t value times sqrt(MSE cov_jj), MSE = sum residual^2 / DOF. *)
Theorem C53_errors : forall erf tppf t d order cycles terms err weight rel stdev conf aicc q r,
  run erf tppf t d order cycles terms err weight rel stdev conf aicc = Ok q -> no_zero_error weight err -> epoch rel t r ->
  let cov := f_cov (r_fit q) in let p := nterms order cycles terms in
  (forall j k, (j < p)%nat -> (k < p)%nat ->
     rsum p (fun l => normal order r cycles terms t (weights weight err) j l * cov l k) = (if (j =? k)%nat then 1 else 0)) /\
  (forall j, (j < p)%nat -> 0 < cov j j) /\ length (r_error q) = p /\
  (forall j, (j < p)%nat ->
     (weight = true -> val (r_error q) j = sqrt (cov j j)) /\
     (forall e, weight = false -> err = Scalar e -> e <> 0 -> val (r_error q) j = Rabs e * sqrt (cov j j)) /\
     (weight = false -> err = Scalar 0 ->
        exists st, r_std_err q = Some st /\ r_mse q = rsum (length t) (fun i => val (f_residual (r_fit q)) i ^ 2) / IZR (f_dof (r_fit q)) /\
          val st j = sqrt (r_mse q * cov j j) /\ val (r_error q) j = t_star erf tppf stdev conf (f_dof (r_fit q)) * val st j)).
Proof.
  intros erf tppf t d order cycles terms err weight rel stdev conf aicc q r Q NZ Hr cov p.
  destruct (regress_core _ _ _ _ _ _ _ _ _ _ _ _ _ _ Q) as (r' & s & Er & N1 & EF & C & _).
  rewrite epoch_iff in *. assert (r' = r) by congruence. subst r'.
  pose proof (core_weights _ _ _ _ _ _ _ C NZ) as W.
  pose proof (fun j => cov_diag_pos _ _ _ _ _ _ _ j C) as CP. pose proof (fun j => core_normeq _ _ _ _ _ _ _ j C) as NE.
  rewrite design_length in CP, NE. fold cov in CP, NE. fold p in CP, NE.
  pose proof C as C'. destruct C' as (_ & LD & _ & EN & _ & LB & _ & ERs & SW & W0 & W1 & _ & G).
  rewrite design_length in G. fold p in G. fold cov in G.
  set (D := design order r t cycles terms) in *.
  assert (LDs : length D = p) by apply design_length.
  assert (SUMMSE : mse (r_fit q) = rsum (length t) (fun i => val (f_residual (r_fit q)) i ^ 2) / IZR (f_dof (r_fit q))).
  { unfold mse. f_equal. assert (X : forall l, sum_ (map (fun r => r * r) l) = rsum (length l) (fun i => val l i ^ 2)).
    { induction l as [|x l IH]; [reflexivity|]. cbn [map sum_ fold_right length]. rewrite rsum_head. unfold sum_ in IH. rewrite IH. unfold val. cbn [nth]. ring_simplify. f_equal. }
    rewrite X. rewrite ERs, tab_len. reflexivity. }
  split; [|split; [|split]].
  - intros j k Lj Lk. fold (delta j k). rewrite <- (G j k Lj Lk). unfold mmul. apply rsum_ext. intros l Ll. f_equal. unfold normal, gram, dot.
    apply rsum_ext. intros i Li. rewrite !basis_col by auto. fold D. destruct (W i Li) as [<- _]. destruct (SW i Li) as [_ ->]. ring.
  - intros j Lj. apply CP; auto.
  - unfold run, regress in Q. destruct (Nat.eqb_spec (length t) 1); [congruence|]. rewrite Er in Q. cbn [bind] in Q. fold D in Q. rewrite EF in Q. cbn [bind] in Q.
    assert (X : forall a b : regression, Ok a = Ok b -> b = a) by congruence.
    destruct weight; [|destruct (Req_EM_T (is_scalar err) 0)]; apply X in Q; rewrite Q; cbn [r_error]; rewrite ?map_length, ?tab_len; auto.
  - intros j Lj.
    unfold run, regress in Q. destruct (Nat.eqb_spec (length t) 1); [congruence|]. rewrite Er in Q. cbn [bind] in Q. fold D in Q. rewrite EF in Q. cbn [bind] in Q.
    assert (X : forall a b : regression, Ok a = Ok b -> b = a) by congruence.
    split; [|split].
    + intros ->. apply X in Q. rewrite Q. cbn [r_error]. unfold val. change (nth j ?l 0) with (at_ l j). rewrite tab_at by (rewrite LDs; auto).
      f_equal. rewrite <- (NE j Lj). destruct (W1 eq_refl) as [es [E1 [E2 [_ E3]]]]. rewrite E2. apply rsum_ext. intros i Li. rewrite E3, Rinv_inv. reflexivity.
    + intros e -> -> He. cbn [is_scalar] in Q. destruct (Req_EM_T e 0); [contradiction|]. apply X in Q. rewrite Q. cbn [r_error].
      unfold val. change (nth j ?l 0) with (at_ l j). rewrite tab_at by (rewrite LDs; auto).
      destruct (W0 eq_refl) as [E1 _].
      rewrite (rsum_ext _ _ (fun i => e ^ 2 * (normeq D (r_fit q) j i * / s i) ^ 2)).
      2:{ intros i Li. rewrite E1, Rinv_1. ring. }
      rewrite rsum_scal, (NE j Lj). rewrite sqrt_mult_alt by apply pow2_ge_0. rewrite <- Rsqr_pow2, sqrt_Rsqr_abs. reflexivity.
    + intros -> ->. cbn [is_scalar] in Q. destruct (Req_EM_T 0 0); [|contradiction]. apply X in Q.
      exists (tab (length D) (fun j => sqrt (mse (r_fit q) * f_cov (r_fit q) j j))).
      assert (RM : r_mse q = mse (r_fit q)) by (rewrite Q; reflexivity).
      rewrite RM. repeat split.
      * rewrite Q. reflexivity.
      * exact SUMMSE.
      * unfold val. change (nth j ?l 0) with (at_ l j). rewrite tab_at by (rewrite LDs; auto). reflexivity.
      * assert (RE : r_error q = map (fun s0 => t_star erf tppf stdev conf (f_dof (r_fit q)) * s0) (tab (length D) (fun j => sqrt (mse (r_fit q) * f_cov (r_fit q) j j)))) by (rewrite Q; reflexivity).
        rewrite RE. unfold val. change (nth j ?l 0) with (at_ l j). rewrite at_map by (rewrite tab_len, LDs; auto). reflexivity.
Qed.

(** log likelihood of residuals res under independent normal errors of variance s/w_i *)
Definition gauss_loglik (n : nat) (w res : nat -> R) (s : R) : R :=
  rsum n (fun i => - / 2 * ln (2 * PI * s / w i) - w i * res i ^ 2 / (2 * s)).
Lemma ln_le_sub u : 0 < u -> ln u <= u - 1.
Proof.
  intros H. destruct (Req_dec (ln u) 0) as [E|E].
  - rewrite E. assert (u = 1). { apply ln_inv; [auto|lra|]. rewrite ln_1. exact E. } lra.
  - pose proof (exp_ineq1 (ln u) E). rewrite exp_ln in H0 by auto. lra.
Qed.
Lemma gauss_closed n w res s : 0 < s -> (forall i, (i < n)%nat -> 0 < w i) ->
  gauss_loglik n w res s = / 2 * (rsum n (fun i => ln (w i)) - INR n * (ln (2 * PI) + ln s)) - rsum n (fun i => w i * res i ^ 2) / (2 * s).
Proof.
  intros Hs Hw. unfold gauss_loglik. pose proof PI_RGT_0.
  rewrite (rsum_ext n _ (fun i => (/ 2 * ln (w i) + (- / 2 * (ln (2 * PI) + ln s))) + (- / (2 * s)) * (w i * res i ^ 2))).
  2:{ intros i Li. specialize (Hw i Li). unfold Rdiv at 1. rewrite ln_mult by (try apply Rinv_0_lt_compat; nra). rewrite ln_Rinv by auto. rewrite ln_mult by lra. field. lra. }
  assert (X : rsum n (fun _ => - / 2 * (ln (2 * PI) + ln s)) = INR n * (- / 2 * (ln (2 * PI) + ln s))).
  { clear. induction n; [cbn; ring|]. rewrite S_INR. cbn [rsum]. rewrite IHn. ring. }
  rewrite 2!rsum_plus, X, !rsum_scal. field. lra.
Qed.
(** LOGLIK is the log likelihood at its maximum over the unknown variance (unless the fit is perfect); AIC and BIC are
    -2 LOGLIK + 2 K and -2 LOGLIK + K ln n with K = coefficients + 1, AICc adds 2K(K+1)/(n-K-1). *)
Theorem C53_likelihood : forall erf tppf t d order cycles terms err weight rel stdev conf aicc q,
  run erf tppf t d order cycles terms err weight rel stdev conf aicc = Ok q -> no_zero_error weight err ->
  let n := length t in let w := weights weight err in let res := val (f_residual (r_fit q)) in let K := INR (nterms order cycles terms) + 1 in
  (exists i, (i < n)%nat /\ res i <> 0) ->
  (forall s, 0 < s -> gauss_loglik n w res s <= f_loglik (r_fit q)) /\
  (exists s, 0 < s /\ gauss_loglik n w res s = f_loglik (r_fit q)) /\
  f_AIC (r_fit q) = -2 * f_loglik (r_fit q) + 2 * K + (if aicc then 2 * K * (K + 1) / (INR n - K - 1) else 0) /\
  f_BIC (r_fit q) = -2 * f_loglik (r_fit q) + K * ln (INR n).
Proof.
  intros erf tppf t d order cycles terms err weight rel stdev conf aicc q Q NZ n w res K [i0 [Li0 Hi0]].
  destruct (regress_core _ _ _ _ _ _ _ _ _ _ _ _ _ _ Q) as (r & s0 & _ & _ & EF & C & _).
  destruct (core_ok _ _ _ _ _ _ _ EF) as (s' & C2 & _ & LL & AA & BB). rewrite design_length in AA, BB.
  pose proof (core_weights _ _ _ _ _ _ _ C NZ) as W. fold n in W. fold w in W.
  set (S := rsum n (fun i => w i * res i ^ 2)).
  assert (Sp : 0 < S).
  { assert (T : w i0 * res i0 ^ 2 <= S). { apply (rsum_pos_term n (fun i => w i * res i ^ 2)); auto. intros i Li. destruct (W i Li). apply Rmult_le_pos; [lra|apply pow2_ge_0]. }
    assert (0 < res i0 ^ 2) by (rewrite <- Rsqr_pow2; apply Rsqr_pos_lt; auto). destruct (W i0 Li0). nra. }
  assert (Np : 0 < INR n) by (apply lt_0_INR; lia).
  assert (Hw : forall i, (i < n)%nat -> 0 < w i) by (intros i Li; destruct (W i Li); auto).
  assert (LL' : f_loglik (r_fit q) = / 2 * (rsum n (fun i => ln (w i)) - INR n * (ln (2 * PI) + ln (S / INR n))) - S / (2 * (S / INR n))).
  { rewrite LL. fold n. 
    assert (E1 : (if weight then rsum n (fun i => ln (f_w (r_fit q) i)) else ln 1) = rsum n (fun i => ln (w i))).
    { destruct weight.
      - apply rsum_ext. intros i Li. destruct (W i Li) as [-> _]. reflexivity.
      - rewrite (rsum_ext n (fun i => ln (w i)) (fun _ => 0)); [rewrite rsum_zero; apply ln_1|]. intros. unfold w. cbn [weights]. apply ln_1. }
    rewrite E1. assert (E2 : rsum n (fun i => f_w (r_fit q) i * at_ (f_residual (r_fit q)) i ^ 2) = S).
    { apply rsum_ext. intros i Li. destruct (W i Li) as [-> _]. reflexivity. }
    rewrite E2. unfold Rdiv at 1. rewrite (ln_mult S) by (auto; apply Rinv_0_lt_compat; auto). rewrite ln_Rinv by auto. field. lra. }
  split; [|split].
  - intros s Hs. rewrite (gauss_closed n w res s Hs Hw). fold S. rewrite LL'.
    set (u := S / INR n / s).
    assert (Su : 0 < S / INR n) by (apply Rdiv_lt_0_compat; auto).
    assert (Up : 0 < u) by (apply Rdiv_lt_0_compat; auto).
    pose proof (ln_le_sub u Up) as U. unfold u in U. unfold Rdiv in U at 1. rewrite ln_mult in U by (auto; apply Rinv_0_lt_compat; auto). rewrite ln_Rinv in U by auto.
    assert (V : S / (2 * s) = INR n / 2 * (S / INR n / s)) by (field; lra).
    assert (V2 : S / (2 * (S / INR n)) = INR n / 2) by (field; lra).
    rewrite V, V2. fold u. fold u in U. nra.
  - exists (S / INR n). assert (Su : 0 < S / INR n) by (apply Rdiv_lt_0_compat; auto). split; auto.
    rewrite (gauss_closed n w res _ Su Hw). fold S. rewrite LL'. reflexivity.
  - rewrite AA, BB. split; [reflexivity|]. unfold K. fold n. ring.
Qed.

(** With WEIGHT the value given as WSSE is not the weighted sum of squares that is minimized (sum of residual^2 / error^2) over the degrees of freedom:
    every residual is divided by the square of its error before it is squared. *)
Theorem C53_wsse_refuted : forall erf tppf t d order cycles terms es rel stdev conf aicc q,
  run erf tppf t d order cycles terms (Array es) true rel stdev conf aicc = Ok q -> (forall e, In e es -> e <> 0) ->
  r_mse q = rsum (length t) (fun i => (val (f_residual (r_fit q)) i / val es i ^ 2) ^ 2) / IZR (f_dof (r_fit q)) /\
  ((forall e, In e es -> e = 1 \/ e = -1) -> r_mse q = rsum (length t) (fun i => val (f_residual (r_fit q)) i ^ 2 / val es i ^ 2) / IZR (f_dof (r_fit q))).
Proof.
  intros erf tppf t d order cycles terms es rel stdev conf aicc q Q NZ.
  destruct (regress_core _ _ _ _ _ _ _ _ _ _ _ _ _ _ Q) as (r & s0 & Er & _ & EF & C & _).
  pose proof (core_weights _ _ _ _ _ _ _ C NZ) as W.
  assert (M : r_mse q = rsum (length t) (fun i => (val (f_residual (r_fit q)) i / val es i ^ 2) ^ 2) / IZR (f_dof (r_fit q))).
  { rewrite epoch_iff in Er. unfold run, regress in Q. destruct (Nat.eqb_spec (length t) 1); [congruence|]. rewrite Er in Q. cbn [bind] in Q. rewrite EF in Q. cbn [bind] in Q.
    assert (X : forall a b : regression, Ok a = Ok b -> b = a) by congruence. apply X in Q.
    assert (RM : r_mse q = rsum (length t) (fun i => (f_w (r_fit q) i * at_ (f_residual (r_fit q)) i) * (f_w (r_fit q) i * at_ (f_residual (r_fit q)) i)) / IZR (f_dof (r_fit q))) by (rewrite Q; reflexivity).
    rewrite RM. f_equal. apply rsum_ext. intros i Li. destruct (W i Li) as [-> _]. cbn [weights]. unfold val, at_, Rdiv. ring. }
  split; [exact M|]. intros U. rewrite M. f_equal. apply rsum_ext. intros i Li.
  destruct C as (_ & _ & _ & _ & _ & _ & _ & _ & _ & _ & W1 & _ & _). destruct (W1 eq_refl) as (es' & E1 & _ & L & _).
  injection E1 as <-. assert (I : In (val es i) es). { unfold val. apply nth_In. lia. }
  destruct (U _ I) as [-> | ->]; field.
Qed.
Print Assumptions C53_wsse_refuted.
(** Side effect: with WEIGHT, zero entries of the caller's error array are overwritten by 2^-52 and the others are kept;
    without WEIGHT the argument is untouched. *)
Theorem C53_data_err_modified : forall erf tppf t d order cycles terms err weight rel stdev conf aicc q,
  run erf tppf t d order cycles terms err weight rel stdev conf aicc = Ok q ->
  (weight = false -> f_data_err (r_fit q) = err) /\
  (weight = true -> exists es es', err = Array es /\ f_data_err (r_fit q) = Array es' /\ length es = length t /\ length es' = length t /\
     forall i, (i < length t)%nat -> (val es i <> 0 -> val es' i = val es i) /\ (val es i = 0 -> val es' i = / 2 ^ 52)).
Proof.
  intros erf tppf t d order cycles terms err weight rel stdev conf aicc q Q.
  destruct (regress_core _ _ _ _ _ _ _ _ _ _ _ _ _ _ Q) as (r & s & _ & _ & _ & C & _).
  destruct C as (_ & _ & _ & _ & _ & _ & _ & _ & _ & W0 & W1 & _). split.
  - intros H. apply W0; auto.
  - intros H. destruct (W1 H) as (es & E1 & E2 & L & _). exists es, (map fixed es). rewrite map_length. repeat split; auto.
    + intros NZ. unfold val. change (nth i ?l 0) with (at_ l i) in *. rewrite at_map by lia. unfold fixed. destruct (Req_EM_T (at_ es i) 0); auto. contradiction.
    + intros Z. unfold val in *. change (nth i ?l 0) with (at_ l i) in *. rewrite at_map by lia. unfold fixed. destruct (Req_EM_T (at_ es i) 0); auto. contradiction.
Qed.

(** the fit is linear in the data *)
Theorem C53_linear : forall erf tppf t d e f order cycles terms err weight rel stdev conf aicc qd qe qf a c,
  run erf tppf t d order cycles terms err weight rel stdev conf aicc = Ok qd ->
  run erf tppf t e order cycles terms err weight rel stdev conf aicc = Ok qe ->
  run erf tppf t f order cycles terms err weight rel stdev conf aicc = Ok qf ->
  (forall i, (i < length t)%nat -> val f i = a * val d i + c * val e i) ->
  forall j, (j < nterms order cycles terms)%nat ->
  val (f_beta (r_fit qf)) j = a * val (f_beta (r_fit qd)) j + c * val (f_beta (r_fit qe)) j.
Proof.
  intros erf tppf t d e f order cycles terms err weight rel stdev conf aicc qd qe qf a c Qd Qe Qf H j Lj.
  destruct (regress_core _ _ _ _ _ _ _ _ _ _ _ _ _ _ Qd) as (r & s & Er & _ & _ & C & _).
  destruct (regress_core _ _ _ _ _ _ _ _ _ _ _ _ _ _ Qe) as (re & se & Ere & _ & _ & Ce & _).
  destruct (regress_core _ _ _ _ _ _ _ _ _ _ _ _ _ _ Qf) as (rf & sf & Erf & _ & _ & Cf & _).
  rewrite epoch_iff in *. assert (re = r) by congruence. assert (rf = r) by congruence. subst re rf.
  set (D := design order r t cycles terms) in *.
  assert (LDs : length D = nterms order cycles terms) by apply design_length.
  assert (I : independent (length D) (length t) (fun j i => s i * col D j i)).
  { destruct C as (_ & _ & _ & _ & _ & _ & _ & _ & _ & _ & _ & _ & G). apply gram_inv, inv_complete. eexists; exact G. }
  destruct C as (_ & _ & _ & _ & _ & _ & _ & _ & _ & W0 & W1 & B & _).
  destruct Ce as (_ & _ & _ & _ & _ & _ & _ & _ & _ & W0e & W1e & Be & _).
  destruct Cf as (_ & _ & _ & _ & _ & _ & _ & _ & _ & W0f & W1f & Bf & _).
  assert (SE : (forall i, se i = s i) /\ (forall i, sf i = s i)).
  { destruct weight.
    - destruct (W1 eq_refl) as (x & X1 & _ & _ & X2). destruct (W1e eq_refl) as (y & Y1 & _ & _ & Y2). destruct (W1f eq_refl) as (z & Z1 & _ & _ & Z2).
      assert (y = x) by congruence. assert (z = x) by congruence. subst. split; intros; congruence.
    - destruct (W0 eq_refl) as [X _]. destruct (W0e eq_refl) as [Y _]. destruct (W0f eq_refl) as [Z _]. split; intros; rewrite X, ?Y, ?Z; auto. }
  destruct SE as [SE SF]. rewrite LDs in *. unfold val. change (nth j ?l 0) with (at_ l j).
  rewrite B, Be, Bf by auto.
  rewrite (lsq_ext _ _ (fun j i => se i * col D j i) (fun j i => s i * col D j i) (fun i => se i * at_ e i) (fun i => s i * at_ e i)) by (auto; intros; rewrite SE; reflexivity).
  rewrite <- lsq_linear by auto. apply lsq_ext; auto; intros; rewrite SF; auto.
  unfold at_. fold (val f i). rewrite H by auto. unfold val. ring.
Qed.

(** every hypothesis is met: 4 epochs, a straight line plus noise *)
Example C53_nonvacuous : exists q, run (fun x => x) (fun _ _ => 2) [0; 1; 2; 4] [1; 3; 2; 7] 1 [] [] (Scalar 0) false RelAll 0 0 true = Ok q /\
  exists q', run (fun x => x) (fun _ _ => 2) [0; 1; 2; 4] [1; 3; 2; 7] 1 [] [] (Array [1; 2; 1; 3]) true (RelVal 1) 0 0 true = Ok q'.
Proof.
  assert (ND : NoDup [0; 1; 2; 4]). { repeat constructor; cbn; intuition lra. }
  assert (E1 : exists q, run (fun x => x) (fun _ _ => 2) [0; 1; 2; 4] [1; 3; 2; 7] 1 [] [] (Scalar 0) false RelAll 0 0 true = Ok q).
  { apply (proj1 (C53_returns (fun x => x) (fun _ _ => 2) [0; 1; 2; 4] [1; 3; 2; 7] 1 [] [] 0 RelAll 0 0 true (mean_ [0;1;2;4])
      ltac:(cbn; lia) eq_refl ltac:(cbn; tauto) eq_refl)).
    split; [apply C53_polynomial_identifiable; [exact ND|cbn; lia]|cbn; lia]. }
  destruct E1 as [q Hq]. exists q. split; auto.
  apply (proj1 (proj2 (C53_returns (fun x => x) (fun _ _ => 2) [0; 1; 2; 4] [1; 3; 2; 7] 1 [] [] 0 (RelVal 1) 0 0 true 1
      ltac:(cbn; lia) eq_refl ltac:(cbn; tauto) eq_refl)) [1; 2; 1; 3] eq_refl).
  split; [apply C53_polynomial_identifiable; [exact ND|cbn; lia]|cbn; lia].
Qed.
