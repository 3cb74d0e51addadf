(** Property C114: theorems (specification in PropMc: disturbed, start, removed, ordinary). *)
From Coq Require Import Reals Lra Lia String List ZifyBool ZifyNat FunctionalExtensionality.
From Coquelicot Require Import Coquelicot.
From Verif Require Import Base UnitsModel PropSle Arr SummationModel SummationProofs GenModel DestripeModel DestripeProofs LinAlg PropSmooth MasconFitModel DegreeOneModel DegreeOneProofs PropDegreeOne McModel PropMc.
Import ListNotations.
Close Scope Z_scope.
Close Scope string_scope.
Open Scope R_scope.

(** every run closes the mass budget of its disturbed data, with degree one coefficients Z of zero mean; stored is Z less the part (1 - 1/water) of the GIA and atmosphere coefficients *)
Theorem C114_balance : forall m w, ordinary m w -> spread (m_run m) -> known (r_solver (m_run m)) -> (r_fingerprint (m_run m) = true -> nth 0 (kl (m_run m)) 0 = 0) ->
  exists avg err nc, monte_carlo m = Ok (avg, err, nc) /\
    forall n, (n < m_runs m)%nat -> exists Z k,
      (forall t, (t < r_n (m_run m))%nat -> closes (disturbed m n) w (start m n) Z k t) /\ (forall c, sumn (r_n (m_run m)) (Z c) = 0) /\
      forall c t, (c < 3)%nat -> (t < r_n (m_run m))%nat ->
        nc n c t = Z c t - (1 - / water (m_run m) 1) * (removed (m_run m) c t - mean (r_n (m_run m)) (removed (m_run m) c)).
Proof.
  intros m w O HS K K0. destruct (runs_ok m w O HS K K0) as (s & EP & G & W1 & (avg & err & nc & EM & N1 & _) & MO). exists avg, err, nc. split; [exact EM|]. intros n Hn.
  set (r := m_run m) in *. set (W := water r 1) in *.
  set (raw := fun c t => value m s n t c / W + removed r c t). exists (fun c t => raw c t - mean (r_n r) (raw c)), (fun c => mean (r_n r) (raw c)). split; [|split].
  - intros t Ht. destruct (MO n t Ht) as [(h & H1 & H2 & H3) _]. exists h. split; [exact H1|]. split; [exact H2|]. intros c Hc. rewrite <- (H3 c Hc). apply sea_ext. intros i j _ _. f_equal. f_equal. unfold total. f_equal.
    change (water (disturbed m n) 1) with W. change (r_gia (disturbed m n)) with (r_gia r). change (r_atm (disturbed m n)) with (r_atm r). unfold raw, removed. cbn [sumn]. field. exact W1.
  - intros c. apply mean_zero.
  - intros c t Hc Ht. rewrite N1 by exact Hn. fold W.
    assert (E1 : forall t, value m s n t c + removed r c t = 1 * value m s n t c + 1 * removed r c t) by (intros; ring).
    rewrite (centred_ext _ _ _ t Ht (fun t _ => E1 t)), (centred_lin (r_n r) (fun t => value m s n t c) (removed r c)).
    assert (E2 : mean (r_n r) (raw c) = / W * mean (r_n r) (fun t => value m s n t c) + 1 * mean (r_n r) (removed r c)).
    { rewrite <- mean_lin. apply mean_ext. intros. unfold raw. unfold Rdiv. ring. }
    rewrite E2. unfold raw, centred. field. exact W1.
Qed.

Lemma dist_valid m n w : valid (m_run m) w -> valid (disturbed m n) w.
Proof. intros V. exact (Build_valid (disturbed m n) w (v_grid _ _ V) (v_shape _ _ V) (v_exp _ _ V) (v_lmax _ _ V) (v_mmax _ _ V) (v_love _ _ V) (v_k _ _ V) (v_smooth _ _ V)). Qed.

(** refuted: the degree one coefficients of GIA and atmosphere should be restored.  They are added before the division by the mass factor, so that the stored run
    closes the budget only if they do not change over the months (or the factor is 1) *)
Theorem C114_gia_refuted : forall m w avg err nc n, ordinary m w -> spread (m_run m) -> known (r_solver (m_run m)) -> r_fingerprint (m_run m) = false ->
  monte_carlo m = Ok (avg, err, nc) -> (n < m_runs m)%nat -> (0 < r_n (m_run m))%nat ->
  ((exists k, forall t, (t < r_n (m_run m))%nat -> closes (disturbed m n) w (start m n) (nc n) k t) <->
   (water (m_run m) 1 = 1 \/ forall c t, (c < 3)%nat -> (t < r_n (m_run m))%nat -> removed (m_run m) c t = mean (r_n (m_run m)) (removed (m_run m) c))).
Proof.
  intros m w avg err nc n O HS K EF EM Hn HN. destruct (C114_balance m w O HS K) as (avg' & err' & nc' & EM' & B); [intros X; rewrite EF in X; discriminate|].
  assert (nc' = nc) by congruence. subst nc'. destruct (B n Hn) as (Z & k & H1 & H2 & H3). destruct O as [V L2]. destruct (water1 (m_run m) w V) as [W1 _].
  set (r := m_run m) in *. set (W := water r 1) in *. set (N := r_n r) in *.
  assert (V' : valid (disturbed m n) w) by now apply dist_valid. assert (HS' : spread (disturbed m n)) by exact HS.
  assert (NZ : INR N <> 0) by (apply not_0_INR; lia). split.
  - intros [k' HC]. destruct (Req_dec W 1) as [E|NE]; [left; exact E|right]. intros c t Hc Ht.
    assert (U : forall t, (t < N)%nat -> nc n c t + k' c = Z c t + k c) by (intros t' Ht'; exact (C96_unique (disturbed m n) w (start m n) (nc n) Z k' k t' V' HS' EF (HC t' Ht') (H1 t' Ht') c Hc)).
    assert (Q : forall t, (t < N)%nat -> (1 - / W) * (removed r c t - mean N (removed r c)) = k' c - k c). { intros t' Ht'. specialize (U t' Ht'). rewrite (H3 c t' Hc Ht') in U. lra. }
    assert (S0 : sumn N (fun t => (1 - / W) * (removed r c t - mean N (removed r c))) = INR N * (k' c - k c)) by (rewrite (sumn_ext _ _ _ Q), FourierGenProofs.sumn_const; reflexivity).
    rewrite sumn_scal, mean_zero, Rmult_0_r in S0. assert (k' c - k c = 0) by (symmetry in S0; apply Rmult_integral in S0; tauto). specialize (Q t Ht). rewrite H in Q. apply Rmult_integral in Q. destruct Q as [Q|Q]; [|lra].
    exfalso. apply NE. assert (/ W = 1) by lra. rewrite <- (Rinv_inv W), H0. field.
  - intros D. exists k. intros t Ht. destruct (H1 t Ht) as (h & A1 & A2 & A3). exists h. split; [exact A1|]. split; [exact A2|]. intros c Hc. rewrite <- (A3 c Hc). apply sea_ext. intros i j _ _. f_equal. f_equal. unfold total. f_equal. f_equal.
    apply sumn_ext. intros b Hb. rewrite (H3 b t Hb Ht). assert (X : (1 - / W) * (removed r b t - mean N (removed r b)) = 0); [|rewrite X; ring].
    destruct D as [E|D]; [rewrite E, Rinv_1; ring|]. rewrite (D b t Hb Ht). ring.
Qed.

(** the text file holds the mean of the runs of the netCDF file and their standard deviation; without runs there is no number *)
Theorem C114_text : forall m w avg err nc, ordinary m w -> spread (m_run m) -> known (r_solver (m_run m)) -> (r_fingerprint (m_run m) = true -> nth 0 (kl (m_run m)) 0 = 0) ->
  0 < 1 + nth 1 (kl (m_run m)) 0 -> monte_carlo m = Ok (avg, err, nc) ->
  (m_runs m = 0%nat -> forall c t, avg c t = None /\ err c t = None) /\
  ((0 < m_runs m)%nat -> forall c t, exists a, avg c t = Some a /\ a = sumn (m_runs m) (fun n => nc n c t) / INR (m_runs m) /\
    err c t = Some (sqrt (sumn (m_runs m) (fun n => (nc n c t - a) ^ 2) / INR (m_runs m)))).
Proof.
  intros m w avg err nc O HS K K0 K1 EM. destruct (runs_ok m w O HS K K0) as (s & EP & G & W1 & (avg' & err' & nc' & EM' & N1 & N2 & N3) & _).
  assert (avg' = avg /\ err' = err /\ nc' = nc) as (-> & -> & ->) by (rewrite EM in EM'; repeat split; congruence).
  split.
  - intros Z c t. rewrite N2, N3, Z. split; reflexivity.
  - intros P c t. rewrite N2, N3. replace (m_runs m =? 0)%nat with false by lia. eexists. split; [reflexivity|].
    assert (EA : mean (m_runs m) (fun n => centred (r_n (m_run m)) (fun t => value m s n t c + removed (m_run m) c t) t / water (m_run m) 1) = sumn (m_runs m) (fun n => nc n c t) / INR (m_runs m)).
    { unfold mean. f_equal. apply sumn_ext. intros n Hn. now rewrite N1. }
    split; [exact EA|]. f_equal.
    assert (WP : 0 < water (m_run m) 1). { unfold water. fold (kl (m_run m)). pose proof (rho_e_pos (r_lmax (m_run m))). pose proof (rad_e_pos (r_lmax (m_run m))). change (INR 1) with 1. apply Rdiv_lt_0_compat; [apply Rmult_lt_0_compat; [apply Rmult_lt_0_compat|]|]; lra. }
    set (W := water (m_run m) 1) in *.
    transitivity (1 / W * sqrt (W ^ 2 * (sumn (m_runs m) (fun n => (nc n c t - mean (m_runs m) (fun n => centred (r_n (m_run m)) (fun t => value m s n t c + removed (m_run m) c t) t / W)) ^ 2) / INR (m_runs m)))).
    + f_equal. f_equal. unfold Rdiv. rewrite <- Rmult_assoc. f_equal. rewrite <- sumn_scal. apply sumn_ext. intros n Hn. rewrite N1 by exact Hn. unfold centred. unfold Rdiv. ring.
    + assert (PR : 0 < INR (m_runs m)) by (apply lt_0_INR; lia). rewrite sqrt_mult.
      * rewrite (sqrt_pow2 W) by lra. field. lra.
      * apply pow2_ge_0.
      * apply Rmult_le_pos; [apply sumn_pos; intros; apply pow2_ge_0|left; now apply Rinv_0_lt_compat].
Qed.

(** ** the errors come from the noise alone (uniform ocean layer) *)
Definition with_data (m : mc) (gsm gia atm : nat -> coefs) (time : nat -> R) : mc :=
  mkmc (mkrun (r_lon (m_run m)) (r_lat (m_run m)) (r_mask (m_run m)) (r_lmax (m_run m)) (r_mmax (m_run m)) (r_exp (m_run m)) (r_love (m_run m)) (r_rad (m_run m)) (r_n (m_run m))
    gsm gia atm (r_gac (m_run m)) (r_guess (m_run m)) (r_obp (m_run m)) (r_fingerprint (m_run m)) (r_iterative (m_run m)) (r_solver (m_run m))) time (m_runs m) (m_delta m) (m_errors m) (m_rand m).
Definition with_noise (m : mc) (a : R) : mc :=
  mkmc (m_run m) (m_time m) (m_runs m) (fun cs l o => a * m_delta m cs l o) (map (fun Y cs l o => a * Y cs l o) (m_errors m)) (m_rand m).
Lemma moments_plus r w Y Y' c : moments r w (fun cs l o => Y cs l o + Y' cs l o) c = moments r w Y c + moments r w Y' c.
Proof. replace (fun cs l o => Y cs l o + Y' cs l o) with (fun (cs : bool) l o => 1 * Y cs l o + 1 * Y' cs l o) by (do 3 (apply functional_extensionality; intros); ring). rewrite moments_lin. ring. Qed.
Lemma moments_scal r w Y a c : moments r w (fun cs l o => a * Y cs l o) c = a * moments r w Y c.
Proof. replace (fun cs l o => a * Y cs l o) with (fun (cs : bool) l o => a * Y cs l o + 0 * Y cs l o) by (do 3 (apply functional_extensionality; intros); ring). rewrite moments_lin. ring. Qed.
Lemma noise_scale m a n t : noise (with_noise m a) n t = fun cs l o => a * noise m n t cs l o.
Proof.
  do 3 (apply functional_extensionality; intros). unfold noise. cbn [with_noise m_errors m_delta m_rand]. rewrite map_length.
  match goal with |- fold_left _ _ ?u = _ * fold_left _ _ ?v => replace u with (a * v) by ring; generalize v end.
  generalize 1%nat. induction (m_errors m) as [|Y l IH]; intros k v; [reflexivity|]. cbn [List.length seq map combine fold_left fst snd].
  rewrite <- IH. f_equal. ring.
Qed.
(** differences between runs *)
Lemma spread_runs m w : ordinary m w -> spread (m_run m) -> known (r_solver (m_run m)) -> r_fingerprint (m_run m) = false -> exists s B avg err nc, monte_carlo m = Ok (avg, err, nc) /\ water (m_run m) 1 <> 0 /\
  mc_prepare (m_run m) = Ok s /\ inv 3 (imat (m_run m) s) = Ok B /\
  (exists d, forall n c t, (n < m_runs m)%nat -> (c < 3)%nat -> (t < r_n (m_run m))%nat -> nc n c t = d c t + centred (r_n (m_run m)) (fun t => rsum 3 (fun b => B c b * (- moments (m_run m) w (noise m n t) b / (4 * PI)))) t / water (m_run m) 1) /\
  forall c t, err c t = if (m_runs m =? 0)%nat then None else
    Some (1 / water (m_run m) 1 * sqrt (sumn (m_runs m) (fun n => (water (m_run m) 1 * centred (m_runs m) (fun n => nc n c t) n) ^ 2) / INR (m_runs m))).
Proof.
  intros O HS K EF. destruct (runs_ok m w O HS K) as (s & EP & G & W1 & (avg & err & nc & EM & N1 & N2 & N3) & MO); [intros X; rewrite EF in X; discriminate|].
  pose proof O as [V L2]. pose proof (upto_valid _ w V L2) as V'. destruct (proj2 (inv_spread (upto (m_run m)) w s V' G) HS) as [B EB]. change (imat (upto (m_run m)) s) with (imat (m_run m) s) in EB.
  pose proof (inv_ok _ _ _ EB) as HB.
  assert (X : forall v c, (c < 3)%nat -> rsum 3 (fun b => imat (m_run m) s c b * rsum 3 (fun a => B b a * v a)) = v c).
  { intros v c Hc. transitivity (rsum 3 (fun a => mmul 3 (imat (m_run m) s) B c a * v a)).
    - unfold mmul. cbn [rsum]. ring.
    - rewrite (rsum_ext 3 _ (fun a => LinAlg.delta c a * v a)) by (intros; now rewrite HB). destruct c as [|[|[|c]]]; [| | |lia]; cbn; ring. }
  set (r := m_run m) in *. set (W := water r 1) in *. set (A := fun t c => rsum 3 (fun b => B c b * (- moments r w (on_land m t) b / (4 * PI)))). set (E := fun n t c => rsum 3 (fun b => B c b * (- moments r w (noise m n t) b / (4 * PI)))).
  assert (VE : forall n t c, (t < r_n r)%nat -> (c < 3)%nat -> value m s n t c = A t c + E n t c).
  { intros n t c Ht Hc. apply (solve_uniq (upto r) w s V' G (fun c => value m s n t c) (fun c => A t c + E n t c) HS); [|exact Hc]. intros a Ha. change (imat (upto r) s) with (imat r s).
    destruct (MO n t Ht) as [_ Q]. rewrite (Q EF a Ha). rewrite moments_plus.
    transitivity (rsum 3 (fun b => imat r s a b * A t b) + rsum 3 (fun b => imat r s a b * E n t b)); [|cbn [rsum]; ring]. unfold A, E.
    rewrite (X (fun b => - moments r w (on_land m t) b / (4 * PI)) a Ha), (X (fun b => - moments r w (noise m n t) b / (4 * PI)) a Ha). unfold Rdiv. ring. }
  exists s, B, avg, err, nc. split; [exact EM|]. split; [exact W1|]. split; [exact EP|]. split; [exact EB|]. split.
  - exists (fun c t => centred (r_n r) (fun t => A t c + removed r c t) t / W). intros n c t Hn Hc Ht. rewrite N1 by exact Hn.
    rewrite (centred_ext (r_n r) (fun t => value m s n t c + removed r c t) (fun t => 1 * (A t c + removed r c t) + 1 * E n t c) t Ht) by (intros; rewrite VE by assumption; ring).
    rewrite centred_lin. unfold E, Rdiv. ring.
  - intros c t. rewrite N3. destruct (m_runs m =? 0)%nat; [reflexivity|]. f_equal. f_equal. f_equal. unfold Rdiv at 1 3. f_equal. apply sumn_ext. intros n Hn. f_equal. f_equal. apply centred_ext; [exact Hn|]. intros n' Hn'. now rewrite N1.
Qed.
Lemma err_same M (W : R) f g : (forall n n', (n < M)%nat -> (n' < M)%nat -> f n - f n' = g n - g n') -> forall n, (n < M)%nat -> centred M f n = centred M g n.
Proof.
  intros H n Hn. unfold centred. replace (mean M f) with (mean M (fun k => 1 * g k + (f n - g n) * 1)).
  - rewrite (mean_lin M g (fun _ => 1)), mean_const by lia. ring.
  - apply mean_ext. intros k Hk. specialize (H n k Hn Hk). lra.
Qed.

(** other data (GRACE, GIA, atmosphere, dates) with the same draws and error files: the same errors, and the runs differ from each other in the same way *)
Theorem C114_errors_of_data : forall m w gsm gia atm time avg err nc, ordinary m w -> spread (m_run m) -> known (r_solver (m_run m)) -> r_fingerprint (m_run m) = false ->
  monte_carlo m = Ok (avg, err, nc) ->
  exists avg' err' nc', monte_carlo (with_data m gsm gia atm time) = Ok (avg', err', nc') /\
    (forall c t, (c < 3)%nat -> (t < r_n (m_run m))%nat -> err' c t = err c t) /\
    forall n n' c t, (n < m_runs m)%nat -> (n' < m_runs m)%nat -> (c < 3)%nat -> (t < r_n (m_run m))%nat -> nc' n c t - nc' n' c t = nc n c t - nc n' c t.
Proof.
  intros m w gsm gia atm time avg err nc O HS K EF EM. set (m' := with_data m gsm gia atm time).
  assert (O' : ordinary m' w). { destruct O as [V L2]. split; [exact (Build_valid (m_run m') w (v_grid _ _ V) (v_shape _ _ V) (v_exp _ _ V) (v_lmax _ _ V) (v_mmax _ _ V) (v_love _ _ V) (v_k _ _ V) (v_smooth _ _ V))|exact L2]. }
  destruct (spread_runs m w O HS K EF) as (s & B & avg1 & err1 & nc1 & E1 & W1 & EP & EB & (d & H1) & H2). assert (err1 = err /\ nc1 = nc) as (-> & ->) by (split; congruence).
  destruct (spread_runs m' w O' HS K EF) as (s' & B' & avg' & err' & nc' & E1' & _ & EP' & EB' & (d' & H1') & H2').
  change (mc_prepare (m_run m')) with (mc_prepare (m_run m)) in EP'. assert (s' = s) by congruence. subst s'. change (imat (m_run m') s) with (imat (m_run m) s) in EB'. assert (B' = B) by congruence. subst B'.
  assert (DF : forall n n' c t, (n < m_runs m)%nat -> (n' < m_runs m)%nat -> (c < 3)%nat -> (t < r_n (m_run m))%nat -> nc' n c t - nc' n' c t = nc n c t - nc n' c t).
  { intros n n' c t Hn Hn' Hc Ht. rewrite (H1 n c t Hn Hc Ht), (H1 n' c t Hn' Hc Ht), (H1' n c t Hn Hc Ht), (H1' n' c t Hn' Hc Ht).
    change (water (m_run m') 1) with (water (m_run m) 1). change (moments (m_run m')) with (moments (m_run m)). change (noise m') with (noise m). change (r_n (m_run m')) with (r_n (m_run m)). ring. }
  exists avg', err', nc'. split; [exact E1'|]. split; [|exact DF]. intros c t Hc Ht. rewrite H2, H2'. change (m_runs m') with (m_runs m). destruct (m_runs m =? 0)%nat; [reflexivity|]. change (water (m_run m') 1) with (water (m_run m) 1).
  f_equal. f_equal. f_equal. f_equal. apply sumn_ext. intros n Hn. rewrite (err_same (m_runs m) 1 (fun n => nc' n c t) (fun n => nc n c t)); [reflexivity| |exact Hn]. intros; now apply DF.
Qed.
(** error files and standard deviations multiplied by a: the errors are multiplied by its absolute value *)
Theorem C114_errors_scale : forall m w a avg err nc, ordinary m w -> spread (m_run m) -> known (r_solver (m_run m)) -> r_fingerprint (m_run m) = false ->
  monte_carlo m = Ok (avg, err, nc) ->
  exists avg' err' nc', monte_carlo (with_noise m a) = Ok (avg', err', nc') /\
    forall c t, (c < 3)%nat -> (t < r_n (m_run m))%nat -> err' c t = match err c t with Some e => Some (Rabs a * e) | None => None end.
Proof.
  intros m w a avg err nc O HS K EF EM. set (m' := with_noise m a). assert (O' : ordinary m' w) by exact O.
  destruct (spread_runs m w O HS K EF) as (s & B & avg1 & err1 & nc1 & E1 & W1 & EP & EB & (d & H1) & H2). assert (err1 = err /\ nc1 = nc) as (-> & ->) by (split; congruence).
  destruct (spread_runs m' w O' HS K EF) as (s' & B' & avg' & err' & nc' & E1' & _ & EP' & EB' & (d' & H1') & H2').
  change (m_run m') with (m_run m) in *. assert (s' = s) by congruence. subst s'. assert (B' = B) by congruence. subst B'.
  exists avg', err', nc'. split; [exact E1'|]. intros c t Hc Ht. rewrite H2, H2'. change (m_runs m') with (m_runs m). destruct (m_runs m =? 0)%nat eqn:E0; [reflexivity|]. f_equal.
  set (W := water (m_run m) 1) in *. set (N := r_n (m_run m)) in *.
  assert (DF : forall n, (n < m_runs m)%nat -> centred (m_runs m) (fun n => nc' n c t) n = a * centred (m_runs m) (fun n => nc n c t) n).
  { intros n Hn. set (q := fun n => centred N (fun t => rsum 3 (fun b => B c b * (- moments (m_run m) w (noise m n t) b / (4 * PI)))) t / W).
    transitivity (centred (m_runs m) (fun n => a * q n + 0 * 0) n).
    - apply (err_same (m_runs m) 1); [|exact Hn]. intros k k' Hk Hk'. rewrite (H1' k c t Hk Hc Ht), (H1' k' c t Hk' Hc Ht).
      assert (Q : forall n, centred N (fun t => rsum 3 (fun b => B c b * (- moments (m_run m) w (noise m' n t) b / (4 * PI)))) t / W = a * q n).
      { intros j. unfold q. rewrite (centred_ext N _ (fun t => a * rsum 3 (fun b => B c b * (- moments (m_run m) w (noise m j t) b / (4 * PI))) + 0 * 0) t Ht).
        - rewrite (centred_lin N _ (fun _ => 0)). unfold Rdiv. ring.
        - intros t' _. unfold m'. rewrite noise_scale. cbn [rsum]. rewrite !moments_scal. unfold Rdiv. ring. }
      rewrite !Q. ring.
    - rewrite (centred_lin (m_runs m) q (fun _ => 0)). rewrite Rmult_0_l, Rplus_0_r. f_equal. apply (err_same (m_runs m) 1); [|exact Hn]. intros k k' Hk Hk'. rewrite (H1 k c t Hk Hc Ht), (H1 k' c t Hk' Hc Ht). unfold q. ring. }
  rewrite (sumn_ext (m_runs m) (fun n => (W * centred (m_runs m) (fun n => nc' n c t) n) ^ 2) (fun n => a ^ 2 * (W * centred (m_runs m) (fun n => nc n c t) n) ^ 2)) by (intros; rewrite DF by assumption; ring).
  rewrite sumn_scal. unfold Rdiv at 2. rewrite Rmult_assoc, sqrt_mult.
  - rewrite <- Rsqr_pow2, sqrt_Rsqr_abs. unfold Rdiv. ring.
  - apply pow2_ge_0.
  - apply Rmult_le_pos; [apply sumn_pos; intros; apply pow2_ge_0|left; apply Rinv_0_lt_compat, lt_0_INR; lia].
Qed.
(** without noise: no error, and (GIA and atmosphere without degree one) the solution of calc_degree_one.py without iterations *)
Definition plain (m : mc) : run :=
  mkrun (r_lon (m_run m)) (r_lat (m_run m)) (r_mask (m_run m)) (r_lmax (m_run m)) (r_mmax (m_run m)) (r_exp (m_run m)) (r_love (m_run m)) (r_rad (m_run m)) (r_n (m_run m))
    (r_gsm (m_run m)) (r_gia (m_run m)) (r_atm (m_run m)) (r_gac (m_run m)) (seasonal (r_n (m_run m)) (m_time m)) false (r_fingerprint (m_run m)) false (r_solver (m_run m)).
Lemma noise_zero m n t : (forall cs l o, m_delta m cs l o = 0) -> Forall (fun Y => forall cs l o, Y cs l o = 0) (m_errors m) -> forall cs l o, noise m n t cs l o = 0.
Proof.
  intros H F cs l o. unfold noise. rewrite H, Rmult_0_r. generalize 1%nat. induction F as [|Y ys HY _ IH]; intros k; [reflexivity|]. cbn [List.length seq combine fold_left fst snd]. rewrite HY, Rmult_0_r, Rplus_0_r. apply IH.
Qed.
Theorem C114_no_noise : forall m w, ordinary m w -> spread (m_run m) -> known (r_solver (m_run m)) -> r_fingerprint (m_run m) = false -> (0 < m_runs m)%nat -> (0 < r_n (m_run m))%nat ->
  (forall cs l o, m_delta m cs l o = 0) -> Forall (fun Y => forall cs l o, Y cs l o = 0) (m_errors m) -> (forall c t, removed (m_run m) c t = 0) ->
  exists avg err nc deg1 aod its gac, monte_carlo m = Ok (avg, err, nc) /\ calc_degree_one (plain m) = Ok (deg1, aod, its, gac) /\
    forall c t, (c < 3)%nat -> (t < r_n (m_run m))%nat -> err c t = Some 0 /\ avg c t = Some (deg1 c t) /\ forall n, (n < m_runs m)%nat -> nc n c t = deg1 c t.
Proof.
  intros m w O HS K EF PR HN D0 F0 R0. destruct (C114_balance m w O HS K) as (avg & err & nc & EM & BB); [intros X; rewrite EF in X; discriminate|].
  destruct (runs_ok m w O HS K) as (s & EP & G & W1 & (avg' & err' & nc' & EM' & N1 & N2 & N3) & _); [intros X; rewrite EF in X; discriminate|].
  assert (avg' = avg /\ err' = err /\ nc' = nc) as (-> & -> & ->) by (rewrite EM in EM'; repeat split; congruence).
  pose proof O as [V L2]. assert (VP : valid (plain m) w) by exact (Build_valid (plain m) w (v_grid _ _ V) (v_shape _ _ V) (v_exp _ _ V) (v_lmax _ _ V) (v_mmax _ _ V) (v_love _ _ V) (v_k _ _ V) (v_smooth _ _ V)).
  destruct (C96_balance (plain m) w VP eq_refl HS K) as (deg1 & aod & its & gac & EC & LI & ED & CB & CZ); [intros X; cbn in X; rewrite EF in X; discriminate|].
  unfold max_iter in LI. cbn [plain r_iterative] in LI. assert (L1 : List.length its = 1%nat) by lia. destruct its as [|d1 [|? ?]]; cbn in L1; try lia. cbn [last] in ED. subst d1.
  destruct (CB 0%nat ltac:(cbn; lia)) as [k HC]. cbn [nth] in HC. specialize (CZ 0%nat).
  set (r := m_run m) in *. set (N := r_n r) in *. assert (NZ : INR N <> 0) by (apply not_0_INR; lia).
  assert (EQ : forall n c t, (n < m_runs m)%nat -> (c < 3)%nat -> (t < N)%nat -> nc n c t = deg1 c t).
  { intros n c t Hn Hc Ht. destruct (BB n Hn) as (Z & kz & Z1 & Z2 & Z3). rewrite (Z3 c t Hc Ht).
    assert (U : forall t, (t < N)%nat -> Z c t + kz c = deg1 c t + k c).
    { intros t' Ht'. apply (C96_unique (disturbed m n) w (start m n) Z deg1 kz k t' (dist_valid m n w V) HS EF (Z1 t' Ht')); [|exact Hc].
      destruct (HC t' Ht') as (h & A1 & A2 & A3). exists h. cbn [plain r_fingerprint] in A1. fold r in A1. rewrite EF in A1. cbn [disturbed r_fingerprint]. fold r. rewrite EF.
      assert (T : forall f x i j, total (disturbed m n) w f x t' i j = total (plain m) w f x t' i j).
      { intros f x i j. unfold total. f_equal. apply (mass_ext (disturbed m n) w). intros cs l o _. cbn [disturbed plain r_gsm r_gia r_atm]. rewrite noise_zero by assumption. fold r. ring. }
      assert (X0 : (fun c => start m n c t') = (fun c => seasonal N (m_time m) c t')).
      { apply functional_extensionality. intros b. unfold start. fold r N. assert (Q : deg1_of (noise m n t') b = 0) by (destruct b as [|[|b]]; apply noise_zero; assumption). rewrite Q. ring. }
      split; [exact A1|]. split.
      - etransitivity; [|exact A2]. apply (globe_ext (plain m)). intros i j _ _. rewrite T, X0. reflexivity.
      - intros b Hb. etransitivity; [|exact (A3 b Hb)]. apply (sea_ext (plain m)). intros i j _ _. rewrite T. reflexivity. }
    assert (KK : kz c = k c).
    { assert (S0 : sumn N (fun t => Z c t + kz c) = sumn N (fun t => deg1 c t + k c)) by (apply sumn_ext; exact U).
      rewrite !sumn_plus, !FourierGenProofs.sumn_const, Z2 in S0. change (sumn N (deg1 c)) with (sumn (r_n (plain m)) (nth 0 [deg1] none c)) in S0. rewrite CZ in S0 by (cbn; lia). apply (Rmult_eq_reg_l (INR N)); [lra|exact NZ]. }
    specialize (U t Ht). unfold mean. rewrite (sumn_ext _ (removed r c) (fun _ => 0)) by (intros; apply R0). rewrite R0, sumn_zero. unfold Rdiv. lra. }
  exists avg, err, nc, deg1, aod, [deg1], gac. split; [exact EM|]. split; [exact EC|]. intros c t Hc Ht. rewrite N3, N2. replace (m_runs m =? 0)%nat with false by lia.
  assert (MN : mean (m_runs m) (fun n => centred N (fun t => value m s n t c + removed r c t) t / water r 1) = deg1 c t).
  { rewrite <- (mean_const (m_runs m) (deg1 c t) PR). apply mean_ext. intros n Hn. rewrite <- (EQ n c t Hn Hc Ht). symmetry. apply N1. exact Hn. }
  split; [|split; [f_equal; exact MN|intros n Hn; now apply EQ]]. f_equal.
  rewrite (sumn_ext _ _ (fun _ => 0)); [rewrite sumn_zero; unfold Rdiv; rewrite Rmult_0_l, sqrt_0; ring|]. intros n Hn. unfold centred at 1. rewrite MN. fold N. rewrite <- (N1 n c t Hn), (EQ n c t Hn Hc Ht). ring.
Qed.

(** ** the noise, the first guess *)
(** with draws from [0, 1) the noise of a coefficient is the sum of one uniform draw of each error source, so that it stays within the sum of their absolute values *)
Theorem C114_noise : forall m n t cs l o, (forall f, 0 <= m_rand m n t f cs l o < 1) ->
  noise m n t cs l o = (1 - 2 * m_rand m n t 0 cs l o) * m_delta m cs l o + sumn (List.length (m_errors m)) (fun f => (1 - 2 * m_rand m n t (S f) cs l o) * nth f (m_errors m) (fun _ _ _ => 0) cs l o) /\
  Rabs (noise m n t cs l o) <= Rabs (m_delta m cs l o) + sumn (List.length (m_errors m)) (fun f => Rabs (nth f (m_errors m) (fun _ _ _ => 0) cs l o)).
Proof.
  intros m n t cs l o H.
  assert (E : noise m n t cs l o = (1 - 2 * m_rand m n t 0 cs l o) * m_delta m cs l o + sumn (List.length (m_errors m)) (fun f => (1 - 2 * m_rand m n t (S f) cs l o) * nth f (m_errors m) (fun _ _ _ => 0) cs l o)).
  { unfold noise. generalize ((1 - 2 * m_rand m n t 0 cs l o) * m_delta m cs l o).
    assert (Gk : forall L k v, fold_left (fun v fe => v + (1 - 2 * m_rand m n t (fst fe) cs l o) * snd fe cs l o) (combine (seq (S k) (List.length L)) L) v = v + sumn (List.length L) (fun f => (1 - 2 * m_rand m n t (S (k + f)) cs l o) * nth f L (fun _ _ _ => 0) cs l o)).
    { induction L as [|Y L IH]; intros k v; [cbn; ring|]. cbn [List.length seq combine fold_left fst snd]. rewrite IH, LegendreFourier.sumn_first. rewrite Nat.add_0_r. cbn [nth].
      rewrite (sumn_ext _ (fun f => (1 - 2 * m_rand m n t (S (k + S f)) cs l o) * nth f L (fun _ _ _ => 0) cs l o) (fun f => (1 - 2 * m_rand m n t (S (S k + f)) cs l o) * nth f L (fun _ _ _ => 0) cs l o)) by (intros; do 4 f_equal; lia). ring. }
    intros v. etransitivity; [exact (Gk (m_errors m) 0%nat v)|reflexivity]. }
  split; [exact E|]. rewrite E. eapply Rle_trans; [apply Rabs_triang|].
  assert (B : forall f x, Rabs ((1 - 2 * m_rand m n t f cs l o) * x) <= Rabs x). { intros f x. rewrite Rabs_mult. specialize (H f). assert (Rabs (1 - 2 * m_rand m n t f cs l o) <= 1) by (apply Rabs_le; lra). pose proof (Rabs_pos x). nra. }
  apply Rplus_le_compat; [apply B|]. generalize (List.length (m_errors m)). induction n0 as [|k IH]; cbn [sumn]; [rewrite Rabs_R0; lra|].
  eapply Rle_trans; [apply Rabs_triang|]. apply Rplus_le_compat; [exact IH|apply B].
Qed.
(** the first guess has zero mean; its period is one year *)
Theorem C114_seasonal : forall n time,
  (forall c, sumn n (seasonal n time c) = 0) /\
  (forall c t t', time t' = time t + 1 -> seasonal n time c t' = seasonal n time c t) /\
  forall c, exists a p b q k, (a, p, b, q) = (match c with O => (33 / 10, 43, 1 / 2, 75) | 1%nat => (128 / 100, 44, 15 / 100, 331) | _ => (52 / 100, 182, 56 / 100, 312) end) /\
    (forall t, GeoModel.default_radius * sqrt 3 * seasonal n time c t = a * sin (2 * PI * time t + p * (PI / 180)) + b * sin (4 * PI * time t + q * (PI / 180)) - k).
Proof.
  intros n time. split; [|split].
  - intros c. unfold seasonal, Rdiv. rewrite (sumn_ext _ _ (fun t => / (GeoModel.default_radius * sqrt 3) * (cartesian time c t - mean n (cartesian time c)))) by (intros; ring). rewrite sumn_scal, mean_zero. ring.
  - intros c t t' E. unfold seasonal. f_equal. f_equal. unfold cartesian. destruct (amplitude c) as [[[a p] b] q]. rewrite E. f_equal; f_equal.
    + replace (2 * PI * (time t + 1) + p * PI / 180) with (2 * PI * time t + p * PI / 180 + 2 * INR 1 * PI) by (change (INR 1) with 1; ring). apply sin_period.
    + replace (4 * PI * (time t + 1) + q * PI / 180) with (4 * PI * time t + q * PI / 180 + 2 * INR 2 * PI) by (rewrite INR_IZR_INZ; change (Z.of_nat 2) with 2%Z; ring). apply sin_period.
  - intros c. assert (R0 : GeoModel.default_radius <> 0). { unfold GeoModel.default_radius. assert (0 < Rpower (1 - 1 / (298257223563 / 1000000000)) (1 / 3)) by apply exp_pos. lra. } assert (S3 : sqrt 3 <> 0) by (apply Rgt_not_eq, sqrt_lt_R0; lra).
    exists (fst (fst (fst (amplitude c)))), (snd (fst (fst (amplitude c)))), (snd (fst (amplitude c))), (snd (amplitude c)), (mean n (cartesian time c)). split.
    + destruct c as [|[|c]]; cbn [amplitude fst snd]; try reflexivity. replace (330 / 100) with (33 / 10) by lra. replace (50 / 100) with (1 / 2) by lra. reflexivity.
    + intros u. unfold seasonal. set (M := mean _ _). assert (Q : cartesian time c u = fst (fst (fst (amplitude c))) * sin (2 * PI * time u + snd (fst (fst (amplitude c))) * (PI / 180)) + snd (fst (amplitude c)) * sin (4 * PI * time u + snd (amplitude c) * (PI / 180))).
      { unfold cartesian. destruct (amplitude c) as [[[a p] b] q]. cbn [fst snd]. unfold Rdiv. rewrite !Rmult_assoc. reflexivity. }
      rewrite <- Q. field. split; assumption.
Qed.

(** ** failures *)
Theorem C114_unknown_solver : forall m w, ordinary m w -> ~ known (r_solver (m_run m)) -> r_fingerprint (m_run m) = false -> (0 < m_runs m)%nat -> (0 < r_n (m_run m))%nat ->
  monte_carlo m = Err UnboundLocalError.
Proof.
  intros m w [V L2] NK EF PR PN. destruct (mc_prepare_ok (m_run m) w V L2) as (s & EP & G & _). unfold monte_carlo. rewrite EP. cbn [bind].
  destruct (m_runs m) as [|k]; [lia|]. cbn [seq mapM]. unfold mc_one. destruct (r_n (m_run m)) as [|k'] eqn:EN; [lia|]. cbn [seq mapM]. unfold mc_month. cbv zeta. unfold mc_eustatic. cbv zeta. rewrite EF. destruct G as (EPl & _).
  match goal with |- context [on_grid (m_run m) ?D] => destruct (stokes1 (upto (m_run m)) w (s_P s) (on_grid (m_run m) D) D (upto_valid _ w V L2) eq_refl eq_refl ltac:(reflexivity) EPl) as (Y & EY & _) end.
  match type of EY with ?a = _ => match goal with |- context [gen_stokes ?x1 ?x2 ?x3 ?x4 ?x5 ?x6 ?x7 ?x8 ?x9] => change (gen_stokes x1 x2 x3 x4 x5 x6 x7 x8 x9) with a end end. rewrite EY. cbn [bind].
  unfold mc_solve. assert (NS : forall S, In S ["inv"%string; "lstsq"%string; "gelsd"%string; "gelsy"%string; "gelss"%string] -> (r_solver (m_run m) =? S)%string = false).
  { intros S I. apply String.eqb_neq. intros ES. apply NK. rewrite ES. exact I. }
  rewrite !NS by (cbn; tauto). reflexivity.
Qed.
Theorem C114_singular : forall m w, ordinary m w -> r_solver (m_run m) = "inv"%string -> r_fingerprint (m_run m) = false -> (0 < m_runs m)%nat -> (0 < r_n (m_run m))%nat ->
  (~ spread (m_run m) <-> monte_carlo m = Err OtherExn).
Proof.
  intros m w O EI EF PR PN. split.
  - intros NS. pose proof O as [V L2]. destruct (mc_prepare_ok (m_run m) w V L2) as (s & EP & G & _). unfold monte_carlo. rewrite EP. cbn [bind].
    assert (I : inv 3 (imat (m_run m) s) = Err OtherExn). { apply inv_singular. intros B HB. apply NS. apply (inv_spread (upto (m_run m)) w s (upto_valid _ w V L2) G). apply inv_complete. eauto. }
    destruct (m_runs m) as [|k]; [lia|]. cbn [seq mapM]. unfold mc_one. destruct (r_n (m_run m)) as [|k'] eqn:EN; [lia|]. cbn [seq mapM]. unfold mc_month. cbv zeta. unfold mc_eustatic. cbv zeta. rewrite EF. destruct G as (EPl & _).
    match goal with |- context [on_grid (m_run m) ?D] => destruct (stokes1 (upto (m_run m)) w (s_P s) (on_grid (m_run m) D) D (upto_valid _ w V L2) eq_refl eq_refl ltac:(reflexivity) EPl) as (Y & EY & _) end.
    match type of EY with ?a = _ => match goal with |- context [gen_stokes ?x1 ?x2 ?x3 ?x4 ?x5 ?x6 ?x7 ?x8 ?x9] => change (gen_stokes x1 x2 x3 x4 x5 x6 x7 x8 x9) with a end end. rewrite EY. cbn [bind].
    unfold mc_solve. rewrite EI. cbn [String.eqb Ascii.eqb Bool.eqb]. rewrite I. reflexivity.
  - intros E HS. destruct (C114_balance m w O HS) as (avg & err & nc & E' & _); [left; auto|intros X; rewrite EF in X; discriminate|congruence].
Qed.

(** the hypotheses are met by an ordinary calculation: grid, mask and data of C96_example, two months, three runs, one error file *)
Definition example_mc : mc :=
  mkmc example_run (fun t => 2003 + INR t / 12) 3 (fun _ _ _ => 1) [fun _ l _ => INR l] (fun n t f cs l o => 1 / (2 + INR (n + t + f))).
Example C114_example : ordinary example_mc (repeat 1 3) /\ spread (m_run example_mc) /\ known (r_solver (m_run example_mc)) /\ r_fingerprint (m_run example_mc) = false /\ 0 < 1 + nth 1 (kl (m_run example_mc)) 0 /\
  (0 < m_runs example_mc)%nat /\ (0 < r_n (m_run example_mc))%nat /\ (forall c t, removed (m_run example_mc) c t = 0) /\ forall n t f cs l o, 0 <= m_rand example_mc n t f cs l o < 1.
Proof.
  destruct C96_example as (V & S & K). split; [split; [exact V|cbn; lia]|]. split; [exact S|]. split; [exact K|]. split; [reflexivity|]. split; [cbn; lra|]. split; [cbn; lia|]. split; [cbn; lia|]. split.
  - intros c t. unfold removed. destruct c as [|[|c]]; cbn; ring.
  - intros n t f cs l o. cbn [example_mc m_rand]. pose proof (pos_INR (n + t + f)). split; [left; apply Rdiv_lt_0_compat; lra|]. apply (Rmult_lt_reg_r (2 + INR (n + t + f))); [lra|]. unfold Rdiv. rewrite Rmult_assoc, Rinv_l; lra.
Qed.
Print Assumptions C114_errors_of_data.
