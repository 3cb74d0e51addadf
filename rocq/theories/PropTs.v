(** C54 moving average, C55 amplitude and phase, C56 Lomb-Scargle frequency range, C70 aliasing terms. *)
From Coq Require Import Reals Lra.
From Verif Require Import Base DestripeModel DestripeProofs LinAlg RegressModel RegressProofs TsModel.
Close Scope Z_scope.
Open Scope R_scope.
Definition val (l : list R) (i : nat) : R := nth i l 0.

(** ** C55 *)
Lemma atan2_ok y x : let r := sqrt (x ^ 2 + y ^ 2) in r * cos (atan2 y x) = x /\ r * sin (atan2 y x) = y /\ - PI < atan2 y x <= PI.
Proof.
  intros r. pose proof PI_RGT_0 as P. unfold atan2.
  assert (A : forall u, 0 < sqrt (1 + u ^ 2) /\ cos (atan u) = / sqrt (1 + u ^ 2) /\ sin (atan u) = u / sqrt (1 + u ^ 2)).
  { intros u. assert (0 < 1 + u ^ 2) by (pose proof (pow2_ge_0 u); lra). split; [apply sqrt_lt_R0; auto|].
    rewrite cos_atan, sin_atan. rewrite Rsqr_pow2. split; [unfold Rdiv; ring|reflexivity]. }
  assert (B : forall u, - (PI / 2) < atan u < PI / 2). { intros u. destruct (atan_bound u). lra. }
  assert (C : x <> 0 -> r = Rabs x * sqrt (1 + (y / x) ^ 2)).
  { intros N. unfold r. replace (x ^ 2 + y ^ 2) with (x ^ 2 * (1 + (y / x) ^ 2)) by (field; auto).
    rewrite sqrt_mult_alt by apply pow2_ge_0. rewrite <- (Rsqr_pow2 x), sqrt_Rsqr_abs. reflexivity. }
  destruct (A (y / x)) as (S & Co & Si). destruct (B (y / x)) as [B1 B2].
  destruct (Rlt_dec 0 x) as [X|X].
  - rewrite C by lra. rewrite Rabs_right by lra. rewrite Co, Si. repeat split; [field; lra|field; lra|lra|lra].
  - destruct (Rlt_dec x 0) as [X'|X'].
    + rewrite C by lra. rewrite Rabs_left by lra.
      destruct (Rle_dec 0 y) as [Y|Y].
      * rewrite neg_cos, neg_sin, Co, Si. repeat split; [field; lra|field; lra| |].
        -- lra.
        -- assert (atan (y / x) <= 0). { destruct (Req_dec y 0) as [->|]. { unfold Rdiv. rewrite Rmult_0_l, atan_0. lra. }
             left. rewrite <- atan_0. apply atan_increasing. unfold Rdiv. assert (/ x < 0) by (apply Rinv_lt_0_compat; auto). nra. }
           lra.
      * replace (atan (y / x) - PI) with (- (PI - atan (y / x))) by ring. rewrite cos_neg, sin_neg.
        replace (PI - atan (y / x)) with (- atan (y / x) + PI) by ring. rewrite neg_cos, neg_sin, cos_neg, sin_neg, Co, Si.
        repeat split; [field; lra|field; lra| |lra].
        assert (0 < atan (y / x)). { rewrite <- atan_0 at 1. apply atan_increasing. unfold Rdiv. assert (/ x < 0) by (apply Rinv_lt_0_compat; auto). nra. }
        lra.
    + assert (x = 0) by lra. subst x.
      assert (RY : r = Rabs y). { unfold r. replace (0 ^ 2 + y ^ 2) with (Rsqr y) by (unfold Rsqr; ring). apply sqrt_Rsqr_abs. }
      rewrite RY. destruct (Rlt_dec 0 y) as [Y|Y].
      * rewrite cos_PI2, sin_PI2, Rabs_right by lra. repeat split; lra.
      * destruct (Rlt_dec y 0) as [Y'|Y'].
        -- rewrite cos_neg, sin_neg, cos_PI2, sin_PI2, Rabs_left by lra. repeat split; lra.
        -- assert (y = 0) by lra. subst y. rewrite cos_0, sin_0, Rabs_R0. repeat split; lra.
Qed.
(** amplitude and phase (degrees) reconstruct the sine and cosine coefficients, hence the seasonal signal *)
Theorem C55_amplitude : forall bsin bcos, let A := fst (amplitude bsin bcos) in let ph := snd (amplitude bsin bcos) in
  0 <= A /\ -180 < ph <= 180 /\ A ^ 2 = bsin ^ 2 + bcos ^ 2 /\
  A * cos (ph * PI / 180) = bsin /\ A * sin (ph * PI / 180) = bcos /\
  (forall x, A * sin (x + ph * PI / 180) = bsin * sin x + bcos * cos x).
Proof.
  intros bs bc A ph. destruct (atan2_ok bc bs) as (E1 & E2 & [L U]). pose proof PI_RGT_0 as P.
  assert (EA : A = sqrt (bs ^ 2 + bc ^ 2)) by reflexivity.
  assert (EP : ph * PI / 180 = atan2 bc bs) by (unfold ph, amplitude; cbn [snd]; field; lra).
  assert (N : 0 <= bs ^ 2 + bc ^ 2) by (pose proof (pow2_ge_0 bs); pose proof (pow2_ge_0 bc); lra).
  split; [rewrite EA; apply sqrt_pos|]. split.
  { unfold ph, amplitude. cbn [snd]. split.
    - apply (Rmult_lt_reg_r PI); auto. unfold Rdiv. rewrite Rmult_assoc, Rinv_l by lra. nra.
    - apply (Rmult_le_reg_r PI); auto. unfold Rdiv. rewrite Rmult_assoc, Rinv_l by lra. nra. }
  split; [rewrite EA; apply pow2_sqrt; auto|].
  rewrite EP, EA. split; [exact E1|]. split; [exact E2|].
  intros x. rewrite sin_plus. rewrite Rmult_plus_distr_l.
  replace (sqrt (bs ^ 2 + bc ^ 2) * (sin x * cos (atan2 bc bs))) with (sqrt (bs ^ 2 + bc ^ 2) * cos (atan2 bc bs) * sin x) by ring.
  replace (sqrt (bs ^ 2 + bc ^ 2) * (cos x * sin (atan2 bc bs))) with (sqrt (bs ^ 2 + bc ^ 2) * sin (atan2 bc bs) * cos x) by ring.
  rewrite E1, E2. ring.
Qed.
Lemma sin_zero_small a : - PI < a < PI -> sin a = 0 -> a = 0.
Proof.
  intros [L U] E. destruct (Rtotal_order a 0) as [H|[H|H]]; auto.
  - pose proof (sin_gt_0 (- a) ltac:(lra) ltac:(lra)). rewrite sin_neg in H0. lra.
  - pose proof (sin_gt_0 a ltac:(lra) ltac:(lra)). lra.
Qed.
(** and they are the only such amplitude and phase *)
Theorem C55_unique : forall bsin bcos A ph, 0 < A -> -180 < ph <= 180 -> A * cos (ph * PI / 180) = bsin -> A * sin (ph * PI / 180) = bcos ->
  amplitude bsin bcos = (A, ph).
Proof.
  intros bs bc A ph HA [PL PU] E1 E2. pose proof PI_RGT_0 as P.
  destruct (C55_amplitude bs bc) as (N & [L U] & SQ & C1 & C2 & _).
  destruct (amplitude bs bc) as [A' ph']. cbn [fst snd] in *.
  assert (EA : A' = A).
  { assert (Q : A' ^ 2 = A ^ 2). { rewrite SQ, <- E1, <- E2. pose proof (sin2_cos2 (ph * PI / 180)) as T. unfold Rsqr in T. nra. }
    rewrite <- (sqrt_pow2 A'), <- (sqrt_pow2 A) by lra. rewrite Q. reflexivity. }
  subst A'. f_equal.
  assert (CC : cos (ph' * PI / 180) = cos (ph * PI / 180)) by (apply (Rmult_eq_reg_l A); lra).
  assert (SS : sin (ph' * PI / 180) = sin (ph * PI / 180)) by (apply (Rmult_eq_reg_l A); lra).
  set (u := ph' * PI / 180) in *. set (v := ph * PI / 180) in *.
  assert (CD : cos (u - v) = 1). { rewrite cos_minus, CC, SS. pose proof (sin2_cos2 v) as T. unfold Rsqr in T. lra. }
  assert (Z : sin ((u - v) / 2) = 0).
  { pose proof (cos_2a_sin ((u - v) / 2)) as T. replace (2 * ((u - v) / 2)) with (u - v) in T by field. rewrite CD in T. nra. }
  assert (B : - PI < (u - v) / 2 < PI). { unfold u, v. split; nra. }
  pose proof (sin_zero_small _ B Z) as W. unfold u, v in W. nra.
Qed.

(** ** C54 moving average *)
Lemma sum_rsum l : sum_ l = rsum (length l) (fun i => val l i).
Proof. induction l as [|x l IH]; [reflexivity|]. cbn [length]. rewrite rsum_head. unfold sum_ in *. cbn [fold_right]. rewrite IH. reflexivity. Qed.
Lemma slice_len {A} (l : list A) a b : (b <= length l)%nat -> length (slice l a b) = (b - a)%nat.
Proof. intros L. unfold slice. rewrite skipn_length, firstn_length. lia. Qed.
Lemma nth_skipn' {A} (l : list A) a i d : nth i (skipn a l) d = nth (a + i) l d.
Proof. revert l; induction a; intros [|x l]; cbn; auto. destruct i; reflexivity. Qed.
Lemma nth_firstn' {A} (l : list A) b i d : (i < b)%nat -> nth i (firstn b l) d = nth i l d.
Proof. revert b i; induction l as [|x l IH]; intros [|b] [|i] L; cbn; auto; try lia. apply IH; lia. Qed.
Lemma slice_nth {A} (l : list A) a b i d : (a + i < b)%nat -> nth i (slice l a b) d = nth (a + i) l d.
Proof. intros L. unfold slice. rewrite nth_skipn'. apply nth_firstn'. exact L. Qed.

(** trapezoidal weights: half weight at the two ends *)
Definition trapezoid (H j : nat) : R := if ((j =? 0) || (j =? 2 * H))%nat then 1 / 2 else 1.
Definition average (d : nat -> R) (H k : nat) : R := rsum (2 * H + 1) (fun j => trapezoid H j * d (k + j)%nat) / (2 * INR H).
Lemma trapezoid_split H d k : (1 <= H)%nat -> rsum (2 * H + 1) (fun j => trapezoid H j * d (k + j)%nat) =
  rsum (2 * H - 1) (fun j => d (k + 1 + j)%nat) + 1 / 2 * (d k + d (k + 2 * H)%nat).
Proof.
  intros L. replace (2 * H + 1)%nat with (S (S (2 * H - 1))) by lia. rewrite rsum_head.
  change (rsum (S (2 * H - 1)) (fun i => trapezoid H (S i) * d (k + S i)%nat)) with
    (rsum (2 * H - 1) (fun i => trapezoid H (S i) * d (k + S i)%nat) + trapezoid H (S (2 * H - 1)) * d (k + S (2 * H - 1))%nat).
  replace (S (2 * H - 1)) with (2 * H)%nat by lia.
  assert (T0 : trapezoid H 0 = 1 / 2) by reflexivity.
  assert (T1 : trapezoid H (2 * H) = 1 / 2) by (unfold trapezoid; rewrite Nat.eqb_refl, orb_true_r; reflexivity).
  rewrite T0, T1.
  rewrite (rsum_ext _ (fun i => trapezoid H (S i) * d (k + S i)%nat) (fun j => d (k + 1 + j)%nat)).
  - replace (k + 0)%nat with k by lia. lra.
  - intros i Li. unfold trapezoid. destruct (Nat.eqb_spec (S i) 0); [lia|]. destruct (Nat.eqb_spec (S i) (2 * H)); [lia|]. cbn [orb].
    replace (k + 1 + i)%nat with (k + S i)%nat by lia. ring.
Qed.
Lemma moving_ok t d H : (length t = length d)%nat -> (2 <= length t)%nat -> (1 <= H)%nat -> (2 * H <= length t)%nat ->
  moving t d H = Ok (map (fun k => Some (average (val d) H k)) (seq 0 (length t - 2 * H)), slice t H (length t - H)).
Proof.
  intros E L2 LH LN. unfold moving. destruct (Nat.eqb_spec (length t) 1); [lia|]. destruct (Nat.ltb_spec (length t) (2 * H)); [lia|].
  destruct (Nat.ltb_spec (length d) (length t)); [lia|]. rewrite andb_false_r. f_equal. f_equal.
  apply map_ext_in. intros k Hk. apply in_seq in Hk. destruct (Nat.eqb_spec H 0); [lia|]. f_equal. unfold average. f_equal.
  rewrite trapezoid_split by auto. f_equal. rewrite sum_rsum, slice_len by lia.
  replace (k + 2 * H - (k + 1))%nat with (2 * H - 1)%nat by lia. apply rsum_ext. intros i Li. unfold val. apply slice_nth. lia.
Qed.
(** nmax - 2 HFWTH values at the epochs HFWTH .. nmax-HFWTH-1; value k is the mean of the data over the window k..k+2 HFWTH
    with half weight at the ends *)
Theorem C54_average : forall t d H, (length t = length d)%nat -> (2 <= length t)%nat -> (1 <= H)%nat -> (2 * H <= length t)%nat ->
  exists data time, moving t d H = Ok (data, time) /\ length data = (length t - 2 * H)%nat /\ length time = length data /\
  forall k, (k < length data)%nat -> nth k data None = Some (average (val d) H k) /\ val time k = val t (k + H).
Proof.
  intros t d H E L2 LH LN. rewrite (moving_ok t d H E L2 LH LN). eexists _, _. split; [reflexivity|].
  rewrite map_length, seq_length, slice_len by lia. repeat split; try lia.
  - rewrite (nth_indep _ None (Some (average (val d) H 0))) by (rewrite map_length, seq_length; lia).
    rewrite (map_nth (fun k => Some (average (val d) H k))), seq_nth by lia. reflexivity.
  - unfold val. rewrite slice_nth by lia. f_equal. lia.
Qed.
Lemma const_sum n c : rsum n (fun _ => c) = INR n * c.
Proof. induction n; [cbn; ring|]. rewrite S_INR. cbn [rsum]. rewrite IHn. ring. Qed.
Lemma trap_total H : (1 <= H)%nat -> rsum (2 * H + 1) (fun j => trapezoid H j) = 2 * INR H.
Proof.
  intros L. rewrite (rsum_ext _ _ (fun j => trapezoid H j * (fun _ => 1) (0 + j)%nat)) by (intros; ring).
  rewrite (trapezoid_split H (fun _ => 1) 0 L), const_sum.
  replace (INR (2 * H - 1)) with (2 * INR H - 1). { field. } rewrite minus_INR, mult_INR by lia. reflexivity.
Qed.
(** constants and evenly sampled straight lines are reproduced, and the average lies between the extremes of the window *)
Theorem C54_reproduces : forall H d k, (1 <= H)%nat ->
  (forall c, (forall j, (j <= 2 * H)%nat -> d (k + j)%nat = c) -> average d H k = c) /\
  (forall a b, (forall j, (j <= 2 * H)%nat -> d (k + j)%nat = a + b * INR (k + j)) -> average d H k = d (k + H)%nat) /\
  (forall lo hi, (forall j, (j <= 2 * H)%nat -> lo <= d (k + j)%nat <= hi) -> lo <= average d H k <= hi).
Proof.
  intros H d k L. assert (HP : 0 < INR H) by (apply lt_0_INR; lia).
  assert (CST : forall c, rsum (2 * H + 1) (fun j => trapezoid H j * c) = 2 * INR H * c).
  { intros c. rewrite <- trap_total by auto. rewrite Rmult_comm, <- rsum_scal. apply rsum_ext; intros; ring. }
  assert (MOM : rsum (2 * H + 1) (fun j => trapezoid H j * INR j) = 2 * INR H * INR H).
  { rewrite (rsum_ext _ _ (fun j => trapezoid H j * INR (0 + j))) by reflexivity. rewrite (trapezoid_split H INR 0 L).
    rewrite (rsum_ext _ _ (fun j => 1 + INR j)) by (intros j _; rewrite Nat.add_0_l; change (1 + j)%nat with (S j); rewrite S_INR; ring).
    rewrite rsum_plus, const_sum.
    assert (SJ : forall n, rsum n INR = INR n * (INR n - 1) / 2). { induction n; [cbn; field|]. cbn [rsum]. rewrite IHn, S_INR. field. }
    rewrite SJ. rewrite minus_INR, mult_INR by lia. cbn [Nat.add]. rewrite mult_INR. cbn [INR]. field. }
  split; [|split].
  - intros c Hc. unfold average. rewrite (rsum_ext _ _ (fun j => trapezoid H j * c)) by (intros j Lj; rewrite Hc by lia; reflexivity).
    rewrite CST. field. lra.
  - intros a b Hd. unfold average. rewrite (rsum_ext _ _ (fun j => trapezoid H j * (a + b * INR k) + b * (trapezoid H j * INR j))).
    2:{ intros j Lj. rewrite Hd by lia. rewrite plus_INR. ring. }
    rewrite rsum_plus, rsum_scal, CST, MOM. rewrite (Hd H) by lia. rewrite plus_INR. field. lra.
  - intros lo hi Hd. unfold average.
    assert (LE : forall f g, (forall i, (i < 2 * H + 1)%nat -> f i <= g i) -> rsum (2 * H + 1) f <= rsum (2 * H + 1) g).
    { clear. intros f g Hfg. induction (2 * H + 1)%nat as [|m IH]; [cbn; lra|]. cbn [rsum]. pose proof (IH ltac:(intros; apply Hfg; lia)). pose proof (Hfg m ltac:(lia)). lra. }
    assert (TP : forall j, 0 <= trapezoid H j). { intros j. unfold trapezoid. destruct (_ || _); lra. }
    pose proof (LE (fun j => trapezoid H j * lo) (fun j => trapezoid H j * d (k + j)%nat) ltac:(intros i Li; apply Rmult_le_compat_l; [apply TP|apply Hd; lia])) as A.
    pose proof (LE (fun j => trapezoid H j * d (k + j)%nat) (fun j => trapezoid H j * hi) ltac:(intros i Li; apply Rmult_le_compat_l; [apply TP|apply Hd; lia])) as B.
    rewrite CST in A, B. split.
    + apply (Rmult_le_reg_r (2 * INR H)); [lra|]. unfold Rdiv. rewrite Rmult_assoc, Rinv_l by lra. lra.
    + apply (Rmult_le_reg_r (2 * INR H)); [lra|]. unfold Rdiv. rewrite Rmult_assoc, Rinv_l by lra. lra.
Qed.
(** a signal whose period is the window length (e.g. monthly data, annual cycle, HFWTH=6) is reduced to its mean over one period *)
Theorem C54_removes_cycle : forall H d, (1 <= H)%nat -> (forall i, d (i + 2 * H)%nat = d i) ->
  forall k, average d H k = rsum (2 * H) d / (2 * INR H).
Proof.
  intros H d L Per k. unfold average. f_equal. rewrite trapezoid_split by auto. rewrite Per.
  replace (1 / 2 * (d k + d k)) with (d k) by field.
  transitivity (rsum (2 * H) (fun j => d (k + j)%nat)).
  - replace (2 * H)%nat with (S (2 * H - 1)) at 2 by lia. rewrite rsum_head. replace (k + 0)%nat with k by lia. rewrite Rplus_comm. f_equal.
    apply rsum_ext. intros i _. f_equal. lia.
  - induction k as [|k IH]; [reflexivity|]. rewrite <- IH.
    replace (2 * H)%nat with (S (2 * H - 1)) by lia. rewrite (rsum_head _ (fun j => d (k + j)%nat)).
    change (rsum (S (2 * H - 1)) (fun j => d (S k + j)%nat)) with (rsum (2 * H - 1) (fun j => d (S k + j)%nat) + d (S k + (2 * H - 1))%nat).
    replace (S k + (2 * H - 1))%nat with (k + 2 * H)%nat by lia. rewrite Per, Rplus_comm. replace (k + 0)%nat with k by lia. f_equal.
    apply rsum_ext. intros i _. f_equal. lia.
Qed.
(** errors; a half width of zero gives no numbers at all *)
Theorem C54_edges : forall t d,
  (forall H, (length t < 2 * H)%nat -> length t <> 1%nat -> moving t d H = Err ValueError) /\
  (length t = length d -> (2 <= length t)%nat -> exists time, moving t d 0 = Ok (repeat None (length t), time)).
Proof.
  intros t d. split.
  - intros H L N. unfold moving. destruct (Nat.eqb_spec (length t) 1); [contradiction|]. destruct (Nat.ltb_spec (length t) (2 * H)); [reflexivity|lia].
  - intros E L. unfold moving. destruct (Nat.eqb_spec (length t) 1); [lia|]. destruct (Nat.ltb_spec (length t) (2 * 0)); [lia|].
    destruct (Nat.ltb_spec (length d) (length t)); [lia|]. rewrite andb_false_r. cbn [Nat.eqb Nat.mul]. rewrite !Nat.sub_0_r. exists (slice t 0 (length t)).
    assert (X : forall m s, map (fun _ : nat => @None R) (seq s m) = repeat None m) by (induction m; intros; cbn; [|rewrite IHm]; reflexivity).
    rewrite X. reflexivity.
Qed.
Example C54_nonvacuous : exists data, moving [0; 1; 2; 3] [1; 3; 2; 7] 1 = Ok (data, [1; 2]) /\ nth 0 data None = Some (9 / 4).
Proof.
  eexists. split; [rewrite (moving_ok [0; 1; 2; 3] [1; 3; 2; 7] 1) by (cbn; lia); reflexivity|].
  cbn [length Nat.sub Nat.mul Nat.add seq map nth]. f_equal. unfold average, trapezoid, val. cbn. field.
Qed.

(** ** C56 Lomb-Scargle *)
Definition outcome := res periodogram.
(** first and last analysed frequency *)
Definition freq_ends (r : outcome) (f0 f1 : R) : Prop :=
  exists g, r = Ok g /\ val (g_freq g) 0 = f0 /\ val (g_freq g) (length (g_freq g) - 1) = f1.
Lemma linspace_ends a b N : (2 <= N)%nat -> length (linspace a b N) = N /\ val (linspace a b N) 0 = a /\ val (linspace a b N) (N - 1) = b.
Proof.
  intros L. unfold linspace. destruct (Nat.eqb_spec N 1); [lia|]. rewrite tab_len.
  assert (INR (N - 1) <> 0). { apply not_0_INR. lia. }
  unfold val. change (nth ?i ?l 0) with (at_ l i). rewrite !tab_at by lia. repeat split; [cbn [INR]; field; auto|field; auto].
Qed.
Lemma ls_run ls t d O F P N a b : (2 <= N)%nat -> omega_range O F P = Ok [a; b] ->
  freq_ends (lomb_scargle ls t d O F P N) (a / (2 * PI)) (b / (2 * PI)).
Proof.
  intros L E. unfold lomb_scargle. rewrite E. cbn [bind]. eexists. split; [reflexivity|]. cbn [g_freq].
  destruct (linspace_ends a b N L) as (LN & H0 & H1). rewrite map_length, LN. unfold val in *. change (nth ?i ?l 0) with (at_ l i) in *.
  rewrite !at_map by lia. rewrite H0, H1. auto.
Qed.
(** OMEGA and PERIOD analyse the range they name *)
Theorem C56_omega_period : forall ls t d N a b, (2 <= N)%nat -> a <> 0 -> b <> 0 ->
  (forall F P, freq_ends (lomb_scargle ls t d [a; b] F P N) (a / (2 * PI)) (b / (2 * PI))) /\
  freq_ends (lomb_scargle ls t d [] [] [a; b] N) (1 / a) (1 / b).
Proof.
  intros ls t d N a b L Ha Hb. pose proof PI_RGT_0. split.
  - intros F P. apply ls_run; auto.
  - replace (1 / a) with (2 * PI / a / (2 * PI)) by (field; lra). replace (1 / b) with (2 * PI / b / (2 * PI)) by (field; lra). apply ls_run; auto.
Qed.
(** Refuted: FREQUENCY=[f0,f1] analyses f0/(2 pi)^2 .. f1/(2 pi)^2; this is the requested range only when both are 0 *)
Theorem C56_frequency_refuted : forall ls t d N f0 f1 P, (2 <= N)%nat ->
  freq_ends (lomb_scargle ls t d [] [f0; f1] P N) (f0 / (2 * PI) ^ 2) (f1 / (2 * PI) ^ 2) /\
  (freq_ends (lomb_scargle ls t d [] [f0; f1] P N) f0 f1 -> f0 = 0 /\ f1 = 0).
Proof.
  intros ls t d N f0 f1 P L. pose proof PI_RGT_0 as HP. assert (P4 : 4 < 2 * PI * (2 * PI)). { pose proof PI2_1. nra. }
  assert (A : freq_ends (lomb_scargle ls t d [] [f0; f1] P N) (f0 / (2 * PI) ^ 2) (f1 / (2 * PI) ^ 2)).
  { replace (f0 / (2 * PI) ^ 2) with (f0 / (2 * PI) / (2 * PI)) by (field; lra). replace (f1 / (2 * PI) ^ 2) with (f1 / (2 * PI) / (2 * PI)) by (field; lra).
    apply ls_run; auto. }
  split; [exact A|]. intros [g [E [G0 G1]]]. destruct A as [g' [E' [G0' G1']]]. assert (g' = g) by congruence. subst g'.
  assert (X : forall f, f / (2 * PI) ^ 2 = f -> f = 0).
  { intros f Hf. assert (E1 : f = f / (2 * PI) ^ 2 * (2 * PI * (2 * PI))) by (field; lra). rewrite Hf in E1.
    assert (E2 : f * (2 * PI * (2 * PI) - 1) = 0) by lra. apply Rmult_integral in E2. destruct E2; [auto|lra]. }
  split; apply X; congruence.
Qed.
(** invalid requests *)
Theorem C56_errors : forall ls t d N,
  lomb_scargle ls t d [] [] [] N = Err ValueError /\
  (forall O F P, length O <> 2%nat -> O <> [] -> lomb_scargle ls t d O F P N = Err AssertionErr).
Proof.
  intros. split; [reflexivity|]. intros O F P L N0. unfold lomb_scargle. destruct O as [|a O]; [congruence|]. cbn [omega_range bind].
  destruct O as [|b [|c O]]; cbn in L; try reflexivity; lia.
Qed.
(** shifting the time axis, or a positive affine change of the data, changes none of the outputs; frequency x period = 1;
    the Nyquist frequency is (n-1)/(2 (last - first)) *)
Lemma mean_map_affine a b l : l <> [] -> mean_ (map (fun x => a * x + b) l) = a * mean_ l + b.
Proof.
  intros N. unfold mean_. rewrite map_length.
  assert (S : forall l, sum_ (map (fun x => a * x + b) l) = a * sum_ l + INR (length l) * b).
  { induction l0 as [|x l0 IH]; [cbn; ring|]. unfold sum_ in *. cbn [map fold_right length]. rewrite IH, S_INR. ring. }
  rewrite S. field. apply not_0_INR. destruct l; [congruence|discriminate].
Qed.
Theorem C56_invariance : forall ls t d d' O F P N shift a b, t <> [] -> d <> [] -> 0 < a -> std_ d <> 0 ->
  d' = map (fun x => a * x + b) d ->
  lomb_scargle ls (map (fun x => x + shift) t) d' O F P N = lomb_scargle ls t d O F P N.
Proof.
  intros ls t d d' O F P N sh a b Ht Hd Ha Hs ->. unfold lomb_scargle. rewrite map_length.
  assert (A0 : forall i, (i < length t)%nat -> at_ (map (fun x => x + sh) t) i = at_ t i + sh) by (intros; apply at_map; auto).
  assert (LT : (0 < length t)%nat) by (destruct t; [congruence|cbn; lia]).
  assert (NY : map (fun i => at_ (map (fun x => x + sh) t) (i + 1) - at_ (map (fun x => x + sh) t) i) (seq 0 (length t - 1)) =
     map (fun i => at_ t (i + 1) - at_ t i) (seq 0 (length t - 1))).
  { apply map_ext_in. intros i Hi. apply in_seq in Hi. rewrite !A0 by lia. ring. }
  rewrite NY. destruct (omega_range O F P) as [om|]; cbn [bind]; [|reflexivity]. destruct om as [|x [|y [|z om]]]; try reflexivity.
  f_equal. f_equal. f_equal.
  - rewrite map_map. apply map_ext. intros u. rewrite A0 by auto. ring.
  - assert (ME : mean_ (map (fun x => a * x + b) d) = a * mean_ d + b) by (apply mean_map_affine; auto).
    assert (SD : std_ (map (fun x => a * x + b) d) = a * std_ d).
    { unfold std_. rewrite ME, map_map. rewrite (map_ext _ (fun x => (fun z => a ^ 2 * z + 0) ((x - mean_ d) ^ 2))) by (intros; ring).
      rewrite <- (map_map (fun x => (x - mean_ d) ^ 2) (fun z => a ^ 2 * z + 0)). rewrite mean_map_affine by (destruct d; [congruence|discriminate]).
      rewrite Rplus_0_r, sqrt_mult_alt by apply pow2_ge_0. rewrite sqrt_pow2 by lra. reflexivity. }
    rewrite ME, SD, map_map. apply map_ext. intros u. field. split; lra.
Qed.
Theorem C56_nyquist : forall ls t d O F P N g, lomb_scargle ls t d O F P N = Ok g -> (2 <= length t)%nat -> val t (length t - 1) <> val t 0 ->
  g_nyquist g = INR (length t - 1) / (2 * (val t (length t - 1) - val t 0)) /\
  length (g_period g) = length (g_freq g) /\
  (forall k, (k < length (g_freq g))%nat -> val (g_freq g) k <> 0 -> val (g_period g) k * val (g_freq g) k = 1).
Proof.
  intros ls t d O F P N g E L Hne. pose proof PI_RGT_0 as HP.
  revert E. unfold lomb_scargle. destruct (omega_range O F P) as [om|]; cbn [bind]; [|discriminate].
  destruct om as [|x [|y [|z om]]]; try discriminate.
  intros E. assert (X : forall a b : periodogram, Ok a = Ok b -> b = a) by congruence. apply X in E. rewrite E. cbn [g_nyquist g_period g_freq].
  split; [|split].
  - unfold mean_. rewrite map_length, seq_length. fold (tab (length t - 1) (fun i => at_ t (i + 1) - at_ t i)).
    rewrite sum_rsum, tab_len. rewrite (rsum_ext _ _ (fun i => at_ t (i + 1) - at_ t i)) by (intros; apply tab_at; auto).
    assert (T : forall n, rsum n (fun i => at_ t (i + 1) - at_ t i) = at_ t n - at_ t 0).
    { induction n; [cbn; ring|]. cbn [rsum]. rewrite IHn. replace (n + 1)%nat with (S n) by lia. ring. }
    rewrite T. unfold at_, val in *. assert (INR (length t - 1) <> 0) by (apply not_0_INR; lia). field. repeat split; auto; lra.
  - rewrite !map_length. reflexivity.
  - intros k Lk. rewrite map_length in Lk. unfold val. change (nth ?i ?l 0) with (at_ l i). rewrite !at_map by auto.
    intros NZ. field. split; [lra|]. intros Z. apply NZ. rewrite Z. unfold Rdiv. ring.
Qed.

(** ** C70 aliasing terms *)
(** sine and cosine of the given period (days, 365.25-day years), active before 2018 in the first pair and from 2018 on in the second *)
Theorem C70_aliasing : forall t period, exists s1 c1 s2 c2, aliasing_terms t period = [s1; c1; s2; c2] /\
  length s1 = length t /\ length c1 = length t /\ length s2 = length t /\ length c2 = length t /\
  forall i, (i < length t)%nat -> let a := 2 * PI * (val t i * (36525 / 100)) / period in
   val s1 i + val s2 i = sin a /\ val c1 i + val c2 i = cos a /\
   (val t i < 2018 -> val s2 i = 0 /\ val c2 i = 0) /\ (2018 <= val t i -> val s1 i = 0 /\ val c1 i = 0).
Proof.
  intros t period. unfold aliasing_terms. do 4 eexists. split; [reflexivity|]. rewrite !map_length. repeat split;
   unfold val in *; change (nth ?i ?l 0) with (at_ l i) in *; rewrite ?at_map by auto;
   destruct (Rlt_dec (at_ t i) 2018), (Rle_dec 2018 (at_ t i)); try lra.
  all: unfold val; change (nth ?i ?l 0) with (at_ l i); replace (2 * PI * (at_ t i * (36525 / 100))) with (PI * at_ t i * (7305 / 10)) by field; lra.
Qed.
