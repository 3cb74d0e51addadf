(** C77 degree amplitudes, C78 disc loads, C79 spherical caps (degree_amplitude.py, gen_disc_load.py, gen_spherical_cap.py). *)
From Coq Require Import Reals Lra Lia String ZifyBool ZifyNat.
From Coquelicot Require Import Coquelicot.
From Verif Require Import Base UnitsModel UnitsProofs GaussModel Arr HarmModel LegendreSpec LegendreSpec2 LegendreModel LegendreProofs LegendreProofs2
  SummationModel SummationProofs GenModel GenProofs PropLegendre PropGen GaussProofs LoadModel.
Close Scope Z_scope.
Close Scope string_scope.
Open Scope R_scope.

(** ** C77 degree_amplitude *)
(** sum over the orders of the squared coefficients of degree l at epoch t *)
Definition power_of (c s : nat -> nat -> nat -> R) (MM l t : nat) : R := sumn (MM + 1) (fun m => c l m t ^ 2 + s l m t ^ 2).
Definition covers_block (c s : arr R) (LM MM : nat) : Prop :=
  (LM < rows c)%nat /\ (LM < rows s)%nat /\ (MM < cols c)%nat /\ (MM < cols s)%nat /\ nslice c = nslice s.
Definition bound (o : option nat) (n : nat) : nat := match o with Some k => k | None => (n - 1)%nat end.
Lemma amp_eq c s LO MO : covers_block c s (bound LO (rows c)) (bound MO (cols c)) ->
  degree_amplitude c s LO MO = Ok ((bound LO (rows c) + 1)%nat, nslice c, fun l t => sqrt (power_of (get c) (get s) (bound MO (cols c)) l t)).
Proof.
  intros (A & B & C & D & E). unfold degree_amplitude. change (match LO with Some k => k | None => (rows c - 1)%nat end) with (bound LO (rows c)).
  change (match MO with Some k => k | None => (cols c - 1)%nat end) with (bound MO (cols c)).
  replace ((_ <? _) || _ || _ || _)%nat%bool with false by (symmetry; lia). rewrite E, Nat.eqb_refl. reflexivity.
Qed.
Lemma power_nonneg c s MM l t : 0 <= power_of c s MM l t.
Proof. unfold power_of. induction (MM + 1)%nat as [|n IH]; cbn [sumn]; [lra|]. pose proof (pow2_ge_0 (c l n t)). pose proof (pow2_ge_0 (s l n t)). lra. Qed.
(** the squared amplitude is the power of the degree: shape and values *)
Theorem C77_values : forall c s LO MO, let LM := bound LO (rows c) in let MM := bound MO (cols c) in
  covers_block c s LM MM ->
  exists amp, degree_amplitude c s LO MO = Ok ((LM + 1)%nat, nslice c, amp) /\
    forall l t, 0 <= amp l t /\ amp l t ^ 2 = power_of (get c) (get s) MM l t.
Proof.
  intros c s LO MO LM MM H. eexists. split; [apply amp_eq; exact H|]. intros l t. split; [apply sqrt_pos|]. rewrite <- Rsqr_pow2. apply Rsqr_sqrt, power_nonneg.
Qed.
(** an amplitude vanishes exactly when every coefficient of the degree does *)
Lemma sumn_zero_terms n f : (forall i, (i < n)%nat -> 0 <= f i) -> sumn n f = 0 -> forall i, (i < n)%nat -> f i = 0.
Proof.
  induction n as [|n IH]; intros P E i Li; [lia|]. cbn [sumn] in E.
  assert (0 <= sumn n f). { clear - P. assert (Q : forall i, (i < n)%nat -> 0 <= f i) by (intros; apply P; lia). clear P. induction n as [|n IH]; cbn [sumn]; [lra|].
    pose proof (Q n ltac:(lia)). assert (0 <= sumn n f) by (apply IH; intros; apply Q; lia). lra. }
  pose proof (P n ltac:(lia)). destruct (Nat.eq_dec i n) as [->|N]; [lra|]. apply IH; [intros; apply P; lia|lra|lia].
Qed.
Theorem C77_zero : forall c s LO MO n nt amp, degree_amplitude c s LO MO = Ok (n, nt, amp) ->
  forall l t, amp l t = 0 <-> forall m, (m <= bound MO (cols c))%nat -> get c l m t = 0 /\ get s l m t = 0.
Proof.
  intros c s LO MO n nt amp E l t. unfold degree_amplitude in E. destruct (_ || _)%bool; [discriminate|]. destruct (negb _); [discriminate|].
  change (match MO with Some k => k | None => (cols c - 1)%nat end) with (bound MO (cols c)) in E. injection E as _ _ <-. split.
  - intros Z m Lm. apply sqrt_eq_0 in Z; [|apply (power_nonneg (get c) (get s))].
    assert (Q := sumn_zero_terms _ (fun m => get c l m t ^ 2 + get s l m t ^ 2) ltac:(intros; pose proof (pow2_ge_0 (get c l i t)); pose proof (pow2_ge_0 (get s l i t)); lra) Z m ltac:(lia)).
    cbn beta in Q. pose proof (pow2_ge_0 (get c l m t)). pose proof (pow2_ge_0 (get s l m t)). split; apply Rsqr_0_uniq; rewrite Rsqr_pow2; lra.
  - intros H. rewrite (sumn_ext _ _ (fun _ => 0)); [rewrite sumn_zero; apply sqrt_0|]. intros m Lm. destruct (H m ltac:(lia)) as [-> ->]. ring.
Qed.
(** scaling the coefficients by k scales every amplitude by |k| *)
Theorem C77_scale : forall c s LO MO k n nt amp, degree_amplitude c s LO MO = Ok (n, nt, amp) ->
  exists amp', degree_amplitude (amap (Rmult k) c) (amap (Rmult k) s) LO MO = Ok (n, nt, amp') /\ forall l t, amp' l t = Rabs k * amp l t.
Proof.
  intros c s LO MO k n nt amp E. unfold degree_amplitude in *. change (rows (amap (Rmult k) c)) with (rows c). change (rows (amap (Rmult k) s)) with (rows s).
  change (cols (amap (Rmult k) c)) with (cols c). change (cols (amap (Rmult k) s)) with (cols s). change (nslice (amap (Rmult k) c)) with (nslice c). change (nslice (amap (Rmult k) s)) with (nslice s).
  destruct (_ || _)%bool; [discriminate|]. destruct (negb _); [discriminate|]. injection E as <- <- <-. eexists. split; [reflexivity|]. intros l t. cbn [amap get].
  rewrite <- sqrt_Rsqr_abs, <- sqrt_mult; [|apply Rle_0_sqr|apply (power_nonneg (get c) (get s))]. f_equal. rewrite <- sumn_scal. apply sumn_ext. intros m _. unfold Rsqr. ring.
Qed.
(** triangle inequality: the amplitude of a sum of fields is at most the sum of the amplitudes *)
Lemma cauchy n (f g f' g' : nat -> R) : (sumn n (fun i => f i * g i + f' i * g' i)) ^ 2 <= sumn n (fun i => f i ^ 2 + f' i ^ 2) * sumn n (fun i => g i ^ 2 + g' i ^ 2).
Proof.
  set (a := sumn n (fun i => f i ^ 2 + f' i ^ 2)). set (b := sumn n (fun i => f i * g i + f' i * g' i)). set (c := sumn n (fun i => g i ^ 2 + g' i ^ 2)).
  assert (Q : forall x y, 0 <= a * x ^ 2 + 2 * b * x * y + c * y ^ 2).
  { intros x y. replace (a * x ^ 2 + 2 * b * x * y + c * y ^ 2) with (sumn n (fun i => (x * f i + y * g i) ^ 2 + (x * f' i + y * g' i) ^ 2)).
    - assert (forall h, (forall i, 0 <= h i) -> 0 <= sumn n h) as P. { intros h Hh. induction n as [|k IH]; cbn [sumn]; [lra|]. pose proof (Hh k). lra. }
      apply P. intros i. pose proof (pow2_ge_0 (x * f i + y * g i)). pose proof (pow2_ge_0 (x * f' i + y * g' i)). lra.
    - unfold a, b, c. clear. induction n as [|k IH]; cbn [sumn]; [ring|]. rewrite IH. ring. }
  destruct (Req_dec a 0) as [Z|N].
  - assert (F : forall i, (i < n)%nat -> f i ^ 2 + f' i ^ 2 = 0).
    { apply sumn_zero_terms; [intros i _; pose proof (pow2_ge_0 (f i)); pose proof (pow2_ge_0 (f' i)); lra|exact Z]. }
    assert (b = 0) as ->; [|rewrite Z; lra]. unfold b. rewrite (sumn_ext _ _ (fun _ => 0)); [apply sumn_zero|]. intros i Li. specialize (F i Li).
    pose proof (pow2_ge_0 (f i)). pose proof (pow2_ge_0 (f' i)). assert (f i = 0) by (apply Rsqr_0_uniq; rewrite Rsqr_pow2; lra). assert (f' i = 0) by (apply Rsqr_0_uniq; rewrite Rsqr_pow2; lra).
    rewrite H1, H2. ring.
  - assert (0 < a). { destruct (Rle_lt_or_eq_dec 0 a); auto; [|congruence]. specialize (Q 1 0). lra. }
    specialize (Q (- b) a). assert (0 <= a * (a * c - b ^ 2)) by (replace (a * (a * c - b ^ 2)) with (a * (- b) ^ 2 + 2 * b * - b * a + c * a ^ 2) by ring; exact Q).
    assert (0 <= a * c - b ^ 2); [|lra]. apply (Rmult_le_reg_l a); lra.
Qed.
Theorem C77_triangle : forall c s c' s' LO MO n nt amp amp', same_shape c c' -> same_shape s s' ->
  degree_amplitude c s LO MO = Ok (n, nt, amp) -> degree_amplitude c' s' LO MO = Ok (n, nt, amp') ->
  let plus a b := mkarr (rows a) (cols a) (depth a) (fun l m t => get a l m t + get b l m t) in
  exists amp2, degree_amplitude (plus c c') (plus s s') LO MO = Ok (n, nt, amp2) /\ forall l t, amp2 l t <= amp l t + amp' l t.
Proof.
  intros c s c' s' LO MO n nt amp amp' (H1 & H2 & H3) (K1 & K2 & K3) E E' plus. unfold degree_amplitude in *.
  change (rows (plus c c')) with (rows c). change (rows (plus s s')) with (rows s). change (cols (plus c c')) with (cols c). change (cols (plus s s')) with (cols s).
  change (nslice (plus c c')) with (nslice c). change (nslice (plus s s')) with (nslice s). rewrite <- H1, <- H2, <- K1, <- K2 in E'.
  destruct (_ || _)%bool; [discriminate|]. destruct (negb (nslice c =? nslice s)%nat); [discriminate|]. destruct (negb _); [discriminate|]. injection E as <- <- <-. injection E' as _ <-.
  eexists. split; [reflexivity|]. intros l t. cbn [plus get]. set (MM := match MO with Some k => k | None => _ end).
  set (p := sumn (MM + 1) (fun m => get c l m t ^ 2 + get s l m t ^ 2)). set (q := sumn (MM + 1) (fun m => get c' l m t ^ 2 + get s' l m t ^ 2)).
  assert (P : 0 <= p) by (apply (power_nonneg (get c) (get s))). assert (Q : 0 <= q) by (apply (power_nonneg (get c') (get s'))).
  pose proof (cauchy (MM + 1) (fun m => get c l m t) (fun m => get c' l m t) (fun m => get s l m t) (fun m => get s' l m t)) as CS. cbn beta in CS. fold p q in CS.
  set (r := sumn _ _) in CS. match goal with |- _ <= ?a + ?b => change a with (sqrt p); change b with (sqrt q) end. apply Rsqr_incr_0_var; [|apply Rplus_le_le_0_compat; apply sqrt_pos].
  replace (Rsqr (sqrt p + sqrt q)) with (p + q + 2 * (sqrt p * sqrt q)) by (unfold Rsqr; ring_simplify; rewrite !pow2_sqrt by auto; ring).
  rewrite Rsqr_sqrt.
  - replace (sumn _ _) with (p + q + 2 * r). 2:{ unfold p, q, r. clear. induction (MM + 1)%nat as [|k IH]; cbn [sumn]; [ring|]. rewrite <- IH. ring. }
    assert (r <= sqrt p * sqrt q); [|lra]. rewrite <- sqrt_mult by auto. eapply Rle_trans; [apply Rle_abs|]. rewrite <- sqrt_Rsqr_abs. apply sqrt_le_1_alt. rewrite Rsqr_pow2. exact CS.
  - apply (power_nonneg (fun l m t => get c l m t + get c' l m t) (fun l m t => get s l m t + get s' l m t)).
Qed.
(** the same numbers as the amplitude attribute of a harmonics object read for the first time *)
Theorem C77_harmonics : forall h n nt amp, rows (clm h) = (lmax h + 1)%nat -> cols (clm h) = (mmax h + 1)%nat -> same_shape (clm h) (slm h) ->
  degree_amplitude (clm h) (slm h) None None = Ok (n, nt, amp) -> n = (lmax h + 1)%nat /\ forall l t, amp l t = fst (read_amplitude (construct h)) l t.
Proof.
  intros h n nt amp A B (S1 & S2 & S3) E. rewrite (amp_eq (clm h) (slm h) None None) in E.
  - injection E as <- _ <-. cbn [bound]. split; [lia|]. intros l t. unfold read_amplitude, construct. cbn [camp cobj fst]. unfold amplitude_now, power_of. f_equal.
    rewrite B. replace (mmax h + 1 - 1 + 1)%nat with (mmax h + 1)%nat by lia. set (f := fun m => get (clm h) l m t ^ 2 + get (slm h) l m t ^ 2).
    clear B. induction (mmax h + 1)%nat as [|k IH]; [reflexivity|]. cbn [sumn]. rewrite IH, seq_S, map_app. cbn [map Nat.add]. fold (f k). clear. induction (map f (seq 0 k)) as [|x xs IH]; cbn [app Rsum fold_right] in *; [unfold Rsum; cbn; ring|].
    unfold Rsum in *. cbn [fold_right]. rewrite <- IH. ring.
  - unfold covers_block, bound, nslice. rewrite S3. repeat split; lia.
Qed.
(** a degree or order outside the coefficients raises *)
Theorem C77_out_of_range : forall c s L M, (rows c <= L)%nat \/ (cols c <= M)%nat -> degree_amplitude c s (Some L) (Some M) = Err IndexError.
Proof. intros c s L M H. unfold degree_amplitude. replace ((_ <? _) || _ || _ || _)%nat%bool with true; [reflexivity|]. symmetry. destruct H; lia. Qed.

(** ** C78 gen_disc_load *)
Lemma nth_tab (f : nat -> R) n l d : (l < n)%nat -> nth l (map f (seq 0 n)) d = f l.
Proof. intros H. rewrite (nth_indep _ d (f 0%nat)) by (rewrite map_length, seq_length; exact H). rewrite (map_nth f), seq_nth by exact H. reflexivity. Qed.
(** *** Legendre coefficients of a cap *)
Lemma leg_int0 x : is_RInt (legP 0) x 1 (1 - x).
Proof. apply (FTC (fun t => t) (legP 0)); [intros t; cbn; apply (is_derive_id (K := R_AbsRing))|intros t; apply legP_cont]. Qed.
Lemma leg_int k x : is_RInt (legP (S k)) x 1 ((legP k x - legP (S (S k)) x) / (2 * INR k + 3)).
Proof.
  pose proof (pos_INR k). replace ((legP k x - legP (S (S k)) x) / (2 * INR k + 3)) with
    ((fun t => / (2 * INR k + 3) * (legP (S (S k)) t - legP k t)) 1 - (fun t => / (2 * INR k + 3) * (legP (S (S k)) t - legP k t)) x) by (cbn beta; rewrite !legP_1; field; lra).
  apply (FTC (fun t => / (2 * INR k + 3) * (legP (S (S k)) t - legP k t))); [|intros t; apply legP_cont].
  intros t. replace (legP (S k) t) with (/ (2 * INR k + 3) * (legD (S (S k)) t - legD k t)) by (rewrite leg_deriv_diff; field; lra).
  apply (is_derive_scal (fun t => legP (S (S k)) t - legP k t)). apply (is_derive_minus (V := R_NormedModule)); apply legP_derive.
Qed.
Lemma pl_alpha_ok LMAX x : -1 <= x <= 1 -> exists pa, pl_alpha LMAX x = Ok pa /\ forall l, (l <= LMAX)%nat -> nth l pa 0 = (2 * INR l + 1) / 2 * RInt (legP l) x 1.
Proof.
  intros Hx. destruct (C43_values (LMAX + 1) [x] ltac:(lia)) as (pl & dpl & E & _ & _ & V); [intros y [<-|[]]; exact Hx|].
  unfold pl_alpha. rewrite E. cbn [bind fst]. eexists. split; [reflexivity|]. intros l Hl.
  rewrite nth_tab by lia.
  assert (Q : forall j, (j <= LMAX + 1)%nat -> nth 0 (nth j pl []) 0 = sqrt (2 * INR j + 1) * legP j x).
  { intros j Hj. specialize (V j 0%nat x Hj eq_refl). unfold at2 in V. destruct (nth_error pl j) as [r|] eqn:Er; [|discriminate]. rewrite (nth_error_nth _ _ _ Er). apply nth_error_nth, V. }
  destruct l as [|k].
  - rewrite (is_RInt_unique _ _ _ _ (leg_int0 x)). cbn [INR]. lra.
  - rewrite (is_RInt_unique _ _ _ _ (leg_int k x)), !Q by lia. replace (S k + 1)%nat with (S (S k)) by lia. rewrite !S_INR. pose proof (pos_INR k).
    replace (2 * (INR k + 1) - 1) with (2 * INR k + 1) by ring. replace (2 * (INR k + 1 + 1) + 1) with (2 * (INR k + 1) + 3) by ring.
    assert (sqrt (2 * INR k + 1) <> 0) by (apply Rgt_not_eq, sqrt_lt_R0; lra). assert (sqrt (2 * (INR k + 1) + 3) <> 0) by (apply Rgt_not_eq, sqrt_lt_R0; lra). field. repeat split; lra.
Qed.
(** *** specification *)
(** the spherical harmonic of degree l and order m at the center *)
Definition sph (trig : R -> R) (lon lat : R) (l m : nat) : R := Nlm l m (cos (colat lat)) * trig (INR m * deg lon).
(** Legendre functions of the center: computed (then the center is not a pole and neither LMAX < 2 nor MMAX = 0) or given *)
Definition good_plm (PLM : option (arr R)) (LMAX MM : nat) (lat : R) : Prop :=
  match PLM with
  | None => -90 < lat < 90 /\ (2 <= LMAX)%nat /\ (1 <= MM)%nat
  | Some P => (LMAX < rows P)%nat /\ (MM < cols P)%nat /\ forall l m, (l <= LMAX)%nat -> (m <= MM)%nat -> (m <= l)%nat -> get P l m 0 = Nlm l m (cos (colat lat))
  end.
Lemma center_ok PLM LMAX MM lat : good_plm PLM LMAX MM lat -> (MM <= LMAX)%nat ->
  exists P, center_plm PLM LMAX MM lat = Ok P /\ forall l m, (l <= LMAX)%nat -> (m <= MM)%nat -> (m <= l)%nat -> P l m = Nlm l m (cos (colat lat)).
Proof.
  intros G HM. unfold center_plm. destruct PLM as [P|].
  - destruct G as (G1 & G2 & G3). replace ((_ <? _) || _)%nat%bool with false by (symmetry; lia). eexists. split; [reflexivity|]. exact G3.
  - destruct G as (G1 & G2 & G3). destruct (holmes_gives LMAX [lat] G2) as (P & E & _ & _ & _ & V). rewrite E. cbn [bind].
    replace ((_ =? 0) || _)%nat%bool with false by (symmetry; lia). eexists. split; [reflexivity|]. intros l m L1 L2 L3. cbn beta. rewrite V by (cbn; lia). cbn [nth].
    apply NU_sin_pos. pose proof PI_RGT_0. apply sin_gt_0; unfold colat; nra.
Qed.
Lemma cap_load_ok data lon lat x LMAX MM df g PLM : -1 <= x <= 1 -> good_plm PLM LMAX MM lat -> (MM <= LMAX)%nat -> (LMAX < List.length df)%nat ->
  exists Y, cap_load data lon lat x LMAX MM (df, g) PLM = Ok Y /\
   coefficients Y 0 LMAX MM (fun l m => nth l df 0 * ((2 * INR l + 1) / 2 * RInt (legP l) x 1) * (g * data) * sph cos lon lat l m)
                            (fun l m => nth l df 0 * ((2 * INR l + 1) / 2 * RInt (legP l) x 1) * (g * data) * sph sin lon lat l m).
Proof.
  intros Hx G HM Hd. destruct (pl_alpha_ok LMAX x Hx) as (pa & E & V). destruct (center_ok _ _ _ _ G HM) as (P & EP & VP).
  unfold cap_load. rewrite E, EP. cbn [bind fst snd]. replace (_ <? _)%nat with false by (symmetry; lia). eexists. split; [reflexivity|].
  unfold coefficients. cbn [lmax mmax time month clm slm rows cols depth get]. repeat (split; [reflexivity|]). split; [repeat split|].
  intros l m t Hl Hm. split.
  - intros [_ H]. replace ((m <=? MM) && (m <=? l) && (l <=? LMAX))%nat%bool with true by (symmetry; lia). rewrite V, VP by assumption. unfold sph. split; ring.
  - intros H. replace ((m <=? MM) && (m <=? l) && (l <=? LMAX))%nat%bool with false by (symmetry; lia). split; reflexivity.
Qed.
(** centimetres of water on the disc for the three unit codes; [area] in square centimetres *)
Definition thickness (z : Z) (area data : R) : R := if (z =? 1)%Z then data else if (z =? 2)%Z then data * 10 ^ 15 / area else data / 10.
(** the coefficients of a layer of [th] cm of water on the cap around (lon, lat) whose angular radius has cosine x *)
Definition cap_coefficients (Y : harm) (LMAX MM : nat) (kl : list R) (lon lat x th : R) : Prop :=
  coefficients Y 0 LMAX MM (fun l m => cmwe_factor kl LMAX l * (2 * PI * RInt (legP l) x 1) * sph cos lon lat l m * th)
                           (fun l m => cmwe_factor kl LMAX l * (2 * PI * RInt (legP l) x 1) * sph sin lon lat l m * th).
Lemma cap_units_ok LMAX h k ll z gt data area : (LMAX < List.length k)%nat -> (z = 1 \/ z = 2 \/ z = 3)%Z -> (z = 2%Z -> gt * data = data * 10 ^ 15 / area) ->
  exists df g, cap_units LMAX (GCode z) (Some (h, k, ll)) gt = Ok (df, g) /\ (LMAX < List.length df)%nat /\ g * data = thickness z area data /\
    forall l, (l <= LMAX)%nat -> nth l df 0 = 4 * PI * cmwe_factor k LMAX l / (1 + 2 * INR l).
Proof.
  intros Hk Hz Hg. destruct (spatial_ok LMAX h k ll Hk) as (d & d' & E1 & _ & L1 & _ & V).
  set (df := map (fun l => 4 * PI * nth l d 0 / (1 + 2 * INR l)) (seq 0 (List.length d))).
  assert (EV : forall l, (l <= LMAX)%nat -> nth l df 0 = 4 * PI * cmwe_factor k LMAX l / (1 + 2 * INR l)).
  { intros l Hl. unfold df. rewrite nth_tab by lia. destruct (V l Hl) as [-> _]. reflexivity. }
  exists df. unfold cap_units. rewrite E1. cbn [bind]. fold df. unfold thickness.
  destruct Hz as [->|[->| ->]]; cbn [Z.eqb Pos.eqb]; eexists; (split; [reflexivity|]); (split; [unfold df; rewrite map_length, seq_length; lia|]); (split; [|exact EV]); [ring|auto|lra].
Qed.
Lemma cap_coded data lon lat x LMAX MM z h k ll gt area PLM : -1 <= x <= 1 -> good_plm PLM LMAX MM lat -> (MM <= LMAX)%nat -> (LMAX < List.length k)%nat ->
  (z = 1 \/ z = 2 \/ z = 3)%Z -> (z = 2%Z -> gt * data = data * 10 ^ 15 / area) ->
  exists Y, bind (cap_units LMAX (GCode z) (Some (h, k, ll)) gt) (fun du => cap_load data lon lat x LMAX MM du PLM) = Ok Y /\ cap_coefficients Y LMAX MM k lon lat x (thickness z area data).
Proof.
  intros Hx G HM Hk Hz Hg. destruct (cap_units_ok LMAX h k ll z gt data area Hk Hz Hg) as (df & g & E & L & T & V). rewrite E. cbn [bind].
  destruct (cap_load_ok data lon lat x LMAX MM df g PLM Hx G HM L) as (Y & EY & C). exists Y. split; [exact EY|].
  unfold cap_coefficients, coefficients in *. destruct C as (C1 & C2 & C3 & C4 & C5 & C6 & C7 & C8 & C). repeat (split; [assumption|]). intros l m t Hl Hm.
  destruct (C l m t Hl Hm) as [A B]. split; [|exact B]. intros H. destruct (A H) as [-> ->]. rewrite V, T by assumption. pose proof (pos_INR l). split; field; lra.
Qed.
Lemma rad_pos' LMAX : 0 < rad_e (earth LMAX). Proof. apply rad_pos. unfold earth, units_init. cbn [a_axis]. unfold a_default. lra. Qed.
(** the coefficients of the uniform disc: x is the cosine of its angular radius *)
Theorem C78_disc : forall data lon lat area LMAX MMAX z h k ll PLM x,
  let MM := upto_order MMAX LMAX in let a := rad_e (earth LMAX) in
  (MM <= LMAX)%nat -> good_plm PLM LMAX MM lat -> (LMAX < List.length k)%nat -> (z = 1 \/ z = 2 \/ z = 3)%Z ->
  -1 <= x <= 1 -> 10 ^ 10 * area = 2 * PI * a ^ 2 * (1 - x) ->
  exists Y, gen_disc_load data lon lat area LMAX MMAX (GCode z) PLM (Some (h, k, ll)) = Ok Y /\
    cap_coefficients Y LMAX MM k lon lat x (thickness z (10 ^ 10 * area) data).
Proof.
  intros data lon lat area LMAX MMAX z h k ll PLM x MM a HM G Hk Hz Hx HA. unfold gen_disc_load. fold MM.
  assert (disc_cos LMAX area = x) as ->.
  { unfold disc_cos. rewrite HA. fold a. pose proof (rad_pos' LMAX). pose proof PI_RGT_0. field. unfold a. lra. }
  apply cap_coded; auto. intros _. unfold Rdiv. ring.
Qed.
(** custom degree factors *)
Theorem C78_custom : forall data lon lat area LMAX MMAX df PLM LOVE x,
  let MM := upto_order MMAX LMAX in let a := rad_e (earth LMAX) in
  (MM <= LMAX)%nat -> good_plm PLM LMAX MM lat -> (LMAX < List.length df)%nat ->
  -1 <= x <= 1 -> 10 ^ 10 * area = 2 * PI * a ^ 2 * (1 - x) ->
  exists Y, gen_disc_load data lon lat area LMAX MMAX (GCustom df) PLM LOVE = Ok Y /\
    coefficients Y 0 LMAX MM (fun l m => nth l df 0 * ((2 * INR l + 1) / 2 * RInt (legP l) x 1) * data * sph cos lon lat l m)
                             (fun l m => nth l df 0 * ((2 * INR l + 1) / 2 * RInt (legP l) x 1) * data * sph sin lon lat l m).
Proof.
  intros data lon lat area LMAX MMAX df PLM LOVE x MM a HM G Hd Hx HA. unfold gen_disc_load. fold MM. cbn [cap_units bind].
  assert (disc_cos LMAX area = x) as ->.
  { unfold disc_cos. rewrite HA. fold a. pose proof (rad_pos' LMAX). pose proof PI_RGT_0. field. unfold a. lra. }
  destruct (cap_load_ok data lon lat x LMAX MM df 1 PLM Hx G HM Hd) as (Y & E & C). exists Y. split; [exact E|].
  unfold coefficients in *. destruct C as (C1 & C2 & C3 & C4 & C5 & C6 & C7 & C8 & C). repeat (split; [assumption|]). intros l m t Hl Hm.
  destruct (C l m t Hl Hm) as [A B]. split; [|exact B]. intros H. destruct (A H) as [-> ->]. split; ring.
Qed.
(** gigatonnes: the total mass is the input, whatever the area (degree 0 of a point mass, C49_mass) *)
Theorem C78_mass : forall data lon lat area LMAX MMAX h k ll PLM Y,
  let a := rad_e (earth LMAX) in
  (upto_order MMAX LMAX <= LMAX)%nat -> good_plm PLM LMAX (upto_order MMAX LMAX) lat -> (LMAX < List.length k)%nat -> 0 < area -> 10 ^ 10 * area <= 4 * PI * a ^ 2 ->
  gen_disc_load data lon lat area LMAX MMAX (GCode 2) PLM (Some (h, k, ll)) = Ok Y ->
  get (clm Y) 0 0 0 = cmwe_factor k LMAX 0 / a ^ 2 * (10 ^ 15 * data).
Proof.
  intros data lon lat area LMAX MMAX h k ll PLM Y a HM G Hk Ha HA E. pose proof (rad_pos' LMAX) as Pa. fold a in Pa. pose proof PI_RGT_0 as Pp.
  set (x := 1 - 10 ^ 10 * area / (2 * PI * a ^ 2)). assert (P2 : 0 < 2 * PI * a ^ 2) by (apply Rmult_lt_0_compat; [lra|apply pow_lt; lra]).
  assert (EX : 10 ^ 10 * area = 2 * PI * a ^ 2 * (1 - x)) by (unfold x; field; lra).
  assert (Hx : -1 <= x <= 1).
  { assert (0 <= 1 - x) by (apply (Rmult_le_reg_l (2 * PI * a ^ 2)); [exact P2|]; rewrite <- EX, Rmult_0_r; apply Rmult_le_pos; [apply pow_le; lra|lra]).
    assert (1 - x <= 2) by (apply (Rmult_le_reg_l (2 * PI * a ^ 2)); [exact P2|]; rewrite <- EX; lra). lra. }
  destruct (C78_disc data lon lat area LMAX MMAX 2 h k ll PLM x HM G Hk ltac:(auto) Hx EX) as (Y' & E' & C). assert (Y' = Y) by congruence. subst Y'.
  destruct C as (_ & _ & _ & _ & _ & _ & _ & _ & C). destruct (C 0%nat 0%nat 0%nat ltac:(lia) ltac:(lia)) as [A _]. destruct (A (conj (le_n _) (le_n _))) as [-> _].
  rewrite (is_RInt_unique _ _ _ _ (leg_int0 x)). unfold sph. rewrite Nlm_NU, NU_0_0. cbn [INR]. rewrite Rmult_0_l, cos_0. unfold thickness. cbn [Z.eqb Pos.eqb].
  replace (10 ^ 10 * area) with (2 * PI * a ^ 2 * (1 - x)). assert (1 - x <> 0). { intros Z. rewrite Z, Rmult_0_r in EX. assert (0 < 10 ^ 10 * area) by (apply Rmult_lt_0_compat; [apply pow_lt; lra|lra]). lra. }
  field. repeat split; lra.
Qed.
(** a disc covering the whole Earth is a uniform layer: all degrees above zero vanish *)
Theorem C78_whole_earth : forall data lon lat area LMAX MMAX z h k ll PLM Y,
  let MM := upto_order MMAX LMAX in let a := rad_e (earth LMAX) in
  (MM <= LMAX)%nat -> good_plm PLM LMAX MM lat -> (LMAX < List.length k)%nat -> (z = 1 \/ z = 2 \/ z = 3)%Z -> 10 ^ 10 * area = 4 * PI * a ^ 2 ->
  gen_disc_load data lon lat area LMAX MMAX (GCode z) PLM (Some (h, k, ll)) = Ok Y ->
  get (clm Y) 0 0 0 = cmwe_factor k LMAX 0 * (4 * PI) * thickness z (4 * PI * a ^ 2) data /\
  forall l m, (1 <= l <= LMAX)%nat -> (m <= MM)%nat -> get (clm Y) l m 0 = 0 /\ get (slm Y) l m 0 = 0.
Proof.
  intros data lon lat area LMAX MMAX z h k ll PLM Y MM a HM G Hk Hz HA E.
  destruct (C78_disc data lon lat area LMAX MMAX z h k ll PLM (-1) HM G Hk Hz ltac:(lra)) as (Y' & E' & C); [fold a; rewrite HA; ring|]. assert (Y' = Y) by congruence. subst Y'.
  destruct C as (_ & _ & _ & _ & _ & _ & _ & _ & C). fold MM in C. split.
  - destruct (C 0%nat 0%nat 0%nat ltac:(lia) ltac:(lia)) as [A _]. destruct (A (conj (le_n _) (le_n _))) as [-> _].
    rewrite (is_RInt_unique _ _ _ _ (leg_int0 (-1))). unfold sph. rewrite Nlm_NU, NU_0_0. cbn [INR]. rewrite Rmult_0_l, cos_0, HA. ring.
  - intros l m Hl Hm. destruct (C l m 0%nat ltac:(lia) Hm) as [A B]. destruct (le_dec m l) as [L|L]; [|apply B; lia]. destruct (A ltac:(lia)) as [-> ->].
    destruct l as [|j]; [lia|]. assert (RInt (legP (S j)) (-1) 1 = 0) as ->; [|split; ring]. rewrite (is_RInt_unique _ _ _ _ (leg_int j (-1))), !legP_m1. pose proof (pos_INR j). cbn [pow]. match goal with |- ?a = ?b => change (@eq R a b) end. field. lra.
Qed.
(** REFUTED: zonal coefficients only (MMAX = 0), or LMAX = 0, cannot be computed without given polynomials *)
Theorem C78_zonal_refuted : forall data lon lat area LMAX U LOVE, exists e, gen_disc_load data lon lat area LMAX (Some 0%nat) U None LOVE = Err e.
Proof.
  intros. unfold gen_disc_load. destruct (cap_units _ _ _ _) as [du|e]; cbn [bind]; [|eauto]. unfold cap_load. destruct (pl_alpha _ _) as [pa|e]; cbn [bind]; [|eauto].
  unfold center_plm. destruct (holmes_or _ _ _) as [P|e]; cbn [bind]; [|eauto]. cbn [upto_order Nat.eqb]. rewrite orb_true_r. cbn [bind]. eauto.
Qed.

(** ** C79 gen_spherical_cap *)
(** angular radius in degrees (first choice) or a radius along the surface in kilometres *)
Theorem C79_cap : forall data lon lat LMAX MMAX AREA RAD_CAP RAD_KM z h k ll PLM alpha,
  let MM := upto_order MMAX LMAX in let a := rad_e (earth LMAX) in
  (MM <= LMAX)%nat -> good_plm PLM LMAX MM lat -> (LMAX < List.length k)%nat -> (z = 1 \/ z = 2 \/ z = 3)%Z -> 0 < alpha ->
  (RAD_CAP <> 0 /\ alpha = RAD_CAP * PI / 180 \/
   RAD_CAP = 0 /\ AREA <> 0 /\ PI * (alpha * a) ^ 2 = AREA \/
   RAD_CAP = 0 /\ AREA = 0 /\ alpha * a = 10 ^ 5 * RAD_KM) ->
  exists Y, gen_spherical_cap data lon lat LMAX MMAX AREA RAD_CAP RAD_KM (GCode z) PLM (Some (h, k, ll)) = Ok Y /\
    cap_coefficients Y LMAX MM k lon lat (cos alpha) (thickness z (PI * (alpha * a) ^ 2) data).
Proof.
  intros data lon lat LMAX MMAX AREA RAD_CAP RAD_KM z h k ll PLM alpha MM a HM G Hk Hz Ha HR. pose proof (rad_pos' LMAX) as Pa. fold a in Pa. pose proof PI_RGT_0 as Pp.
  assert (E : cap_radius LMAX AREA RAD_CAP RAD_KM = Ok alpha).
  { unfold cap_radius. fold a. destruct HR as [[N ->]|[(-> & N & <-)|(-> & -> & E)]].
    - destruct (Req_EM_T RAD_CAP 0); [contradiction|]. reflexivity.
    - destruct (Req_EM_T 0 0); [|lra]. destruct (Req_EM_T (PI * (alpha * a) ^ 2) 0); [contradiction|]. f_equal.
      replace (PI * (alpha * a) ^ 2 / PI) with (Rsqr (alpha * a)) by (unfold Rsqr; field; lra). rewrite sqrt_Rsqr by (apply Rmult_le_pos; lra). field. lra.
    - destruct (Req_EM_T 0 0); [|lra]. destruct (Req_EM_T RAD_KM 0) as [Z|_]; [exfalso; rewrite Z, Rmult_0_r in E; assert (0 < alpha * a) by (apply Rmult_lt_0_compat; lra); lra|].
      f_equal. rewrite <- E. field. lra. }
  unfold gen_spherical_cap. rewrite E. cbn [bind]. fold MM a. apply cap_coded; auto; [apply COS_bound|]. intros _. unfold Rdiv. ring.
Qed.
Theorem C79_no_size : forall data lon lat LMAX MMAX U PLM LOVE, gen_spherical_cap data lon lat LMAX MMAX 0 0 0 U PLM LOVE = Err ValueError.
Proof. intros. unfold gen_spherical_cap, cap_radius. destruct (Req_EM_T 0 0); [reflexivity|contradiction]. Qed.
(** a cap of angular radius alpha and the disc of the area of that cap, 2 pi a^2 (1 - cos alpha), carry the same coefficients for a layer in cm or mm of water *)
Theorem C79_same_as_disc : forall data lon lat LMAX MMAX r area z h k ll PLM Y Y',
  let a := rad_e (earth LMAX) in
  (upto_order MMAX LMAX <= LMAX)%nat -> good_plm PLM LMAX (upto_order MMAX LMAX) lat -> (LMAX < List.length k)%nat -> (z = 1 \/ z = 3)%Z -> 0 < r ->
  10 ^ 10 * area = 2 * PI * a ^ 2 * (1 - cos (r * PI / 180)) ->
  gen_spherical_cap data lon lat LMAX MMAX 0 r 0 (GCode z) PLM (Some (h, k, ll)) = Ok Y -> gen_disc_load data lon lat area LMAX MMAX (GCode z) PLM (Some (h, k, ll)) = Ok Y' ->
  forall l m, (l <= LMAX)%nat -> (m <= upto_order MMAX LMAX)%nat -> get (clm Y) l m 0 = get (clm Y') l m 0 /\ get (slm Y) l m 0 = get (slm Y') l m 0.
Proof.
  intros data lon lat LMAX MMAX r area z h k ll PLM Y Y' a HM G Hk Hz Hr HA E E' l m Hl Hm. pose proof PI_RGT_0 as Pp.
  destruct (C79_cap data lon lat LMAX MMAX 0 r 0 z h k ll PLM (r * PI / 180) HM G Hk ltac:(intuition)) as (Z & EZ & C); [apply Rdiv_lt_0_compat; [apply Rmult_lt_0_compat|]; lra|left; split; [lra|reflexivity]|].
  destruct (C78_disc data lon lat area LMAX MMAX z h k ll PLM (cos (r * PI / 180)) HM G Hk ltac:(intuition) (COS_bound _) HA) as (Z' & EZ' & C').
  assert (Z = Y) by congruence. assert (Z' = Y') by congruence. subst Z Z'.
  destruct C as (_ & _ & _ & _ & _ & _ & _ & _ & C). destruct C' as (_ & _ & _ & _ & _ & _ & _ & _ & C').
  destruct (C l m 0%nat Hl Hm) as [A B]. destruct (C' l m 0%nat Hl Hm) as [A' B']. destruct (le_dec m l) as [L|L].
  - destruct (A ltac:(lia)) as [-> ->]. destruct (A' ltac:(lia)) as [-> ->]. unfold thickness. destruct Hz as [->| ->]; cbn [Z.eqb Pos.eqb]; auto.
  - destruct (B ltac:(lia)) as [-> ->]. destruct (B' ltac:(lia)) as [-> ->]. auto.
Qed.
Lemma cos_quadratic x : 0 < x -> 2 * (1 - cos x) < x ^ 2.
Proof.
  intros H. replace (1 - cos x) with (2 * (sin (x / 2)) ^ 2) by (replace x with (2 * (x / 2)) at 2 by field; rewrite cos_2a_sin; ring).
  assert (S1 : Rabs (sin (x / 2)) < x / 2).
  { apply Rabs_def1; [apply sin_lt_x; lra|]. destruct (Rlt_dec (x / 2) PI) as [L|L].
    - assert (0 < sin (x / 2)) by (apply sin_gt_0; lra). lra.
    - pose proof (SIN_bound (x / 2)). pose proof PI2_1. pose proof PI_RGT_0. lra. }
  assert (S2 : sin (x / 2) ^ 2 < (x / 2) ^ 2). { rewrite <- (pow2_abs (sin (x / 2))). apply pow_lt_compat_l; [split; [apply Rabs_pos|exact S1]|lia] || (cbn [pow]; pose proof (Rabs_pos (sin (x / 2))); nra). }
  replace (x ^ 2) with (4 * (x / 2) ^ 2) by field. lra.
Qed.
(** REFUTED: an area given with AREA is used as the area of a flat disc, so the cap that is loaded is smaller than asked *)
Theorem C79_area_refuted : forall LMAX A, let a := rad_e (earth LMAX) in 0 < A ->
  exists alpha, cap_radius LMAX A 0 0 = Ok alpha /\ 2 * PI * a ^ 2 * (1 - cos alpha) < A.
Proof.
  intros LMAX A a HA. pose proof (rad_pos' LMAX) as Pa. fold a in Pa. pose proof PI_RGT_0 as Pp. exists (sqrt (A / PI) / a). unfold cap_radius. destruct (Req_EM_T 0 0); [|lra]. destruct (Req_EM_T A 0); [lra|]. fold a. split; [reflexivity|].
  assert (0 < A / PI) by (apply Rdiv_lt_0_compat; lra). assert (S0 : 0 < sqrt (A / PI)) by (apply sqrt_lt_R0; assumption).
  pose proof (cos_quadratic (sqrt (A / PI) / a) ltac:(apply Rdiv_lt_0_compat; lra)) as Q. replace ((sqrt (A / PI) / a) ^ 2) with (sqrt (A / PI) ^ 2 / a ^ 2) in Q by (field; lra).
  rewrite pow2_sqrt in Q by lra. assert (P : 0 < PI * a ^ 2) by (apply Rmult_lt_0_compat; [lra|apply pow_lt; lra]).
  apply (Rmult_lt_compat_l (PI * a ^ 2)) in Q; [|exact P]. replace (PI * a ^ 2 * (A / PI / a ^ 2)) with A in Q by (field; lra). lra.
Qed.
(** REFUTED: in gigatonnes the total mass of the cap is smaller than the input mass *)
Theorem C79_mass_refuted : forall data lon lat LMAX MMAX r h k ll PLM Y,
  let a := rad_e (earth LMAX) in let alpha := r * PI / 180 in
  (upto_order MMAX LMAX <= LMAX)%nat -> good_plm PLM LMAX (upto_order MMAX LMAX) lat -> (LMAX < List.length k)%nat -> 0 < r ->
  gen_spherical_cap data lon lat LMAX MMAX 0 r 0 (GCode 2) PLM (Some (h, k, ll)) = Ok Y ->
  get (clm Y) 0 0 0 = cmwe_factor k LMAX 0 / a ^ 2 * (10 ^ 15 * data) * (2 * (1 - cos alpha) / alpha ^ 2) /\ 2 * (1 - cos alpha) / alpha ^ 2 < 1.
Proof.
  intros data lon lat LMAX MMAX r h k ll PLM Y a alpha HM G Hk Hr E. pose proof (rad_pos' LMAX) as Pa. fold a in Pa. pose proof PI_RGT_0 as Pp.
  assert (Ha : 0 < alpha) by (unfold alpha; apply Rdiv_lt_0_compat; [apply Rmult_lt_0_compat|]; lra). split.
  - destruct (C79_cap data lon lat LMAX MMAX 0 r 0 2 h k ll PLM alpha HM G Hk ltac:(auto) Ha) as (Z & EZ & C); [left; split; [lra|reflexivity]|].
    assert (Z = Y) by congruence. subst Z. destruct C as (_ & _ & _ & _ & _ & _ & _ & _ & C). destruct (C 0%nat 0%nat 0%nat ltac:(lia) ltac:(lia)) as [A _]. destruct (A (conj (le_n _) (le_n _))) as [-> _].
    rewrite (is_RInt_unique _ _ _ _ (leg_int0 (cos alpha))). unfold sph. rewrite Nlm_NU, NU_0_0. cbn [INR]. rewrite Rmult_0_l, cos_0. unfold thickness. cbn [Z.eqb Pos.eqb]. fold a. field. repeat split; lra.
  - pose proof (cos_quadratic alpha Ha). assert (0 < alpha ^ 2) by (apply pow_lt; lra). apply (Rmult_lt_reg_r (alpha ^ 2)); [assumption|]. unfold Rdiv. rewrite Rmult_assoc, Rinv_l, Rmult_1_r by lra. lra.
Qed.
(** *** the hypotheses are met *)
Example C77_example : exists n nt amp, degree_amplitude (mkarr 2 2 None (fun l m _ => if (l =? 1)%nat then 3 else 0)) (mkarr 2 2 None (fun l m _ => if ((l =? 1) && (m =? 1))%nat%bool then 4 else 0)) None (Some 0%nat) = Ok (n, nt, amp) /\ amp 1%nat 0%nat = 3 /\ n = 2%nat.
Proof. do 3 eexists. split; [reflexivity|]. split; [|reflexivity]. cbn. replace (0 + (3 * (3 * 1) + 0 * (0 * 1))) with (Rsqr 3) by (unfold Rsqr; ring). apply sqrt_Rsqr. lra. Qed.
Example C78_nonvacuous : good_plm None 60 60 45 /\ exists x, -1 <= x <= 1 /\ 10 ^ 10 * (2 * PI * rad_e (earth 60) ^ 2 / 10 ^ 10 / 2) = 2 * PI * rad_e (earth 60) ^ 2 * (1 - x).
Proof. split; [cbn; repeat split; (lra || lia)|]. exists (1 / 2). split; [lra|]. field. Qed.
