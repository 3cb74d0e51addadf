(** C80 averaging kernels (gen_averaging_kernel.py). *)
From Coq Require Import Reals Lra Lia ZifyBool ZifyNat.
From Coquelicot Require Import Coquelicot.
From Verif Require Import Base UnitsModel UnitsProofs GaussModel Arr HarmModel LegendreSpec LegendreModel
  SummationModel SummationProofs GenModel GenProofs GaussProofs PropGen LoadModel.
Close Scope Z_scope.
Open Scope R_scope.

(** ** Specification *)
(** Legendre coefficient of degree l of the Gaussian exp(-b (1 - cos psi)) *)
Definition gauss_int (b : R) (l : nat) : R := RInt (fun t => exp (- b * (1 - t)) * legP l t) (-1) 1.
(** the floored coefficients *)
Definition G_ (b cut : R) (l : nat) : R := if (l <=? 1)%nat then gauss_int b l else Rmax (gauss_int b l) cut.
(** half width: the Gaussian falls to one half at [hw] km, on the sphere of radius [a] cm *)
Definition half_at (b hw a : R) : Prop := exp (- b * (1 - cos (hw / (a / 10 ^ 5)))) = 1 / 2.
(** power of the region in the Gaussian spectrum, relative to the squared area *)
Definition region_power (G : nat -> R) (gc gs : nat -> nat -> R) (LMAX MM : nat) : R :=
  sumn (LMAX + 1) (fun l => G l / 2 * sumn (Nat.min MM l + 1) (fun m => gc l m ^ 2 + gs l m ^ 2)).
(** the optimal weight: signal to signal plus noise, F converts the error of a coefficient to centimetres of water *)
Definition damped (G F : nat -> R) (sigma area P : R) (l : nat) (g e : R) : R :=
  g / area / (1 + 2 * (F l * e) ^ 2 * P / (G l * (sigma * area) ^ 2)).

(** ** Lemmas *)
Lemma loop_exact b cut k c0 : 0 < b -> 0 < c0 ->
  let r := gauss_loop cut b k 2 (upd (upd (repeat 0 (S k + 1)) 0 c0) 1 (c0 * W b 1)) in
  List.length r = S (S k) /\ forall l, (l <= S k)%nat -> nth l r 0 = if (l <=? 1)%nat then c0 * W b l else Rmax (c0 * W b l) cut.
Proof.
  intros Hb Hc. set (wl0 := upd (upd (repeat 0 (S k + 1)) 0 c0) 1 (c0 * W b 1)).
  assert (Ln : List.length wl0 = (2 + k)%nat) by (unfold wl0; rewrite !upd_length, repeat_length; lia).
  destruct (gauss_loop_spec cut b k 2 wl0 ltac:(lia) Ln) as (L & P & N & HN & A & B & C).
  set (r := gauss_loop cut b k 2 wl0) in *. cbv zeta. split; [lia|].
  assert (R0 : nth 0 r 0 = c0) by (rewrite P by lia; unfold wl0; rewrite Nat.add_comm; reflexivity).
  assert (R1 : nth 1 r 0 = c0 * W b 1) by (rewrite P by lia; unfold wl0; rewrite Nat.add_comm; reflexivity).
  assert (E : forall j, (j < N)%nat -> nth j r 0 = c0 * W b j).
  { intros j. induction j as [| |j IH1 IH2] using two_step; intros Hj.
    - rewrite R0, W_0. ring.
    - exact R1.
    - destruct (A (S (S j)) ltac:(lia)) as (E & _). rewrite E.
      replace (S (S j) - 1)%nat with (S j) by lia. replace (S (S j) - 2)%nat with j by lia.
      rewrite IH1, IH2 by lia. rewrite (W_rec b j Hb). ring. }
  intros l Hl. destruct (Nat.leb_spec l 1) as [L1|L1]; [apply E; lia|]. destruct (le_lt_dec N l) as [Q|Q].
  - rewrite B by lia. rewrite Rmax_right; [reflexivity|].
    assert (HNk : (N < 2 + k)%nat) by lia. specialize (C HNk). destruct N as [|[|N]]; [lia|lia|].
    replace (S (S N) - 1)%nat with (S N) in C by lia. replace (S (S N) - 2)%nat with N in C by lia.
    rewrite !E in C by lia. pose proof (W_rec b N Hb) as HR. pose proof (W_mono b (S (S N)) l Hb Q).
    assert (c0 * W b (S (S N)) < cut) by (rewrite HR; lra). nra.
  - rewrite E by lia. destruct (A l ltac:(lia)) as (_ & A2). rewrite E in A2 by lia. now rewrite Rmax_left by lra.
Qed.
Lemma gauss_int0 b : 0 < b -> gauss_int b 0 = (1 - exp (-2 * b)) / b.
Proof.
  intros Hb. unfold gauss_int. apply (is_RInt_unique (V := R_CompleteNormedModule)).
  replace ((1 - exp (-2 * b)) / b) with ((fun t => exp (- b * (1 - t)) / b) 1 - (fun t => exp (- b * (1 - t)) / b) (-1)).
  2:{ cbn beta. replace (- b * (1 - 1)) with 0 by ring. replace (- b * (1 - -1)) with (-2 * b) by ring. rewrite exp_0. field. lra. }
  apply (FTC (fun t => exp (- b * (1 - t)) / b)).
  - intros t. cbn [legP]. auto_derive; [exact Logic.I|]. replace (1 + - t) with (1 - t) by ring. field. lra.
  - intros t. apply (ex_derive_continuous (fun t => exp (- b * (1 - t)) * legP 0 t)). cbn [legP]. auto_derive. exact Logic.I.
Qed.
Lemma gauss_int_W b l : 0 < b -> gauss_int b l = gauss_int b 0 * W b l.
Proof.
  intros Hb. rewrite (W_jekeli b l Hb). unfold gauss_int at 1 2. assert (E : RInt (fun t => exp (- b * (1 - t)) * legP 0 t) (-1) 1 = RInt (fun t => exp (- b * (1 - t))) (-1) 1).
  { apply RInt_ext. intros. cbn [legP]. now rewrite Rmult_1_r. }
  assert (NZ : gauss_int b 0 <> 0).
  { rewrite (gauss_int0 b Hb). assert (exp (-2 * b) < 1) by (rewrite <- exp_0; apply exp_increasing; lra). apply Rgt_not_eq. apply Rdiv_lt_0_compat; lra. }
  unfold gauss_int in NZ. rewrite E in *. revert NZ. generalize (RInt (fun t => exp (- b * (1 - t))) (-1) 1). generalize (RInt (fun t => exp (- b * (1 - t)) * legP l t) (-1) 1).
  clear. intros x y N. change (@eq R x (y * (x / y))). change R in x, y. revert x y N. assert (Q : forall x y : R, y <> 0 -> x = y * (x / y)) by (intros; field; auto). exact Q.
Qed.
Lemma gauss_int_pos b l : 0 < b -> 0 < gauss_int b l.
Proof.
  intros Hb. rewrite gauss_int_W by auto. apply Rmult_lt_0_compat; [|apply W_pos; auto]. rewrite gauss_int0 by auto.
  assert (exp (-2 * b) < 1) by (rewrite <- exp_0; apply exp_increasing; lra). apply Rdiv_lt_0_compat; lra.
Qed.
Lemma G_pos b cut l : 0 < b -> 0 < G_ b cut l.
Proof. intros Hb. unfold G_. pose proof (gauss_int_pos b l Hb). destruct (l <=? 1)%nat; [auto|]. pose proof (Rmax_l (gauss_int b l) cut). lra. Qed.
Lemma kernel_gl_ok b LMAX cut : 0 < b -> (1 <= LMAX)%nat -> exists gl, kernel_gl b LMAX cut = Ok gl /\ List.length gl = (LMAX + 1)%nat /\ forall l, (l <= LMAX)%nat -> nth l gl 0 = G_ b cut l.
Proof.
  intros Hb HL. unfold kernel_gl. destruct LMAX as [|k]; [lia|]. eexists. split; [reflexivity|].
  assert (E1 : (1 + exp (-2 * b)) / b - (1 - exp (-2 * b)) / b ^ 2 = (1 - exp (-2 * b)) / b * W b 1).
  { rewrite (W_1 b Hb). assert (exp (-2 * b) < 1) by (rewrite <- exp_0; apply exp_increasing; lra). field. split; lra. }
  rewrite E1. rewrite <- (gauss_int0 b Hb).
  destruct (loop_exact b cut k (gauss_int b 0) Hb (gauss_int_pos b 0 Hb)) as [L V]. split; [lia|]. intros l Hl. rewrite V by auto. unfold G_. rewrite (gauss_int_W b l Hb). reflexivity.
Qed.
Lemma sumn_nonneg n f : (forall i, (i < n)%nat -> 0 <= f i) -> 0 <= sumn n f.
Proof. induction n as [|n IH]; intros H; cbn [sumn]; [lra|]. pose proof (H n ltac:(lia)). assert (0 <= sumn n f) by (apply IH; intros; apply H; lia). lra. Qed.
Lemma region_pos G gc gs LMAX MM : (forall l, 0 < G l) -> gc 0%nat 0%nat <> 0 -> 0 < region_power G gc gs LMAX MM.
Proof.
  intros HG HA. unfold region_power. rewrite Nat.add_1_r.
  assert (NN : forall l, 0 <= G l / 2 * sumn (Nat.min MM l + 1) (fun m => gc l m ^ 2 + gs l m ^ 2)).
  { intros l. apply Rmult_le_pos; [pose proof (HG l); lra|]. apply sumn_nonneg. intros i _. pose proof (pow2_ge_0 (gc l i)). pose proof (pow2_ge_0 (gs l i)). lra. }
  assert (P0 : 0 < G 0%nat / 2 * sumn (Nat.min MM 0 + 1) (fun m => gc 0%nat m ^ 2 + gs 0%nat m ^ 2)).
  { apply Rmult_lt_0_compat; [pose proof (HG 0%nat); lra|]. rewrite Nat.min_0_r. cbn [Nat.add sumn]. pose proof (pow2_ge_0 (gs 0%nat 0%nat)). assert (0 < gc 0%nat 0%nat ^ 2) by (apply pow2_gt_0; auto). lra. }
  induction LMAX as [|k IH]; [cbn [sumn]; lra|]. cbn [sumn] in *. pose proof (NN (S k)). lra.
Qed.
Definition big (a : arr R) (LMAX MM : nat) : Prop := (LMAX < rows a)%nat /\ (MM < cols a)%nat.
Definition unit_factor (UNITS : Z) (LOVE : option love3) (LMAX : nat) (F : nat -> R) : Prop :=
  UNITS = 0%Z /\ (exists h k ll, LOVE = Some (h, k, ll) /\ (LMAX < List.length h)%nat /\ (LMAX < List.length k)%nat /\ (LMAX < List.length ll)%nat /\
     forall l, F l = rho_e (earth LMAX) * rad_e (earth LMAX) * (2 * INR l + 1) / (3 * (1 + nth l k 0))) \/
  UNITS = 1%Z /\ forall l, F l = 1.

(** ** the kernel coefficients *)
Theorem C80_values : forall gc gs ec es sigma hw LMAX MMAX cut UNITS LOVE b F,
  let MM := upto_order MMAX LMAX in let area := get gc 0 0 0 in
  let P := region_power (G_ b cut) (fun l m => get gc l m 0) (fun l m => get gs l m 0) LMAX MM in
  (1 <= LMAX)%nat -> (MM <= LMAX)%nat -> big gc LMAX MM -> big gs LMAX MM -> big ec LMAX MM -> big es LMAX MM ->
  area <> 0 -> sigma <> 0 -> cos (hw / (rad_e (earth LMAX) / 10 ^ 5)) <> 1 -> half_at b hw (rad_e (earth LMAX)) -> unit_factor UNITS LOVE LMAX F ->
  exists Y, gen_averaging_kernel gc gs ec es sigma hw LMAX MMAX cut UNITS LOVE = Ok Y /\ 0 < P /\
    coefficients Y 0 LMAX MM (fun l m => damped (G_ b cut) F sigma area P l (get gc l m 0) (get ec l m 0))
                             (fun l m => damped (G_ b cut) F sigma area P l (get gs l m 0) (get es l m 0)).
Proof.
  intros gc gs ec es sigma hw LMAX MMAX cut UNITS LOVE b F MM area P HL HM [B1 B2] [B3 B4] [B5 B6] [B7 B8] HA HS HC HB HU.
  assert (Eb : kernel_b LMAX hw = b).
  { unfold half_at in HB. apply (f_equal ln) in HB. rewrite ln_exp in HB. replace (1 / 2) with (/ 2) in HB by lra. rewrite ln_Rinv in HB by lra. unfold kernel_b.
    set (x := cos _) in *. replace (ln 2) with (b * (1 - x)) by lra. field. lra. }
  assert (Hb : 0 < b).
  { rewrite <- Eb. unfold kernel_b. set (x := cos _) in *. pose proof (COS_bound (hw / (rad_e (earth LMAX) / 10 ^ 5))). fold x in H. apply Rdiv_lt_0_compat; [|lra]. rewrite <- ln_1. apply ln_increasing; lra. }
  destruct (kernel_gl_ok b LMAX cut Hb HL) as (gl & EG & LG & VG).
  assert (PP : 0 < P) by (apply region_pos; [intros; apply G_pos; auto|exact HA]).
  assert (DF : exists d, (if (UNITS =? 0)%Z then
              match LOVE with
              | None => Err TypeError
              | Some (h, k, l) => do u <- harmonic h k l true false (earth LMAX); match cmwe u with Some d => Ok (Some d) | None => Err TypeError end
              end
            else if (UNITS =? 1)%Z then Ok (Some (repeat 1 (LMAX + 1))) else Ok None) = Ok (Some d) /\ forall l, (l <= LMAX)%nat -> nth l d 0 = F l).
  { destruct HU as [[-> (h & k & ll & -> & H1 & H2 & H3 & HF)]|[-> HF]].
    - cbn [Z.eqb]. destruct (harmonic_ok h k ll true false (earth LMAX) LMAX eq_refl H1 (fun _ => H2) H3) as (u & E & _ & _ & _ & n1 & cw & mw & gh & cu & ch & cv & mv & ug & mb & pa &
        E1 & E2 & E3 & E4 & E5 & E6 & E7 & E8 & E9 & E10 & E11 & L1 & L2 & L3 & L4 & L5 & L6 & L7 & L8 & L9 & L10 & L11 & V).
      rewrite E. cbn [bind]. rewrite E2. exists cw. split; [reflexivity|]. intros l Hl. destruct (V l Hl) as (_ & V2 & _). rewrite V2, HF.
      unfold frac. rewrite Rdiv_1. reflexivity.
    - cbn [Z.eqb Pos.eqb]. eexists. split; [reflexivity|]. intros l Hl. rewrite HF. rewrite (nth_indep _ 0 1) by (rewrite repeat_length; lia). apply nth_repeat. }
  destruct DF as (d & ED & VD). unfold gen_averaging_kernel. rewrite ED. cbn [bind]. rewrite Eb, EG. cbn [bind]. fold MM.
  replace (((rows gc <? LMAX + 1)%nat || (cols gc <? Nat.min MM LMAX + 1)%nat) || ((rows gs <? LMAX + 1)%nat || (cols gs <? Nat.min MM LMAX + 1)%nat))%bool with false by (symmetry; lia).
  replace (((rows ec <? LMAX + 1)%nat || (cols ec <? Nat.min MM LMAX + 1)%nat) || ((rows es <? LMAX + 1)%nat || (cols es <? Nat.min MM LMAX + 1)%nat))%bool with false by (symmetry; lia).
  assert (EP : sumn (LMAX + 1) (fun l => nth l gl 0 / 2 * sumn (Nat.min MM l + 1) (fun m => get gc l m 0 ^ 2 + get gs l m 0 ^ 2)) = P).
  { apply sumn_ext. intros l Hl. rewrite VG by lia. reflexivity. }
  rewrite EP. fold area. cbn [scale]. eexists. split; [reflexivity|]. split; [exact PP|]. unfold coefficients. cbn [lmax mmax time month clm slm amap rows cols depth get].
  repeat (split; [reflexivity|]). split; [repeat split|]. intros l m t Hl Hm. split.
  - intros [_ H]. replace ((l <=? LMAX) && (m <=? Nat.min MM l))%nat%bool with true by (symmetry; lia). rewrite VG, VD by assumption.
    assert (ST : (sigma / sqrt (P / area ^ 2)) ^ 2 = (sigma * area) ^ 2 / P).
    { assert (0 < P / area ^ 2) by (apply Rdiv_lt_0_compat; [exact PP|apply pow2_gt_0; auto]). replace ((sigma / sqrt (P / area ^ 2)) ^ 2) with (sigma ^ 2 / sqrt (P / area ^ 2) ^ 2).
      - rewrite pow2_sqrt by lra. field. split; [lra|auto].
      - field. apply Rgt_not_eq, sqrt_lt_R0. auto. }
    rewrite ST. pose proof (G_pos b cut l Hb) as GP. assert (SA : 0 < (sigma * area) ^ 2) by (apply pow2_gt_0; apply Rmult_integral_contrapositive; auto).
    assert (Q : forall e, 0 < (sigma * area) ^ 2 * G_ b cut l + 2 * (F l * e) ^ 2 * P).
    { intros e. assert (0 < (sigma * area) ^ 2 * G_ b cut l) by (apply Rmult_lt_0_compat; auto). assert (0 <= 2 * (F l * e) ^ 2 * P) by (apply Rmult_le_pos; [|lra]; pose proof (pow2_ge_0 (F l * e)); lra). lra. }
    assert (FE : forall g e, 1 / area * (g / (1 + 2 * (F l ^ 2 / (G_ b cut l * ((sigma * area) ^ 2 / P))) * e ^ 2)) = damped (G_ b cut) F sigma area P l g e).
    { intros g e. unfold damped. specialize (Q e). set (A2 := (sigma * area) ^ 2) in *. replace ((F l * e) ^ 2) with (F l ^ 2 * e ^ 2) in * by ring.
      field. repeat split; try lra; try assumption; apply Rgt_not_eq; lra. }
    split; apply FE.
  - intros H. replace ((l <=? LMAX) && (m <=? Nat.min MM l))%nat%bool with false by (symmetry; lia). split; ring.
Qed.
Lemma damp_pos (G F : nat -> R) (sigma area P : R) (l : nat) (e : R) : 0 < G l -> 0 < P -> sigma <> 0 -> area <> 0 -> 1 <= 1 + 2 * (F l * e) ^ 2 * P / (G l * (sigma * area) ^ 2).
Proof.
  intros HG HP HS HA. assert (SA : 0 < (sigma * area) ^ 2) by (apply pow2_gt_0; apply Rmult_integral_contrapositive; auto).
  assert (0 <= 2 * (F l * e) ^ 2 * P / (G l * (sigma * area) ^ 2)); [|lra]. apply Rle_mult_inv_pos; [|apply Rmult_lt_0_compat; auto].
  apply Rmult_le_pos; [|lra]. pose proof (pow2_ge_0 (F l * e)). lra.
Qed.
Lemma half_pos (b hw a : R) : half_at b hw a -> cos (hw / (a / 10 ^ 5)) <> 1 -> 0 < b.
Proof.
  intros HB HC. unfold half_at in HB. apply (f_equal ln) in HB. rewrite ln_exp in HB. replace (1 / 2) with (/ 2) in HB by lra. rewrite ln_Rinv in HB by lra.
  pose proof (COS_bound (hw / (a / 10 ^ 5))). set (x := cos _) in *. assert (0 < ln 2) by (rewrite <- ln_1; apply ln_increasing; lra).
  assert (b * (1 - x) = ln 2) by lra. apply (Rmult_lt_reg_r (1 - x)); lra.
Qed.
Section Consequences.
Context (gc gs ec es : arr R) (sigma hw : R) (LMAX : nat) (MMAX : option nat) (cut : R) (UNITS : Z) (LOVE : option love3) (b : R) (F : nat -> R).
Let MM := upto_order MMAX LMAX.
Let area := get gc 0 0 0.
(** a valid call *)
Definition valid_call : Prop :=
  (1 <= LMAX)%nat /\ (MM <= LMAX)%nat /\ big gc LMAX MM /\ big gs LMAX MM /\ big ec LMAX MM /\ big es LMAX MM /\ area <> 0 /\ sigma <> 0 /\
  cos (hw / (rad_e (earth LMAX) / 10 ^ 5)) <> 1 /\ half_at b hw (rad_e (earth LMAX)) /\ unit_factor UNITS LOVE LMAX F.
(** without errors the kernel is the region divided by its area *)
Theorem C80_no_noise : valid_call -> (forall l m, get ec l m 0 = 0 /\ get es l m 0 = 0) ->
  exists Y, gen_averaging_kernel gc gs ec es sigma hw LMAX MMAX cut UNITS LOVE = Ok Y /\
    coefficients Y 0 LMAX MM (fun l m => get gc l m 0 / area) (fun l m => get gs l m 0 / area).
Proof.
  intros (V1 & V2 & V3 & V4 & V5 & V6 & V7 & V8 & V9 & V10 & V11) Z.
  destruct (C80_values gc gs ec es sigma hw LMAX MMAX cut UNITS LOVE b F V1 V2 V3 V4 V5 V6 V7 V8 V9 V10 V11) as (Y & E & HP & C). exists Y. split; [exact E|].
  unfold coefficients in *. destruct C as (C1 & C2 & C3 & C4 & C5 & C6 & C7 & C8 & C). repeat (split; [assumption|]). intros l m t Hl Hm.
  destruct (C l m t Hl Hm) as [A B]. split; [|exact B]. intros H. destruct (A H) as [-> ->]. destruct (Z l m) as [-> ->]. unfold damped. fold area. fold MM.
  assert (Q : forall g p v, v <> 0 -> g / area / (1 + 2 * (F l * 0) ^ 2 * p / v) = g / area) by (intros g p v Hv; assert (X : 2 * (F l * 0) ^ 2 * p / v = 0) by (field; auto); rewrite X, Rplus_0_r; apply Rdiv_1).
  pose proof (G_pos b cut l (half_pos _ _ _ V10 V9)) as GP. assert (N : G_ b cut l * (sigma * area) ^ 2 <> 0) by (apply Rgt_not_eq, Rmult_lt_0_compat; [exact GP|apply pow2_gt_0; apply Rmult_integral_contrapositive; auto]).
  split; apply Q, N.
Qed.
(** errors only shrink coefficients towards zero *)
Theorem C80_shrinks : valid_call -> exists Y, gen_averaging_kernel gc gs ec es sigma hw LMAX MMAX cut UNITS LOVE = Ok Y /\
  forall l m, (l <= LMAX)%nat -> (m <= MM)%nat -> (m <= l)%nat ->
    (exists q, 0 < q <= 1 /\ get (clm Y) l m 0 = q * (get gc l m 0 / area)) /\ (exists q, 0 < q <= 1 /\ get (slm Y) l m 0 = q * (get gs l m 0 / area)).
Proof.
  intros (V1 & V2 & V3 & V4 & V5 & V6 & V7 & V8 & V9 & V10 & V11).
  destruct (C80_values gc gs ec es sigma hw LMAX MMAX cut UNITS LOVE b F V1 V2 V3 V4 V5 V6 V7 V8 V9 V10 V11) as (Y & E & HP & C). exists Y. split; [exact E|].
  destruct C as (_ & _ & _ & _ & _ & _ & _ & _ & C). intros l m Hl Hm Hml. destruct (C l m 0%nat Hl Hm) as [A _]. destruct (A (conj (Nat.le_0_l _) Hml)) as [-> ->].
  pose proof (half_pos _ _ _ V10 V9) as Hb.  set (P := region_power _ _ _ _ _) in *.
  assert (Q : forall e g, exists q, 0 < q <= 1 /\ damped (G_ b cut) F sigma area P l g e = q * (g / area)).
  { intros e g. pose proof (damp_pos (G_ b cut) F sigma area P l e (G_pos b cut l Hb) HP V8 V7) as D. exists (/ (1 + 2 * (F l * e) ^ 2 * P / (G_ b cut l * (sigma * area) ^ 2))).
    split; [split; [apply Rinv_0_lt_compat; lra|rewrite <- Rinv_1; apply Rinv_le_contravar; lra]|]. unfold damped. unfold Rdiv at 1. ring. }
  split; apply Q.
Qed.
End Consequences.
(** multiplying the region by any non-zero number leaves the kernel unchanged *)
Theorem C80_scale_invariant : forall gc gs ec es sigma hw LMAX MMAX cut UNITS LOVE b F k, k <> 0 -> valid_call gc gs ec es sigma hw LMAX MMAX UNITS LOVE b F ->
  exists Y Y', gen_averaging_kernel gc gs ec es sigma hw LMAX MMAX cut UNITS LOVE = Ok Y /\
    gen_averaging_kernel (amap (Rmult k) gc) (amap (Rmult k) gs) ec es sigma hw LMAX MMAX cut UNITS LOVE = Ok Y' /\
    forall l m, (l <= LMAX)%nat -> (m <= upto_order MMAX LMAX)%nat -> get (clm Y') l m 0 = get (clm Y) l m 0 /\ get (slm Y') l m 0 = get (slm Y) l m 0.
Proof.
  intros gc gs ec es sigma hw LMAX MMAX cut UNITS LOVE b F k K (V1 & V2 & V3 & V4 & V5 & V6 & V7 & V8 & V9 & V10 & V11).
  destruct (C80_values gc gs ec es sigma hw LMAX MMAX cut UNITS LOVE b F V1 V2 V3 V4 V5 V6 V7 V8 V9 V10 V11) as (Y & E & HP & C).
  assert (V7' : get (amap (Rmult k) gc) 0 0 0 <> 0) by (cbn [amap get]; apply Rmult_integral_contrapositive; auto).
  destruct (C80_values (amap (Rmult k) gc) (amap (Rmult k) gs) ec es sigma hw LMAX MMAX cut UNITS LOVE b F V1 V2 V3 V4 V5 V6 V7' V8 V9 V10 V11) as (Y' & E' & HP' & C').
  exists Y, Y'. split; [exact E|]. split; [exact E'|]. intros l m Hl Hm.
  destruct C as (_ & _ & _ & _ & _ & _ & _ & _ & C). destruct C' as (_ & _ & _ & _ & _ & _ & _ & _ & C').
  destruct (C l m 0%nat Hl Hm) as [A B]. destruct (C' l m 0%nat Hl Hm) as [A' B']. destruct (le_dec m l) as [L|L].
  - destruct (A ltac:(lia)) as [-> ->]. destruct (A' ltac:(lia)) as [-> ->]. clear A A' B B' C C'. cbn [amap get] in *. set (MM := upto_order MMAX LMAX) in *.
    assert (EP : region_power (G_ b cut) (fun l m => k * get gc l m 0) (fun l m => k * get gs l m 0) LMAX MM = k ^ 2 * region_power (G_ b cut) (fun l m => get gc l m 0) (fun l m => get gs l m 0) LMAX MM).
    { unfold region_power. rewrite <- sumn_scal. apply sumn_ext. intros j Hj. rewrite (sumn_ext _ _ (fun m => k ^ 2 * (get gc j m 0 ^ 2 + get gs j m 0 ^ 2))) by (intros; ring). rewrite sumn_scal. ring. }
    rewrite EP in *. clear EP. set (P := region_power _ _ _ _ _) in *. pose proof (half_pos _ _ _ V10 V9) as Hb. pose proof (G_pos b cut l Hb) as GP. set (area := get gc 0 0 0) in *.
    assert (Q : forall g e, damped (G_ b cut) F sigma (k * area) (k ^ 2 * P) l (k * g) e = damped (G_ b cut) F sigma area P l g e).
    { intros g e. unfold damped. assert (X : 2 * (F l * e) ^ 2 * (k ^ 2 * P) / (G_ b cut l * (sigma * (k * area)) ^ 2) = 2 * (F l * e) ^ 2 * P / (G_ b cut l * (sigma * area) ^ 2)) by (field; repeat split; auto; lra).
      rewrite X. f_equal. field. auto. }
    split; apply Q.
  - destruct (B ltac:(lia)) as [-> ->]. destruct (B' ltac:(lia)) as [-> ->]. auto.
Qed.
(** a larger error of one coefficient (same region) gives a smaller weight *)
Theorem C80_more_noise : forall gc gs ec es ec' es' sigma hw LMAX MMAX cut UNITS LOVE b F,
  valid_call gc gs ec es sigma hw LMAX MMAX UNITS LOVE b F -> valid_call gc gs ec' es' sigma hw LMAX MMAX UNITS LOVE b F ->
  exists Y Y', gen_averaging_kernel gc gs ec es sigma hw LMAX MMAX cut UNITS LOVE = Ok Y /\ gen_averaging_kernel gc gs ec' es' sigma hw LMAX MMAX cut UNITS LOVE = Ok Y' /\
    forall l m, (l <= LMAX)%nat -> (m <= upto_order MMAX LMAX)%nat -> (m <= l)%nat ->
      (Rabs (get ec l m 0) <= Rabs (get ec' l m 0) -> Rabs (get (clm Y') l m 0) <= Rabs (get (clm Y) l m 0)) /\
      (Rabs (get es l m 0) <= Rabs (get es' l m 0) -> Rabs (get (slm Y') l m 0) <= Rabs (get (slm Y) l m 0)).
Proof.
  intros gc gs ec es ec' es' sigma hw LMAX MMAX cut UNITS LOVE b F (V1 & V2 & V3 & V4 & V5 & V6 & V7 & V8 & V9 & V10 & V11) (_ & _ & _ & _ & V5' & V6' & _).
  destruct (C80_values gc gs ec es sigma hw LMAX MMAX cut UNITS LOVE b F V1 V2 V3 V4 V5 V6 V7 V8 V9 V10 V11) as (Y & E & HP & C).
  destruct (C80_values gc gs ec' es' sigma hw LMAX MMAX cut UNITS LOVE b F V1 V2 V3 V4 V5' V6' V7 V8 V9 V10 V11) as (Y' & E' & _ & C').
  exists Y, Y'. split; [exact E|]. split; [exact E'|]. intros l m Hl Hm Hml.
  destruct C as (_ & _ & _ & _ & _ & _ & _ & _ & C). destruct C' as (_ & _ & _ & _ & _ & _ & _ & _ & C').
  destruct (C l m 0%nat Hl Hm) as [A _]. destruct (C' l m 0%nat Hl Hm) as [A' _]. destruct (A ltac:(lia)) as [-> ->]. destruct (A' ltac:(lia)) as [-> ->].
  pose proof (half_pos _ _ _ V10 V9) as Hb. pose proof (G_pos b cut l Hb) as GP. set (P := region_power _ _ _ _ _) in *. set (area := get gc 0 0 0) in *.
  assert (Q : forall g e e', Rabs e <= Rabs e' -> Rabs (damped (G_ b cut) F sigma area P l g e') <= Rabs (damped (G_ b cut) F sigma area P l g e)).
  { intros g e e' H. unfold damped. rewrite (Rabs_div (g / area)), (Rabs_div (g / area)).
    2,3: pose proof (damp_pos (G_ b cut) F sigma area P l e GP HP V8 V7); pose proof (damp_pos (G_ b cut) F sigma area P l e' GP HP V8 V7); lra.
    pose proof (damp_pos (G_ b cut) F sigma area P l e GP HP V8 V7) as D. pose proof (damp_pos (G_ b cut) F sigma area P l e' GP HP V8 V7) as D'.
    rewrite (Rabs_right (1 + _)) by lra. rewrite (Rabs_right (1 + _)) by lra. unfold Rdiv at 1 4. apply Rmult_le_compat_l; [apply Rabs_pos|]. apply Rinv_le_contravar; [lra|].
    apply Rplus_le_compat_l. unfold Rdiv. assert (SA : 0 < (sigma * area) ^ 2) by (apply pow2_gt_0; apply Rmult_integral_contrapositive; auto).
    apply Rmult_le_compat_r; [left; apply Rinv_0_lt_compat, Rmult_lt_0_compat; auto|]. apply Rmult_le_compat_r; [lra|]. apply Rmult_le_compat_l; [lra|].
    rewrite !Rpow_mult_distr. apply Rmult_le_compat_l; [apply pow2_ge_0|]. rewrite <- (pow2_abs e), <- (pow2_abs e'). apply pow_incr. split; [apply Rabs_pos|exact H]. }
  split; apply Q.
Qed.
(** other unit codes are not caught: the call fails on an unset variable *)
Theorem C80_other_units : forall gc gs ec es sigma hw LMAX MMAX cut UNITS LOVE, (UNITS <> 0)%Z -> (UNITS <> 1)%Z -> (1 <= LMAX)%nat ->
  big gc LMAX (Nat.min (upto_order MMAX LMAX) LMAX) -> big gs LMAX (Nat.min (upto_order MMAX LMAX) LMAX) ->
  gen_averaging_kernel gc gs ec es sigma hw LMAX MMAX cut UNITS LOVE = Err UnboundLocalError.
Proof.
  intros gc gs ec es sigma hw LMAX MMAX cut UNITS LOVE H0 H1 HL [B1 B2] [B3 B4]. unfold gen_averaging_kernel. replace (UNITS =? 0)%Z with false by lia. replace (UNITS =? 1)%Z with false by lia. cbn [bind].
  destruct LMAX as [|k]; [lia|]. cbn [kernel_gl bind]. set (MM := upto_order MMAX (S k)) in *.
  replace (((rows gc <? S k + 1)%nat || (cols gc <? Nat.min MM (S k) + 1)%nat) || ((rows gs <? S k + 1)%nat || (cols gs <? Nat.min MM (S k) + 1)%nat))%bool with false by (symmetry; lia). reflexivity.
Qed.
Example C80_nonvacuous : let ones := mkarr 3 3 None (fun _ _ _ => 1) in exists hw b,
  valid_call ones ones ones ones 2 hw 2 None 1 None b (fun _ => 1).
Proof.
  intros ones. exists (PI / 2 * (rad_e (earth 2) / 10 ^ 5)), (ln 2). assert (0 < rad_e (earth 2)) by (apply rad_pos; unfold earth, units_init; cbn [a_axis]; unfold a_default; lra).
  assert (E : PI / 2 * (rad_e (earth 2) / 10 ^ 5) / (rad_e (earth 2) / 10 ^ 5) = PI / 2) by (field; lra).
  unfold valid_call, big. cbn [upto_order ones rows cols get]. repeat (split; [lia || lra || (split; lia)|]). split; [rewrite E, cos_PI2; lra|]. split; [|right; auto].
  unfold half_at. rewrite E, cos_PI2. replace (- ln 2 * (1 - 0)) with (- ln 2) by ring. rewrite exp_Ropp, exp_ln by lra. lra.
Qed.
