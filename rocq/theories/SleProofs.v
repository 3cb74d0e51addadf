From Coq Require Import Reals Lra Lia String ZifyBool ZifyNat.
From Coquelicot Require Import Coquelicot.
From Verif Require Import Base UnitsModel UnitsProofs GaussModel Arr HarmModel LegendreSpec LegendreSpec2 LegendreModel LegendreProofs LegendreProofs2
  SummationModel SummationProofs PropLegendre PropSummation LegendreOneModel LegendreOneProofs GenModel GenProofs PropGen SleModel.
Close Scope Z_scope.
Close Scope string_scope.
Open Scope R_scope.

(** the harmonics of a grid function, by the discrete integral *)
Definition hc (lon lat : list R) (g : nat -> nat -> R) (l m : nat) : R := 1 / (4 * PI) * quad cos lon lat l m g.
Definition hs (lon lat : list R) (g : nat -> nat -> R) (l m : nat) : R := 1 / (4 * PI) * quad sin lon lat l m g.
(** the integral over the grid *)
Definition integral (lon lat : list R) (g : nat -> nat -> R) : R := quad cos lon lat 0 0 g.

Lemma quad_ext trig lon lat l m f g : (forall i j, (i < List.length lon)%nat -> (j < List.length lat)%nat -> f i j = g i j) ->
  quad trig lon lat l m f = quad trig lon lat l m g.
Proof. intros H. unfold quad. apply grid_sum_ext. intros i j Hi Hj. cbv zeta. now rewrite H. Qed.
Lemma quad_lin trig lon lat l m a f g : quad trig lon lat l m (fun i j => f i j + a * g i j) = quad trig lon lat l m f + a * quad trig lon lat l m g.
Proof.
  unfold quad, grid_sum. rewrite <- sumn_scal, <- sumn_plus. apply sumn_ext. intros j Hj. rewrite <- sumn_scal, <- sumn_plus. apply sumn_ext.
  intros i Hi. cbv zeta. ring.
Qed.
Lemma quad_scal trig lon lat l m a g : quad trig lon lat l m (fun i j => a * g i j) = a * quad trig lon lat l m g.
Proof. unfold quad, grid_sum. rewrite <- sumn_scal. apply sumn_ext. intros j Hj. rewrite <- sumn_scal. apply sumn_ext. intros i Hi. cbv zeta. ring. Qed.
Lemma Nlm_high l m x : (l < m)%nat -> Nlm l m x = 0.
Proof. intros H. rewrite Nlm_NU. now apply NU_high. Qed.
Lemma quad_high trig lon lat l m g : (l < m)%nat -> quad trig lon lat l m g = 0.
Proof.
  intros H. unfold quad, grid_sum. rewrite (sumn_ext _ _ (fun _ => 0)); [apply sumn_zero|]. intros j Hj. rewrite (sumn_ext _ _ (fun _ => 0)); [apply sumn_zero|].
  intros i Hi. cbv zeta. rewrite Nlm_high by assumption. ring.
Qed.

(** [H] has the harmonics of grid [g] *)
Definition harm_is (lon lat : list R) (LMAX : nat) (H : harm) (g : nat -> nat -> R) : Prop :=
  lmax H = LMAX /\ mmax H = LMAX /\ time H = TNone /\
  rows (clm H) = (LMAX + 1)%nat /\ cols (clm H) = (LMAX + 1)%nat /\ depth (clm H) = None /\
  rows (slm H) = (LMAX + 1)%nat /\ cols (slm H) = (LMAX + 1)%nat /\ depth (slm H) = None /\
  forall l m t, (l <= LMAX)%nat -> (m <= LMAX)%nat -> get (clm H) l m t = hc lon lat g l m /\ get (slm H) l m t = hs lon lat g l m.

Section Sle.
Context (lon lat : list R) (LMAX : nat) (P : arr R).
Hypothesis HG : grid_ok lon lat.
Hypothesis HL : (2 <= LMAX)%nat.
Hypothesis HP : holmes_or None LMAX lat = Ok P.
Hypothesis HN : List.length lon <> List.length lat.

Lemma harm_of_ok g : rows g = List.length lon -> cols g = List.length lat ->
  exists Y, gen_harmonics g lon lat LMAX None (Some P) = Ok Y /\ harm_is lon lat LMAX Y (fun i j => get g i j 0).
Proof.
  intros R1 R2. replace (gen_harmonics g lon lat LMAX None (Some P)) with (gen_harmonics g lon lat LMAX None None)
    by (unfold gen_harmonics; rewrite HP; reflexivity).
  destruct (C47_harmonics g lon lat (fun i j => get g i j 0) LMAX None) as (Y & E & A1 & A2 & A3 & A4 & A5 & A6 & A7 & (S1 & S2 & S3) & C);
    try assumption; [right; repeat split; assumption|cbn; lia|]. cbn [upto_order] in *.
  exists Y. split; [exact E|]. unfold harm_is. repeat (split; [congruence|]).
  intros l m t Hl Hm. destruct (C l m t Hl Hm) as [P1 N1]. destruct (le_dec m l) as [X|X].
  - apply P1. lia.
  - unfold hc, hs. rewrite !quad_high by lia. rewrite !Rmult_0_r. apply N1. lia.
Qed.

Lemma scale_ok H g v : harm_is lon lat LMAX H g -> exists Y, scale H (SScalar v) = Ok Y /\ harm_is lon lat LMAX Y (fun i j => v * g i j).
Proof.
  intros (A1 & A2 & A3 & A4 & A5 & A6 & A7 & A8 & A9 & C). eexists. split; [reflexivity|]. unfold harm_is. cbn [lmax mmax time clm slm amap rows cols depth get].
  repeat (split; [assumption|]). intros l m t Hl Hm. destruct (C l m t Hl Hm) as [-> ->]. unfold hc, hs. rewrite !quad_scal. split; ring.
Qed.
Lemma add_ok H H' g g' : harm_is lon lat LMAX H g -> harm_is lon lat LMAX H' g' ->
  exists Y, add H H' = Ok Y /\ harm_is lon lat LMAX Y (fun i j => g i j + 1 * g' i j).
Proof.
  intros (A1 & A2 & A3 & A4 & A5 & A6 & A7 & A8 & A9 & C) (B1 & B2 & B3 & B4 & B5 & B6 & B7 & B8 & B9 & C').
  unfold add, binop, ndim, block_op. rewrite A1, A2, A6, A9, B1, B2, B6, B9. cbn [Nat.eqb andb].
  unfold common. rewrite Nat.ltb_irrefl. cbn [bind]. eexists. split; [reflexivity|]. unfold harm_is. cbn [lmax mmax time clm slm set_block amap rows cols depth get].
  repeat (split; [assumption || reflexivity|]). intros l m t Hl Hm. cbn [Nat.leb andb].
  replace ((l <? LMAX + 1) && (m <? LMAX + 1))%nat with true by lia. destruct (C l m t Hl Hm) as [-> ->]. destruct (C' l m t Hl Hm) as [-> ->].
  unfold hc, hs. rewrite !quad_lin. split; ring.
Qed.
Lemma harm_ext H g g' : (forall i j, (i < List.length lon)%nat -> (j < List.length lat)%nat -> g i j = g' i j) -> harm_is lon lat LMAX H g -> harm_is lon lat LMAX H g'.
Proof.
  intros E (A1 & A2 & A3 & A4 & A5 & A6 & A7 & A8 & A9 & C). unfold harm_is. repeat (split; [assumption|]). intros l m t Hl Hm.
  destruct (C l m t Hl Hm) as [-> ->]. unfold hc, hs. now rewrite !(quad_ext _ _ _ _ _ g g' E).
Qed.

(** one round *)
Context (loadC loadS land : arr R) (SC : R) (ch cp : nat -> nat -> R) (tmass : R) (oceanY : harm).
Hypothesis HS : SC <> 0.
Hypothesis HR : rows land = List.length lon.
Hypothesis HC : cols land = List.length lat.
Let oc (i j : nat) : R := 1 - get land i j 0.
Hypothesis HO : harm_is lon lat LMAX oceanY oc.
Let area : R := 4 * PI * get (clm oceanY) 0 0 0.

Definition response (g : nat -> nat -> R) (i j : nat) : R :=
  series (fun l m => ch l m * hc lon lat g l m + rad_e (earth LMAX) * cp l m * get loadC l m 0)
         (fun l m => ch l m * hs lon lat g l m + rad_e (earth LMAX) * cp l m * get loadS l m 0) 0 LMAX LMAX (colat (nth j lat 0)) (deg (nth i lon 0)).
Definition raw_level (g : nat -> nat -> R) (i j : nat) : R := if Req_EM_T (oc i j) 0 then 0 else response g i j.
Definition next_level (g : nat -> nat -> R) (i j : nat) : R :=
  raw_level g i j + (- tmass / rad_e (earth LMAX) ^ 2 - integral lon lat (raw_level g)) / integral lon lat oc * oc i j.

Lemma area_ok : area = integral lon lat oc.
Proof.
  unfold area. destruct HO as (_ & _ & _ & _ & _ & _ & _ & _ & _ & C). destruct (C 0%nat 0%nat 0%nat) as [-> _]; [lia|lia|]. unfold hc, integral. field. apply PI_neq0.
Qed.

Lemma round_ok H g : harm_is lon lat LMAX H g -> exists level Y, sle_round loadC loadS lon lat land LMAX P SC ch cp tmass area oceanY H = Ok (level, Y) /\
  rows level = List.length lon /\ cols level = List.length lat /\ depth level = None /\
  (forall i j, (i < List.length lon)%nat -> (j < List.length lat)%nat -> get level i j 0 = next_level g i j) /\
  harm_is lon lat LMAX Y (next_level g).
Proof.
  intros Hg. unfold sle_round.
  set (c1 := fun l m => ch l m * get (clm H) l m 0 + _). set (s1 := fun l m => ch l m * get (slm H) l m 0 + _).
  set (raw := mkarr (rows land) (cols land) None _).
  assert (Raw : forall i j, (i < List.length lon)%nat -> (j < List.length lat)%nat -> get raw i j 0 = raw_level g i j).
  { intros i j Hi Hj. unfold raw. cbn [get ocean amap]. fold (oc i j). unfold raw_level. destruct (Req_EM_T (oc i j) 0); [reflexivity|].
    rewrite clenshaw_point_ok by (lia || assumption). unfold response, series. apply sumn_ext. intros m Hm. apply sumn_ext. intros l Hl. cbn [Nat.leb].
    rewrite Nlm_NU, sin_cos_u by (apply sin_lat; [apply HG|exact Hj]). destruct Hg as (_ & _ & _ & _ & _ & _ & _ & _ & _ & C).
    unfold c1, s1. destruct (C l m 0%nat) as [-> ->]; [lia|lia|]. unfold a_e. ring. }
  unfold harm_of. destruct (harm_of_ok raw HR HC) as (Y & -> & HY). cbn [bind].
  assert (EI : 4 * PI * get (clm Y) 0 0 0 = integral lon lat (raw_level g)).
  { destruct HY as (_ & _ & _ & _ & _ & _ & _ & _ & _ & C). destruct (C 0%nat 0%nat 0%nat) as [-> _]; [lia|lia|]. unfold hc, integral.
    rewrite (quad_ext cos lon lat 0 0 (fun i j => get raw i j 0) (raw_level g) Raw). field. apply PI_neq0. }
  rewrite EI. replace ((- tmass / 1 / a_e LMAX ^ 2 - integral lon lat (raw_level g)) / area) with ((- tmass / rad_e (earth LMAX) ^ 2 - integral lon lat (raw_level g)) / integral lon lat oc)
    by (rewrite area_ok; unfold a_e; f_equal; f_equal; f_equal; unfold Rdiv; rewrite Rinv_1; ring).
  set (h := _ / integral lon lat oc).
  destruct (scale_ok oceanY oc h HO) as (U & -> & HU). cbn [bind]. destruct (add_ok Y U _ _ HY HU) as (Z & -> & HZ). cbn [bind].
  eexists _, Z. split; [reflexivity|]. cbn [rows cols depth get]. split; [exact HR|]. split; [exact HC|]. split; [reflexivity|].
  split.
  - intros i j Hi Hj. unfold next_level. fold h. rewrite <- (Raw i j Hi Hj). reflexivity.
  - eapply harm_ext; [|exact HZ]. intros i j Hi Hj. cbv beta. rewrite (Raw i j Hi Hj). unfold next_level. fold h. ring.
Qed.

(** the loop *)
Fixpoint level_at (n : nat) : nat -> nat -> R :=
  match n with
  | O => fun i j => - tmass / rad_e (earth LMAX) ^ 2 / integral lon lat oc * oc i j
  | S n => next_level (level_at n)
  end.
(** the sum of the moduli of the harmonics of a grid *)
Definition power_of (g : nat -> nat -> R) : R := sumn (LMAX + 1) (fun l => sumn (l + 1) (fun m => sqrt (hc lon lat g l m ^ 2 + hs lon lat g l m ^ 2))).
Definition converged (n : nat) : Prop := Rabs (power_of (level_at n) - power_of (level_at (n - 1))) <= 1 / 10 ^ 4 * power_of (level_at (n - 1)).

Lemma sumn_nonneg n f : (forall i, (i < n)%nat -> 0 <= f i) -> 0 <= sumn n f.
Proof. induction n as [|n IH]; intros H; [cbn; lra|]. cbn [sumn]. specialize (H n (Nat.lt_succ_diag_r n)) as Hn. assert (0 <= sumn n f) by (apply IH; intros; apply H; lia). lra. Qed.
Lemma power_nonneg g : 0 <= power_of g.
Proof. unfold power_of. apply sumn_nonneg. intros. apply sumn_nonneg. intros. apply sqrt_pos. Qed.
Lemma modulus_ok H g : harm_is lon lat LMAX H g -> modulus H LMAX = power_of g.
Proof.
  intros (_ & _ & _ & _ & _ & _ & _ & _ & _ & C). unfold modulus, power_of. apply sumn_ext. intros l Hl. apply sumn_ext. intros m Hm.
  destruct (C l m 0%nat) as [-> ->]; [lia|lia|]. reflexivity.
Qed.
Lemma not_converged_ok a b : 0 <= a -> (not_converged a b = false <-> Rabs (b - a) <= 1 / 10 ^ 4 * a).
Proof.
  intros Ha. unfold not_converged. destruct (Req_EM_T a 0) as [->|Na].
  - rewrite Rmult_0_r. destruct (Req_EM_T (b - 0) 0) as [->|N]; split; intros X; try reflexivity; try discriminate.
    + rewrite Rabs_R0. lra.
    + exfalso. apply Rabs_pos_lt in N. lra.
  - assert (Hp : 0 < a) by lra. replace (Rabs ((b - a) / a)) with (Rabs (b - a) * / a) by (unfold Rdiv; rewrite Rabs_mult, (Rabs_right (/ a)); [reflexivity|left; now apply Rinv_0_lt_compat]).
    destruct (Rlt_dec (1 / 10 ^ 4) (Rabs (b - a) * / a)) as [X|X]; split; intros Y; try reflexivity; try discriminate.
    + exfalso. apply Rmult_lt_compat_r with (r := a) in X; [|exact Hp]. rewrite Rmult_assoc, Rinv_l in X by lra. lra.
    + apply Rnot_lt_le in X. apply Rmult_le_compat_r with (r := a) in X; [|lra]. rewrite Rmult_assoc, Rinv_l in X by lra. lra.
Qed.

Lemma loop_ok n : forall k H prev, harm_is lon lat LMAX H (level_at k) ->
  exists j r, sle_loop loadC loadS lon lat land LMAX P SC ch cp tmass area oceanY n true H prev = Ok r /\
   (n = 0%nat -> r = prev) /\
   ((0 < n)%nat -> (k < j <= k + n)%nat /\ (forall i, (k < i < j)%nat -> ~ converged i) /\ ((j = k + n)%nat \/ converged j) /\
     exists level, r = Some level /\ rows level = List.length lon /\ cols level = List.length lat /\ depth level = None /\
       forall a b, (a < List.length lon)%nat -> (b < List.length lat)%nat -> get level a b 0 = level_at j a b).
Proof.
  induction n as [|n IH]; intros k H prev Hk.
  - exists k, prev. split; [reflexivity|]. split; [reflexivity|]. lia.
  - cbn [sle_loop]. destruct (round_ok H (level_at k) Hk) as (level & Y & E & R1 & R2 & R3 & V & HY). rewrite E. cbn [bind fst snd].
    rewrite (modulus_ok H _ Hk), (modulus_ok Y _ HY). change (next_level (level_at k)) with (level_at (S k)) in *.
    pose proof (not_converged_ok (power_of (level_at k)) (power_of (level_at (S k))) (power_nonneg _)) as NC.
    assert (CV : not_converged (power_of (level_at k)) (power_of (level_at (S k))) = false <-> converged (S k)).
    { rewrite NC. unfold converged. replace (S k - 1)%nat with k by lia. reflexivity. }
    destruct (not_converged _ _) eqn:B.
    + destruct n as [|n'].
      * exists (S k), (Some level). cbn [sle_loop]. split; [reflexivity|]. split; [lia|]. intros _. split; [lia|]. split; [intros i Hi; lia|]. split; [left; lia|].
        exists level. repeat (split; [assumption || reflexivity|]). exact V.
      * destruct (IH (S k) Y (Some level) HY) as (j & r & E' & _ & Q). exists j, r. split; [exact E'|]. split; [lia|]. intros _.
        destruct (Q ltac:(lia)) as (Q1 & Q2 & Q3 & Q4). split; [lia|]. split; [|split; [destruct Q3; [left; lia|right; assumption]|exact Q4]].
        intros i Hi. destruct (Nat.eq_dec i (S k)) as [->|Ni]; [|apply Q2; lia]. intros X. apply CV in X. discriminate.
    + exists (S k), (Some level). split; [destruct n; reflexivity|]. split; [lia|]. intros _. split; [lia|]. split; [intros i Hi; lia|].
      split; [right; apply CV; reflexivity|]. exists level. repeat (split; [assumption || reflexivity|]). exact V.
Qed.
End Sle.
