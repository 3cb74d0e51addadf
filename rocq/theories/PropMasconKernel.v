(** C93 area, C94 sensitivity kernels (scripts/calc_sensitivity_kernel.py), C95 power of a field (degree_amplitude.py). *)
From Coq Require Import Reals Lra Lia String List ZifyBool ZifyNat.
From Coquelicot Require Import Coquelicot.
From Verif Require Import Base UnitsModel UnitsProofs GaussModel Arr HarmModel LegendreSpec LegendreSpec2 LegendreModel LegendreProofs LegendreProofs2
  SummationModel SummationProofs PropLegendre PropSummation PropFactors GenModel GenProofs PropGen PropGen2 GaussProofs LoadModel PropLoad LegendreOrtho Parseval
  DestripeModel DestripeProofs LinAlg Lstsq MasconFitModel MasconFitProofs PropMasconFit.
Import ListNotations.
Close Scope Z_scope.
Open Scope R_scope.

(** ** Specification *)
(** a coefficient file *)
Definition file_of (Y : harm) : coefs := fun cs l m => if cs then get (slm Y) l m 0 else get (clm Y) l m 0.
(** the field of coefficients at colatitude t and longitude p *)
Definition field (LMIN LMAX MM : nat) (v : coefs) (t p : R) : R := series (v false) (v true) LMIN LMAX MM t p.
(** geoid coefficients of a surface mass with coefficients [sigma] (g/cm^2) *)
Definition geoid_of (LMAX : nat) (kl : list R) (sigma : coefs) : coefs := fun cs l m => 3 * (1 + nth l kl 0) / (rad_e (earth LMAX) * rho_e (earth LMAX) * (2 * INR l + 1)) * sigma cs l m.
(** surface mass coefficients of geoid coefficients *)
Definition mass_of (LMAX : nat) (kl : list R) (Y : coefs) : coefs := fun cs l m => rad_e (earth LMAX) * rho_e (earth LMAX) * (2 * INR l + 1) / (3 * (1 + nth l kl 0)) * Y cs l m.

(** ** Proofs *)
(** C93: the area computed from a disc of one centimetre of water is the area of the disc times 1 + k_0 *)
Theorem C93_area : forall lon lat area LMAX MMAX h k ll PLM, let a := rad_e (earth LMAX) in
  (upto_order MMAX LMAX <= LMAX)%nat -> good_plm PLM LMAX (upto_order MMAX LMAX) lat -> (LMAX < List.length k)%nat -> 0 < area -> 10 ^ 10 * area <= 4 * PI * a ^ 2 ->
  exists Y, gen_disc_load 1 lon lat area LMAX MMAX (GCode 1) PLM (Some (h, k, ll)) = Ok Y /\
    forall files n, nth n files zero_coefs = file_of Y -> area_of LMAX files n / 10 ^ 10 = area * (1 + nth 0 k 0).
Proof.
  intros lon lat area LMAX MMAX h k ll PLM a HM G Hk Ha HA. pose proof (rad_pos' LMAX) as Pa. fold a in Pa. pose proof PI_RGT_0 as Pp.
  set (x := 1 - 10 ^ 10 * area / (2 * PI * a ^ 2)). assert (P2 : 0 < 2 * PI * a ^ 2) by (apply Rmult_lt_0_compat; [lra|apply pow_lt; lra]).
  assert (EX : 10 ^ 10 * area = 2 * PI * a ^ 2 * (1 - x)) by (unfold x; field; lra).
  assert (Hx : -1 <= x <= 1).
  { assert (0 <= 1 - x) by (apply (Rmult_le_reg_l (2 * PI * a ^ 2)); [exact P2|]; rewrite <- EX, Rmult_0_r; apply Rmult_le_pos; [apply pow_le; lra|lra]).
    assert (1 - x <= 2) by (apply (Rmult_le_reg_l (2 * PI * a ^ 2)); [exact P2|]; rewrite <- EX; lra). lra. }
  destruct (C78_disc 1 lon lat area LMAX MMAX 1 h k ll PLM x HM G Hk ltac:(auto) Hx EX) as (Y & E & C). exists Y. split; [exact E|].
  intros files n HF. unfold area_of, total_area. rewrite HF. unfold file_of. destruct C as (_ & _ & _ & _ & _ & _ & _ & _ & C). destruct (C 0%nat 0%nat 0%nat ltac:(lia) ltac:(lia)) as [A _].
  destruct (A (conj (le_n _) (le_n _))) as [-> _]. rewrite (is_RInt_unique _ _ _ _ (leg_int0 x)). unfold sph, cmwe_factor, thickness. rewrite Nlm_NU, NU_0_0. cbn [INR Z.eqb Pos.eqb]. rewrite Rmult_0_l, cos_0. fold a.
  assert (R0 : 0 < rho_e (earth LMAX)) by (apply rho_pos; unfold earth, units_init, a_axis; cbn; unfold a_default; lra).
  transitivity (2 * PI * a ^ 2 * (1 - x) * (1 + nth 0 k 0) / 10 ^ 10); [req; field; lra|]. rewrite <- EX. field.
Qed.

Lemma pairing_hsum LMIN LMAX MM (u v : coefs) : pairing (u false) (u true) (v false) (v true) LMIN LMAX MM = hsum LMIN LMAX MM (fun cs l m => u cs l m * v cs l m).
Proof.
  unfold pairing, hsum. rewrite sumn_swap. apply sumn_ext. intros l _. destruct (LMIN <=? l)%nat; cbn [andb]; [|apply sumn_zero]. reflexivity.
Qed.

(** ** C94 *)
Lemma kernel_values LMIN LMAX MMAX kl RAD ocean files SOLVER w A : let MM := order_of MMAX LMAX in
  (MM <= LMAX)%nat -> (LMIN <= MM + 1)%nat -> smoothing RAD LMAX = Ok w -> mascon_kernel LMIN LMAX MM kl w ocean files 1 SOLVER = Ok A ->
  exists kern, sensitivity_kernel LMIN LMAX MMAX kl RAD ocean files 1 SOLVER = Ok kern /\
    (forall k i cs l m, (i < List.length (harm_idx LMIN LMAX MM))%nat -> nth i (harm_idx LMIN LMAX MM) qd = (cs, l, m) ->
      kern k cs l m = 75 / 100 / (PI * rho_e (earth LMAX) * rad_e (earth LMAX) ^ 3) * (1 + nth l kl 0) / (2 * INR l + 1) * A i k) /\
    (forall k cs l m, ~ in_range LMIN LMAX MM cs l m -> kern k cs l m = 0).
Proof.
  intros MM H1 H2 HW HK. unfold sensitivity_kernel. rewrite HW. cbn [bind]. fold (order_of MMAX LMAX). fold MM. rewrite HK. cbn [bind]. eexists. split; [reflexivity|]. cbv beta. split.
  - intros k i cs l m Li Ei. cbn [Z.eqb Pos.eqb]. set (F := _ / _ * _ / _). rewrite (rsum_ext _ _ (fun j => LinAlg.delta j i * (F * A j k))); [apply (rsum_delta _ i (fun j => F * A j k)); exact Li|].
    intros j Lj. rewrite (nth_error_nth' _ (n := j) qd Lj). pose proof (bump_row LMIN LMAX MM (fun _ _ _ => 1) i j cs l m Li Lj Ei) as B. rewrite row_at in B by exact Lj.
    destruct (nth j (harm_idx LMIN LMAX MM) qd) as [[cs' l'] m']. unfold bump in B. cbn [fst snd] in B. unfold LinAlg.delta. destruct (_ && _)%bool; destruct (j =? i)%nat; lra.
  - intros k cs l m N. rewrite (rsum_ext _ _ (fun _ => 0)); [apply rsum_zero|]. intros i Li. rewrite (nth_error_nth' _ (n := i) qd Li). destruct (idx_range LMIN LMAX MM i Li) as (cs' & l' & m' & -> & Hr).
    destruct (_ && _)%bool eqn:Q; [|reflexivity]. elim N. apply andb_true_iff in Q. destruct Q as [Q Q3]. apply andb_true_iff in Q. destruct Q as [Q1 Q2]. apply Bool.eqb_prop in Q1. apply Nat.eqb_eq in Q2, Q3. subst. exact Hr.
Qed.
(** the kernel is the weight function of the mascon: the mass of mascon k is the integral over the surface of the Earth of kernel times surface mass *)
Theorem C94_integral : forall LMIN LMAX MMAX kl RAD ocean files SOLVER grace gia remove construct delta mass err area, let MM := order_of MMAX LMAX in
  (MM <= LMAX)%nat -> (LMIN <= MM + 1)%nat -> (forall l, (LMIN <= l <= LMAX)%nat -> 1 + nth l kl 0 <> 0) ->
  calc_mascon LMIN LMAX MMAX kl RAD ocean files 1 SOLVER grace gia remove construct delta = Ok (mass, err, area) ->
  exists kern, sensitivity_kernel LMIN LMAX MMAX kl RAD ocean files 1 SOLVER = Ok kern /\
    forall k t sigma, (forall cs l m, in_range LMIN LMAX MM cs l m -> corrected grace gia remove construct t cs l m = geoid_of LMAX kl sigma cs l m) ->
      exists v, sphere_integral (fun th phi => field LMIN LMAX MM (kern k) th phi * field LMIN LMAX MM sigma th phi) v /\ mass k t * 10 ^ 15 = rad_e (earth LMAX) ^ 2 * v.
Proof.
  intros LMIN LMAX MMAX kl RAD ocean files SOLVER grace gia remove construct delta mass err area MM H1 H2 Hk E.
  destruct (run_inv _ _ _ _ _ _ _ _ _ _ _ _ _ _ _ E) as (w & A & HW & HK). fold MM in HK.
  destruct (kernel_values LMIN LMAX MMAX kl RAD ocean files SOLVER w A H1 H2 HW HK) as (kern & EK & V & _). exists kern. split; [exact EK|]. intros k t sigma HY.
  destruct (calc_run LMIN LMAX MMAX kl RAD ocean files 1 SOLVER grace gia remove construct delta w A H1 H2 HW HK) as (m1 & e1 & a1 & F & M & _). rewrite E in F. injection F as <- <- <-. fold MM in M.
  eexists. split; [apply parseval|]. rewrite pairing_hsum. rewrite M. unfold Rdiv. rewrite Rmult_assoc, Rinv_l, Rmult_1_r by (apply pow_nonzero; lra).
  rewrite (rsum_rows LMIN LMAX MM _ (fun cs l m => 4 * PI * rad_e (earth LMAX) ^ 2 * (kern k cs l m * sigma cs l m))); [|lia|].
  - unfold hsum. rewrite <- Rmult_assoc, (Rmult_comm (_ ^ 2)), <- sumn_scal. apply sumn_ext. intros l _. destruct (LMIN <=? l)%nat; [|ring]. rewrite <- sumn_scal. apply sumn_ext. intros m _. destruct (m <=? l)%nat; [|ring]. destruct (m =? 0)%nat; ring.
  - intros i Li. destruct (idx_range LMIN LMAX MM i Li) as (cs & l & m & Ei & Hr). rewrite row_at, Ei by exact Li. cbn [fst snd]. rewrite (V k i cs l m Li Ei), (HY cs l m Hr). unfold geoid_of.
    assert (P0 : 0 < a_axis (earth LMAX)) by (unfold earth, units_init, a_axis; cbn; unfold a_default; lra). pose proof (rad_pos _ P0). pose proof (rho_pos _ P0). pose proof PI_RGT_0. pose proof (pos_INR l). specialize (Hk l (proj1 Hr)). req. field. repeat split; try lra; exact Hk.
Qed.
(** no leakage: integrated against the surface mass of mascon j (1 cm of water, degrees LMIN to LMAX) the kernel of mascon k gives the area of the mascon if j = k, and 0 otherwise *)
Theorem C94_no_leakage : forall LMIN LMAX MMAX kl RAD ocean files SOLVER w, let MM := order_of MMAX LMAX in
  (MM <= LMAX)%nat -> (LMIN <= MM + 1)%nat -> (LMIN <= LMAX)%nat -> lstsq_solver SOLVER -> smoothing RAD LMAX = Ok w ->
  (forall l, (LMIN <= l <= LMAX)%nat -> 1 + nth l kl 0 <> 0 /\ nth l w 0 <> 0) -> no_mixture LMIN LMAX MM ocean files ->
  exists kern, sensitivity_kernel LMIN LMAX MMAX kl RAD ocean files 1 SOLVER = Ok kern /\
    forall j k, (j < List.length files)%nat -> (k < List.length files)%nat ->
      exists v, sphere_integral (fun th phi => field LMIN LMAX MM (kern k) th phi * field LMIN LMAX MM (mass_of LMAX kl (mascon_of LMAX MM ocean files j)) th phi) v /\
        rad_e (earth LMAX) ^ 2 * v = if (j =? k)%nat then area_of LMAX files k else 0.
Proof.
  intros LMIN LMAX MMAX kl RAD ocean files SOLVER w MM H1 H2 H3 HS HW Hk Hi.
  assert (Q : forall j, exists mass err area, calc_mascon LMIN LMAX MMAX kl RAD ocean files 1 SOLVER (fun _ => mascon_of LMAX MM ocean files j) (fun _ => zero_coefs) (fun _ => zero_coefs) (fun _ => zero_coefs) zero_coefs = Ok (mass, err, area) /\
     ((j < List.length files)%nat -> forall k, (k < List.length files)%nat -> mass k 0%nat * 10 ^ 15 = if (j =? k)%nat then area_of LMAX files k else 0)).
  { intros j. destruct (C93_recovers LMIN LMAX MMAX kl RAD ocean files SOLVER (fun _ => mascon_of LMAX MM ocean files j) (fun _ => zero_coefs) (fun _ => zero_coefs) (fun _ => zero_coefs) zero_coefs w H1 H2 H3 HS HW) as (mass & err & area & E & M).
    - intros l Hl. unfold mass_weight. destruct (Hk l Hl) as [A B]. pose proof (pos_INR l). apply Rmult_integral_contrapositive_currified; [exact B|]. apply Rmult_integral_contrapositive_currified; [lra|]. apply Rinv_neq_0_compat. exact A.
    - exact Hi.
    - exists mass, err, area. split; [exact E|]. intros Hj k Lk. rewrite (M 0%nat (fun q => LinAlg.delta q j)); [| |exact Lk].
      + unfold LinAlg.delta. rewrite (Nat.eqb_sym k j). destruct (j =? k)%nat; field.
      + intros cs l m Hr. unfold corrected, zero_coefs, mixture. rewrite (rsum_delta _ j (fun q => mascon_of LMAX (order_of MMAX LMAX) ocean files q cs l m) Hj). fold MM. ring. }
  destruct (Q 0%nat) as (m0 & e0 & a0 & E0 & _). destruct (C94_integral LMIN LMAX MMAX kl RAD ocean files SOLVER _ _ _ _ _ _ _ _ H1 H2 (fun l Hl => proj1 (Hk l Hl)) E0) as (kern & EK & _). exists kern. split; [exact EK|].
  intros j k Lj Lk. destruct (Q j) as (mass & err & area & E & M). destruct (C94_integral LMIN LMAX MMAX kl RAD ocean files SOLVER _ _ _ _ _ _ _ _ H1 H2 (fun l Hl => proj1 (Hk l Hl)) E) as (kern' & EK' & I0).
  assert (kern' = kern) by congruence. subst kern'. destruct (I0 k 0%nat (mass_of LMAX kl (mascon_of LMAX MM ocean files j))) as (v & V & W).
  - intros cs l m Hr. unfold corrected, zero_coefs, geoid_of, mass_of. assert (P0 : 0 < a_axis (earth LMAX)) by (unfold earth, units_init, a_axis; cbn; unfold a_default; lra). pose proof (rad_pos _ P0). pose proof (rho_pos _ P0).
    pose proof (pos_INR l). destruct (Hk l (proj1 Hr)) as [K0 _]. fold MM. field. repeat split; try lra; exact K0.
  - exists v. split; [exact V|]. rewrite <- W. apply M; assumption.
Qed.
(** harmonics outside the fit are zero in the kernel *)
Theorem C94_support : forall LMIN LMAX MMAX kl RAD ocean files SOLVER kern, let MM := order_of MMAX LMAX in (MM <= LMAX)%nat -> (LMIN <= MM + 1)%nat ->
  sensitivity_kernel LMIN LMAX MMAX kl RAD ocean files 1 SOLVER = Ok kern -> forall k cs l m, ~ in_range LMIN LMAX MM cs l m -> kern k cs l m = 0.
Proof.
  intros LMIN LMAX MMAX kl RAD ocean files SOLVER kern MM H1 H2 E. destruct (smoothing RAD LMAX) as [w|e] eqn:HW; [|unfold sensitivity_kernel in E; rewrite HW in E; discriminate].
  destruct (mascon_kernel LMIN LMAX MM kl w ocean files 1 SOLVER) as [A|e] eqn:HK; [|unfold sensitivity_kernel in E; rewrite HW in E; cbn [bind] in E; fold (order_of MMAX LMAX) in E; fold MM in E; rewrite HK in E; discriminate].
  destruct (kernel_values LMIN LMAX MMAX kl RAD ocean files SOLVER w A H1 H2 HW HK) as (kern' & EK & _ & Z). assert (kern' = kern) by congruence. subst. exact Z.
Qed.

(** ** C95: the mean square of a field over the sphere is the sum of the squared degree amplitudes *)
Lemma amp_parts c s LO MO n nt amp : degree_amplitude c s LO MO = Ok (n, nt, amp) -> n = (bound LO (rows c) + 1)%nat /\ (forall l t, amp l t ^ 2 = power_of (get c) (get s) (bound MO (cols c)) l t).
Proof.
  unfold degree_amplitude. destruct (_ || _)%bool; [discriminate|]. destruct (negb _); [discriminate|]. intros E. injection E as <- _ <-. split; [reflexivity|].
  intros l t. rewrite <- Rsqr_pow2. apply Rsqr_sqrt. apply power_nonneg.
Qed.
Definition triangular (c s : arr R) (LM MM t : nat) : Prop := (forall l, (l <= LM)%nat -> get s l 0 t = 0) /\ (forall l m, (l <= LM)%nat -> (m <= MM)%nat -> (l < m)%nat -> get c l m t = 0 /\ get s l m t = 0).
Lemma power_pairing c s lmin LM MM t : triangular c s LM MM t ->
  pairing (fun l m => get c l m t) (fun l m => get s l m t) (fun l m => get c l m t) (fun l m => get s l m t) lmin LM MM = sumn (LM + 1) (fun l => if (lmin <=? l)%nat then power_of (get c) (get s) MM l t else 0).
Proof.
  intros [Z T]. unfold pairing, power_of. rewrite sumn_swap. apply sumn_ext. intros l Hl. destruct (lmin <=? l)%nat; cbn [andb]; [|apply sumn_zero]. apply sumn_ext. intros m Hm.
  destruct (Nat.leb_spec m l) as [G|G]; [destruct (Nat.eqb_spec m 0) as [->|N]; [rewrite (Z l ltac:(lia))|]; ring|]. destruct (T l m ltac:(lia) ltac:(lia) G) as [-> ->]. ring.
Qed.
Theorem C95_power : forall c s LO MO n nt amp t, degree_amplitude c s LO MO = Ok (n, nt, amp) -> triangular c s (bound LO (rows c)) (bound MO (cols c)) t ->
  sphere_integral (fun th phi => series (fun l m => get c l m t) (fun l m => get s l m t) 0 (bound LO (rows c)) (bound MO (cols c)) th phi ^ 2) (4 * PI * sumn n (fun l => amp l t ^ 2)).
Proof.
  intros c s LO MO n nt amp t E T. destruct (amp_parts _ _ _ _ _ _ _ E) as [-> A]. pose proof (parseval (fun l m => get c l m t) (fun l m => get s l m t) (fun l m => get c l m t) (fun l m => get s l m t) 0 (bound LO (rows c)) (bound MO (cols c))) as [P1 P2].
  rewrite power_pairing in P2 by exact T. cbn [Nat.leb] in P2. rewrite (sumn_ext _ (fun l => amp l t ^ 2) (fun l => power_of (get c) (get s) (bound MO (cols c)) l t)) by (intros; apply A). split.
  - intros th Hth. apply (ex_RInt_ext (fun phi => series (fun l m => get c l m t) (fun l m => get s l m t) 0 (bound LO (rows c)) (bound MO (cols c)) th phi * series (fun l m => get c l m t) (fun l m => get s l m t) 0 (bound LO (rows c)) (bound MO (cols c)) th phi)); [intros; req; ring|apply P1; exact Hth].
  - eapply is_RInt_ext; [|exact P2]. intros th _. cbv beta. req. f_equal. apply RInt_ext. intros phi _. req. ring.
Qed.
(** the field of one degree: its mean square is the squared amplitude of the degree *)
Theorem C95_degree : forall c s LO MO n nt amp t l, degree_amplitude c s LO MO = Ok (n, nt, amp) -> triangular c s (bound LO (rows c)) (bound MO (cols c)) t -> (l <= bound LO (rows c))%nat ->
  sphere_integral (fun th phi => series (fun l m => get c l m t) (fun l m => get s l m t) l l (bound MO (cols c)) th phi ^ 2) (4 * PI * amp l t ^ 2).
Proof.
  intros c s LO MO n nt amp t l E T Hl. destruct (amp_parts _ _ _ _ _ _ _ E) as [-> A]. pose proof (parseval (fun l m => get c l m t) (fun l m => get s l m t) (fun l m => get c l m t) (fun l m => get s l m t) l l (bound MO (cols c))) as [P1 P2].
  rewrite power_pairing in P2 by (destruct T as [Z T]; split; intros; [apply Z|apply T]; lia).
  assert (X : sumn (l + 1) (fun l' => if (l <=? l')%nat then power_of (get c) (get s) (bound MO (cols c)) l' t else 0) = amp l t ^ 2).
  { rewrite A. rewrite (sumn_ext _ _ (fun i => if (i =? l)%nat then power_of (get c) (get s) (bound MO (cols c)) i t else 0)); [apply (sumn_pick (l + 1) l (fun i => power_of (get c) (get s) (bound MO (cols c)) i t)); lia|].
    intros i Hi. destruct (Nat.leb_spec l i), (Nat.eqb_spec i l); try lia; reflexivity. }
  rewrite X in P2. split.
  - intros th Hth. apply (ex_RInt_ext (fun phi => series (fun l m => get c l m t) (fun l m => get s l m t) l l (bound MO (cols c)) th phi * series (fun l m => get c l m t) (fun l m => get s l m t) l l (bound MO (cols c)) th phi)); [intros; req; ring|apply P1; exact Hth].
  - eapply is_RInt_ext; [|exact P2]. intros th _. cbv beta. req. f_equal. apply RInt_ext. intros phi _. req. ring.
Qed.
(** two fields of different degrees are uncorrelated over the sphere *)
Theorem C95_uncorrelated : forall (c s c' s' : nat -> nat -> R) (L L' M : nat), L <> L' -> sphere_integral (fun th phi => series c s L L M th phi * series c' s' L' L' M th phi) 0.
Proof.
  intros c s c' s' L L' M N. set (K := Nat.max L L'). set (cut := fun (v : nat -> nat -> R) d l m => if (l =? d)%nat then v l m else 0).
  assert (C : forall a b d th phi, (d <= K)%nat -> series (cut a d) (cut b d) 0 K M th phi = series a b d d M th phi).
  { intros a b d th phi Hd. unfold series. apply sumn_ext. intros m _. rewrite (sumn_ext (K + 1) _ (fun l => if (l =? d)%nat then Nlm l m (cos th) * (a l m * cos (INR m * phi) + b l m * sin (INR m * phi)) else 0)).
    - rewrite (sumn_pick (K + 1) d) by lia. rewrite (sumn_ext (d + 1) _ (fun l => if (l =? d)%nat then Nlm l m (cos th) * (a l m * cos (INR m * phi) + b l m * sin (INR m * phi)) else 0)).
      + rewrite (sumn_pick (d + 1) d) by lia. reflexivity.
      + intros i Hi. destruct (Nat.leb_spec d i), (Nat.eqb_spec i d); try lia; reflexivity.
    - intros i _. cbn [Nat.leb]. unfold cut. destruct (i =? d)%nat; ring. }
  pose proof (parseval (cut c L) (cut s L) (cut c' L') (cut s' L') 0 K M) as [P1 P2].
  assert (Z : pairing (cut c L) (cut s L) (cut c' L') (cut s' L') 0 K M = 0).
  { unfold pairing. rewrite (sumn_ext _ _ (fun _ => 0)); [apply sumn_zero|]. intros m _. rewrite (sumn_ext _ _ (fun _ => 0)); [apply sumn_zero|]. intros l _. unfold cut.
    destruct (_ && _)%bool; [|reflexivity]. destruct (Nat.eqb_spec l L), (Nat.eqb_spec l L'), (m =? 0)%nat; try lia; ring. }
  rewrite Z, Rmult_0_r in P2. split.
  - intros th Hth. eapply ex_RInt_ext; [|apply (P1 th Hth)]. intros phi _. cbv beta. req. rewrite !C by (unfold K; lia). reflexivity.
  - eapply is_RInt_ext; [|exact P2]. intros th _. cbv beta. req. f_equal. apply RInt_ext. intros phi _. req. rewrite !C by (unfold K; lia). reflexivity.
Qed.
Example C95_nonvacuous : exists n nt amp, let c := mkarr 3 3 None (fun l m _ => if (m <=? l)%nat then 1 else 0) in let s := mkarr 3 3 None (fun l m _ => if ((m <=? l) && (1 <=? m))%nat then 2 else 0) in
  degree_amplitude c s None None = Ok (n, nt, amp) /\ triangular c s (bound None (rows c)) (bound None (cols c)) 0 /\ amp 1%nat 0%nat ^ 2 = 6.
Proof.
  do 3 eexists. cbv zeta. split; [reflexivity|]. split.
  - split.
    + intros l _. cbn [get]. rewrite andb_false_r. reflexivity.
    + intros l m _ _ H. cbn [get]. replace (m <=? l)%nat with false by lia. split; reflexivity.
  - rewrite <- Rsqr_pow2, Rsqr_sqrt; cbn; lra.
Qed.
(** the hypotheses of C94_no_leakage are met by the example of C93 *)
Example C94_nonvacuous : (forall l, (1 <= l <= 2)%nat -> 1 + nth l [0; 0; 0] 0 <> 0 /\ nth l (repeat 1 3) 0 <> 0) /\ no_mixture 1 2 (order_of None 2) None two_mascons.
Proof.
  split; [|apply C93_nonvacuous]. intros l Hl. assert (l = 1 \/ l = 2)%nat as [->| ->] by lia; cbn; lra.
Qed.
