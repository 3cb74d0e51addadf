(** Specification and lemmas of the geocenter solution (C96). *)
From Coq Require Import Reals Lra Lia String List ZifyBool ZifyNat.
From Coquelicot Require Import Coquelicot.
From Verif Require Import Base UnitsModel UnitsProofs GaussModel Arr HarmModel LegendreSpec LegendreSpec2 LegendreModel LegendreProofs LegendreProofs2
  SummationModel SummationProofs LegendreOneModel LegendreOneProofs GenModel GenProofs PropGen SleModel SleProofs PropSle DestripeModel DestripeProofs LinAlg Lstsq MasconFitModel DegreeOneModel.
Import ListNotations.
Close Scope Z_scope.
Close Scope string_scope.
Open Scope R_scope.

(** ** Specification *)
(** area of the cells at latitude j on the unit sphere *)
Definition cell (r : run) (j : nat) : R := sin (colat (nth j (r_lat r) 0)) * cell_step (r_lon r) * cell_step (r_lat r).
(** integral over the grid, and over the ocean *)
Definition globe (r : run) (f : nat -> nat -> R) : R := grid_sum (List.length (r_lon r)) (List.length (r_lat r)) (fun i j => cell r j * f i j).
Definition sea (r : run) (f : nat -> nat -> R) : R := globe r (fun i j => ocean_at r i j * f i j).
(** the three degree one functions: sqrt(3) times the coordinates z, x, y of the cell *)
Definition axis (r : run) (c i j : nat) : R :=
  let th := colat (nth j (r_lat r) 0) in let ph := deg (nth i (r_lon r) 0) in
  sqrt 3 * match c with O => cos th | 1%nat => sin th * cos ph | _ => sin th * sin ph end.
(** water equivalent of a coefficient of degree l *)
Definition water (r : run) (l : nat) : R :=
  rho_e (earth (r_lmax r)) * rad_e (earth (r_lmax r)) * (2 * INR l + 1) / (3 * (1 + nth l (snd (fst (r_love r))) 0)).
(** mass (in water equivalent) of the degrees L0..LMAX of a field, smoothed with the weights w *)
Definition mass (r : run) (w : list R) (L0 : nat) (Y : coefs) (i j : nat) : R :=
  sumn (mm_of r + 1) (fun m => sumn (r_lmax r + 1) (fun l => if ((L0 <=? l) && (m <=? l))%nat then
    water r l * nth l w 0 * Nlm l m (cos (colat (nth j (r_lat r) 0))) *
    (Y false l m * cos (INR m * deg (nth i (r_lon r) 0)) + Y true l m * sin (INR m * deg (nth i (r_lon r) 0))) else 0)).
(** arguments of an ordinary run; [w] are the smoothing weights (C45_smoothing) *)
Record valid (r : run) (w : list R) : Prop := {
  v_grid : grid_ok (r_lon r) (r_lat r);
  v_shape : List.length (r_lon r) <> List.length (r_lat r);
  v_exp : (2 <= r_exp r)%nat; v_lmax : (1 <= r_lmax r <= r_exp r)%nat; v_mmax : (mm_of r <= r_lmax r)%nat;
  v_love : (r_exp r < List.length (fst (fst (r_love r))))%nat /\ (r_exp r < List.length (snd (fst (r_love r))))%nat /\ (r_exp r < List.length (snd (r_love r)))%nat;
  v_k : forall l, (l <= r_exp r)%nat -> 1 + nth l (snd (fst (r_love r))) 0 <> 0;
  v_smooth : smoothing (r_rad r) (r_lmax r) = Ok w }.
(** all ocean cells (of nonzero area) lie on one great circle, the one perpendicular to x *)
Definition on_circle (r : run) (x : nat -> R) : Prop :=
  forall i j, (i < List.length (r_lon r))%nat -> (j < List.length (r_lat r))%nat -> 0 < cell r j -> ocean_at r i j = 1 ->
    x 0%nat * axis r 0 i j + x 1%nat * axis r 1 i j + x 2%nat * axis r 2 i j = 0.
Definition spread (r : run) : Prop := forall x, on_circle r x -> forall c, (c < 3)%nat -> x c = 0.

Lemma globe_ext r f g : (forall i j, (i < List.length (r_lon r))%nat -> (j < List.length (r_lat r))%nat -> cell r j * f i j = cell r j * g i j) -> globe r f = globe r g.
Proof. intros H. apply grid_sum_ext. exact H. Qed.
Lemma globe_plus r f g : globe r (fun i j => f i j + g i j) = globe r f + globe r g.
Proof. unfold globe, grid_sum. rewrite <- sumn_plus. apply sumn_ext. intros j _. rewrite <- sumn_plus. apply sumn_ext. intros i _. ring. Qed.
Lemma globe_scal r a f : globe r (fun i j => a * f i j) = a * globe r f.
Proof. unfold globe, grid_sum. rewrite <- sumn_scal. apply sumn_ext. intros j _. rewrite <- sumn_scal. apply sumn_ext. intros i _. ring. Qed.
Lemma sea_ext r f g : (forall i j, (i < List.length (r_lon r))%nat -> (j < List.length (r_lat r))%nat -> cell r j * f i j = cell r j * g i j) -> sea r f = sea r g.
Proof. intros H. apply globe_ext. intros i j Hi Hj. specialize (H i j Hi Hj). replace (cell r j * (ocean_at r i j * f i j)) with (ocean_at r i j * (cell r j * f i j)) by ring. rewrite H. ring. Qed.
Lemma sea_plus r f g : sea r (fun i j => f i j + g i j) = sea r f + sea r g.
Proof. unfold sea. rewrite <- globe_plus. apply globe_ext. intros. ring. Qed.
Lemma sea_scal r a f : sea r (fun i j => a * f i j) = a * sea r f.
Proof. unfold sea. rewrite <- globe_scal. apply globe_ext. intros. ring. Qed.
Lemma cell_pos r j : grid_ok (r_lon r) (r_lat r) -> (j < List.length (r_lat r))%nat -> 0 <= cell r j.
Proof.
  intros (_ & _ & G) H. unfold cell, cell_step, deg. pose proof (sin_lat (r_lat r) j G H). pose proof PI_RGT_0.
  assert (forall x, 0 <= Rabs x * PI / 180) by (intros; pose proof (Rabs_pos x); apply Rmult_le_pos; [apply Rmult_le_pos|]; lra).
  apply Rmult_le_pos; [apply Rmult_le_pos|]; auto.
Qed.
Lemma ocean01 r i j : ocean_at r i j = 0 \/ ocean_at r i j = 1.
Proof. unfold ocean_at, land, b2r. destruct (is_land _); lra. Qed.

(** ** the setup *)
Definition good (r : run) (w : list R) (s : setup) : Prop :=
  holmes_or None (r_exp r) (r_lat r) = Ok (s_P s) /\
  (forall l m j, (l <= r_exp r)%nat -> (j < List.length (r_lat r))%nat -> get (s_P s) l m j * cell r j = Nlm l m (cos (colat (nth j (r_lat r) 0))) * cell r j) /\
  rows (s_P s) = (r_exp r + 1)%nat /\ cols (s_P s) = (r_exp r + 1)%nat /\ nslice (s_P s) = List.length (r_lat r) /\
  (forall l, (l <= r_lmax r)%nat -> nth l (s_df s) 0 = water r l) /\ s_wt s = w /\
  s_dphi s = cell_step (r_lon r) /\ s_dth s = cell_step (r_lat r).
Lemma stokes1 r w P data D : valid r w -> rows data = List.length (r_lon r) -> cols data = List.length (r_lat r) -> (forall i j, (i < List.length (r_lon r))%nat -> (j < List.length (r_lat r))%nat -> get data i j 0 = D i j) -> holmes_or None (r_exp r) (r_lat r) = Ok P ->
  exists Y, gen_stokes data (r_lon r) (r_lat r) 0 1 None (GCode 1) (Some (first_two P)) (Some (r_love r)) = Ok Y /\
    get (clm Y) 0 0 0 = cmwe_factor (snd (fst (r_love r))) 1 0 * globe r D /\
    forall c, (c < 3)%nat -> deg1_of (fun cs l m => if cs then get (slm Y) l m 0 else get (clm Y) l m 0) c = cmwe_factor (snd (fst (r_love r))) 1 1 * globe r (fun i j => axis r c i j * D i j).
Proof.
  intros V D1 D2 D3 EP. pose proof V as V0. destruct V0 as [VG VS VE VL VM [VH [VK VLL]] V1 VW]. destruct VG as (G1 & G2 & G3).
  destruct (r_love r) as [[h k] ll] eqn:EL. cbn [fst snd] in *.
  destruct (holmes_gives (r_exp r) (r_lat r) VE) as (P' & EP' & P1 & P2 & P3 & P4). assert (P' = P) by congruence. subst P'.
  unfold gen_stokes. rewrite !step_ok by assumption. cbn [bind stokes_units].
  destruct (spatial_ok 1 h k ll ltac:(lia)) as (d & d' & Ed & _ & Ld & _ & Vd). match goal with |- context [spatial_factors 1 ?L cmwe] => change (spatial_factors 1 L cmwe) with (spatial_factors 1 (Some (h, k, ll)) cmwe) end. rewrite Ed. cbn [bind holmes_or fst snd].
  destruct (gen_main data (r_lon r) (r_lat r) D 0 1 1 (first_two P) d (fun j => sin (colat (nth j (r_lat r) 0)) * deg (Rabs (nth 1 (r_lon r) 0 - nth 0 (r_lon r) 0)) * deg (Rabs (nth 1 (r_lat r) 0 - nth 0 (r_lat r) 0))))
    as (Y & EY & _ & _ & _ & _ & _ & _ & _ & _ & A9 & A10).
  { right. repeat split; try assumption. }
  { assumption. } { cbn [first_two cols]. lia. } { unfold nslice in *. cbn [first_two depth]. rewrite P3. lia. } { cbn [first_two rows]. lia. } { lia. }
  exists Y. split; [exact EY|].
  assert (Q : forall l m j, (l <= 1)%nat -> (j < List.length (r_lat r))%nat -> get (first_two P) l m j * cell r j = Nlm l m (cos (colat (nth j (r_lat r) 0))) * cell r j).
  { intros l m j Hl Hj. cbn [first_two get]. rewrite P4 by (lia || assumption). unfold cell. rewrite !(Rmult_assoc (sin _)). apply NU_sin. now apply sin_lat. }
  fold (cell_step (r_lon r)) (cell_step (r_lat r)) in A9, A10.
  assert (SQ : forall j, (j < List.length (r_lat r))%nat -> sqrt (1 - cos (colat (nth j (r_lat r) 0)) ^ 2) = sin (colat (nth j (r_lat r) 0))).
  { intros j Hj. apply sqrt_sin. now apply sin_lat. }
  split.
  - rewrite A9 by lia. cbn [Nat.leb andb]. destruct (Vd 0%nat ltac:(lia)) as [-> _]. f_equal. apply grid_sum_ext. intros i j Hi Hj. fold (cell r j).
    rewrite Q by (lia || assumption). rewrite Nlm_NU, NU_0_0. rewrite Rmult_0_l, cos_0. ring.
  - intros c Hc. unfold deg1_of. destruct c as [|[|[|c]]]; [| | |lia]; [rewrite A9 by lia|rewrite A9 by lia|rewrite A10 by lia]; cbn [Nat.leb andb]; destruct (Vd 1%nat ltac:(lia)) as [-> _]; f_equal;
      apply grid_sum_ext; intros i j Hi Hj; fold (cell r j); rewrite Q by (lia || assumption); rewrite Nlm_NU, ?NU_1_0, ?NU_1_1; rewrite ?SQ by assumption; unfold axis;
      change (INR 0) with 0; change (INR 1) with 1; rewrite ?Rmult_0_l, ?cos_0, ?Rmult_1_l; ring.
Qed.
Lemma prepare_ok r w : valid r w -> exists s, prepare r = (if r_obp r then Err TypeError else Ok s) /\ good r w s /\
  get (clm (s_ocean0 s)) 0 0 0 = cmwe_factor (snd (fst (r_love r))) 1 0 * sea r (fun _ _ => 1) /\
  forall c, (c < 3)%nat -> deg1_of (fun cs l m => if cs then get (slm (s_ocean0 s)) l m 0 else get (clm (s_ocean0 s)) l m 0) c = cmwe_factor (snd (fst (r_love r))) 1 1 * sea r (axis r c).
Proof.
  intros V. pose proof V as V0. destruct V0 as [VG VS VE VL VM [VH [VK VLL]] V1 VW]. destruct VG as (G1 & G2 & G3).
  destruct (holmes_gives (r_exp r) (r_lat r) VE) as (P & EP & P1 & P2 & P3 & P4).
  destruct (stokes1 r w P (on_grid r (ocean_at r)) (ocean_at r) V eq_refl eq_refl ltac:(reflexivity) EP) as (Y & EY & Y0 & Y1).
  unfold prepare. destruct (r_love r) as [[h k] ll] eqn:EL. cbn [fst snd] in *.
  destruct (harmonic_ok h k ll true false (earth (r_lmax r)) (r_lmax r) eq_refl) as (u & EU & _ & _ & _ & n1 & cw & mw & gh & cu & ch & cv & mv & ug & mb & pa & _ & EC & _ & _ & _ & _ & _ & _ & _ & _ & _ & _ & LC & _ & _ & _ & _ & _ & _ & _ & _ & _ & VAL); try lia; try (intros; lia).
  rewrite EU. cbn [bind]. rewrite EC. cbn [bind]. rewrite !step_ok by assumption. cbn [bind].
  unfold holmes_or in EP. destruct (plm_holmes _ _ _) as [pd|] eqn:EPD; cbn [bind] in *; [|discriminate]. assert (fst pd = P) by congruence. rewrite H. rewrite EY. cbn [bind]. rewrite VW. cbn [bind].
  replace ((r_exp r <? r_lmax r) || (r_lmax r <? 1) || (r_lmax r <? mm_of r))%nat with false by lia.
  eexists. split; [reflexivity|]. cbn [s_P s_df s_wt s_dphi s_dth s_ocean0]. split; [|split].
  - unfold good. cbn [s_P s_df s_wt s_dphi s_dth]. split; [unfold holmes_or; rewrite EPD; cbn [bind]; congruence|]. split.
    { intros l m j Hl Hj. rewrite P4 by (lia || assumption). unfold cell. rewrite !(Rmult_assoc (sin _)). apply NU_sin. now apply sin_lat. }
    repeat (split; [assumption|]). split; [|repeat split; assumption || reflexivity].
    intros l Hl. destruct (VAL l Hl) as (_ & -> & _). unfold water. rewrite EL. cbn [fst snd]. unfold frac. f_equal. f_equal. field.
  - rewrite Y0. f_equal. apply globe_ext. intros. ring.
  - intros c Hc. rewrite (Y1 c Hc). f_equal. apply globe_ext. intros. ring.
Qed.

Section Month.
Context (r : run) (w : list R) (s : setup) (V : valid r w) (G : good r w s).
Lemma area_ok j : int_fact r s j = cell r j.
Proof. destruct G as (_ & _ & _ & _ & _ & _ & _ & E1 & E2). unfold int_fact, cell. rewrite E1, E2. reflexivity. Qed.
Lemma base_ok c i j : (c < 3)%nat -> (j < List.length (r_lat r))%nat -> cell r j * base r s c i j = cell r j * axis r c i j.
Proof.
  intros Hc Hj. destruct G as (_ & GP & _). destruct V as [VG VS VE VL VM VLo V1 VW]. destruct VG as (G1 & G2 & G3).
  assert (SQ : sqrt (1 - cos (colat (nth j (r_lat r) 0)) ^ 2) = sin (colat (nth j (r_lat r) 0))) by (apply sqrt_sin; now apply sin_lat).
  unfold base, axis, phi. change (INR 1) with 1. change (INR 0) with 0. rewrite Rmult_0_l, Rmult_1_l, cos_0.
  destruct c as [|[|[|c]]]; [| | |lia]; rewrite (Rmult_comm (cell r j)).
  - rewrite Rmult_assoc, (Rmult_comm 1), <- Rmult_assoc, GP by (lia || assumption). rewrite Nlm_NU, NU_1_0. ring.
  - rewrite Rmult_assoc, (Rmult_comm (cos _)), <- Rmult_assoc, GP by (lia || assumption). rewrite Nlm_NU, NU_1_1, SQ. ring.
  - rewrite Rmult_assoc, (Rmult_comm (sin _)), <- Rmult_assoc, GP by (lia || assumption). rewrite Nlm_NU, NU_1_1, SQ. ring.
Qed.
Lemma project_ok c F : (c < 3)%nat -> project r s c F = sea r (fun i j => axis r c i j * F i j) / (4 * PI).
Proof.
  intros Hc. unfold project, sea, globe, grid_sum, Rdiv. rewrite (Rmult_comm (sumn _ _)), <- sumn_scal. apply sumn_ext. intros j Hj.
  rewrite (Rmult_comm (sumn _ _)). f_equal. apply sumn_ext. intros i Hi. rewrite area_ok, base_ok by assumption. ring.
Qed.
Lemma mass_ok L0 Y i j : (1 <= L0)%nat -> (j < List.length (r_lat r))%nat -> cell r j * mass_grid r s L0 Y i j = cell r j * mass r w L0 Y i j.
Proof.
  intros HL Hj. destruct G as (_ & GP & _ & _ & _ & GD & GW & _). destruct V as [VG VS VE VL VM VLo V1 VW].
  unfold mass_grid, mass. cbv zeta. rewrite <- sumn_plus. rewrite <- !sumn_scal. apply sumn_ext. intros m Hm. rewrite <- !sumn_scal, <- sumn_plus, <- !sumn_scal. apply sumn_ext. intros l Hl.
  unfold plmout, phi. destruct (L0 <=? l)%nat eqn:E; cbn [andb]; [|ring].
  replace ((1 <=? l) && (l <=? r_lmax r) && (m <=? Nat.min l (mm_of r)))%nat with (m <=? l)%nat by lia. destruct (m <=? l)%nat; [|ring].
  rewrite GD by lia. rewrite GW. pose proof (GP l m j ltac:(lia) Hj) as Q.
  transitivity (get (s_P s) l m j * cell r j * (water r l * nth l w 0 * (Y false l m * cos (INR m * deg (nth i (r_lon r) 0)) + Y true l m * sin (INR m * deg (nth i (r_lon r) 0))))); [ring|].
  rewrite Q. ring.
Qed.
Lemma imat_ok a b : (a < 3)%nat -> (b < 3)%nat -> imat r s a b = sea r (fun i j => axis r a i j * axis r b i j) / (4 * PI).
Proof.
  intros Ha Hb. unfold imat. rewrite project_ok by assumption. f_equal. apply sea_ext. intros i j Hi Hj.
  replace (cell r j * (axis r b i j * base r s a i j)) with (axis r b i j * (cell r j * base r s a i j)) by ring. rewrite base_ok by assumption. ring.
Qed.
Lemma gmat_ok t c : (c < 3)%nat -> gmat r s t c = sea r (fun i j => axis r c i j * mass r w 2 (anomaly r t) i j) / (4 * PI).
Proof.
  intros Hc. unfold gmat. rewrite project_ok by assumption. f_equal. apply sea_ext. intros i j Hi Hj.
  replace (cell r j * (axis r c i j * mass_grid r s 2 (anomaly r t) i j)) with (axis r c i j * (cell r j * mass_grid r s 2 (anomaly r t) i j)) by ring. rewrite mass_ok by (lia || assumption). ring.
Qed.

(** the normal matrix *)
Lemma flat_sum n m (f : nat -> nat -> R) : (0 < n)%nat -> grid_sum n m f = rsum (m * n) (fun k => f (k mod n)%nat (k / n)%nat).
Proof.
  intros Hn. unfold grid_sum. induction m as [|m IH]; [reflexivity|]. cbn [sumn]. rewrite IH. replace (S m * n)%nat with (m * n + n)%nat by lia. rewrite rsum_app. f_equal.
  transitivity (rsum n (fun i => f i m)); [reflexivity|]. apply rsum_ext. intros i Hi. rewrite (Nat.add_comm (m * n) i), Nat.mod_add, Nat.div_add by lia. rewrite Nat.mod_small, Nat.div_small by lia. reflexivity.
Qed.
Definition col (c k : nat) : R := let n := List.length (r_lon r) in sqrt (cell r (k / n) * ocean_at r (k mod n) (k / n) / (4 * PI)) * axis r c (k mod n) (k / n).
Lemma four_pi : 0 < 4 * PI. Proof. pose proof PI_RGT_0. lra. Qed.
Lemma lon_pos : (0 < List.length (r_lon r))%nat. Proof. destruct V as [[G1 [G2 _]] _ _ _ _ _ _ _]. lia. Qed.
Lemma row_lt k : (k < List.length (r_lat r) * List.length (r_lon r))%nat -> (k / List.length (r_lon r) < List.length (r_lat r))%nat.
Proof. intros H. apply Nat.div_lt_upper_bound; pose proof lon_pos; lia. Qed.
Lemma imat_gram a b : (a < 3)%nat -> (b < 3)%nat -> imat r s a b = gram (List.length (r_lat r) * List.length (r_lon r)) col a b.
Proof.
  intros Ha Hb. rewrite imat_ok by assumption. unfold sea, globe. rewrite flat_sum by apply lon_pos. unfold gram, dot, Rdiv. rewrite Rmult_comm, <- rsum_scal. apply rsum_ext. intros k Hk. unfold col. cbv zeta.
  set (q := cell r (k / List.length (r_lon r)) * ocean_at r (k mod List.length (r_lon r)) (k / List.length (r_lon r)) / (4 * PI)).
  assert (0 <= q). { unfold q. pose proof four_pi. apply Rmult_le_pos; [apply Rmult_le_pos|left; now apply Rinv_0_lt_compat]. apply cell_pos; [apply V|now apply row_lt]. destruct (ocean01 r (k mod List.length (r_lon r)) (k / List.length (r_lon r))); lra. }
  transitivity (sqrt q * sqrt q * (axis r a (k mod List.length (r_lon r)) (k / List.length (r_lon r)) * axis r b (k mod List.length (r_lon r)) (k / List.length (r_lon r)))); [|ring].
  rewrite sqrt_sqrt by assumption. unfold q, Rdiv. ring.
Qed.
Lemma inv_ext p M N : (forall a b, (a < p)%nat -> (b < p)%nat -> M a b = N a b) -> (exists B, inv p M = Ok B) -> exists B, inv p N = Ok B.
Proof.
  intros E H. apply inv_complete in H. apply inv_complete. destruct H as [B HB]. exists B. intros i j Hi Hj. rewrite <- (HB i j Hi Hj). unfold mmul. apply rsum_ext. intros k Hk. rewrite E by assumption. reflexivity.
Qed.
Lemma spread_indep : independent 3 (List.length (r_lat r) * List.length (r_lon r)) col <-> spread r.
Proof.
  pose proof four_pi as FP. pose proof lon_pos as LP. split.
  - intros I x Hx c Hc. apply (I x); [|exact Hc]. intros k Hk. pose proof (row_lt k Hk) as Hr. unfold comb, col. cbv zeta. cbn [rsum].
    set (n := List.length (r_lon r)) in *. assert (Hm : (k mod n < n)%nat) by (apply Nat.mod_upper_bound; lia).
    assert (Cp : 0 <= cell r (k / n)) by (apply cell_pos; [apply V|exact Hr]).
    destruct (ocean01 r (k mod n) (k / n)) as [E|E]; rewrite E.
    + replace (cell r (k / n) * 0 / (4 * PI)) with 0 by (unfold Rdiv; ring). rewrite sqrt_0. ring.
    + destruct (Rle_lt_or_eq_dec 0 _ Cp) as [P|Z].
      * pose proof (Hx _ _ Hm Hr P E) as Q. transitivity (sqrt (cell r (k / n) * 1 / (4 * PI)) * (x 0%nat * axis r 0 (k mod n) (k / n) + x 1%nat * axis r 1 (k mod n) (k / n) + x 2%nat * axis r 2 (k mod n) (k / n))); [ring|]. rewrite Q. ring.
      * rewrite <- Z. replace (0 * 1 / (4 * PI)) with 0 by (unfold Rdiv; ring). rewrite sqrt_0. ring.
  - intros S x Hx. apply S. intros i j Hi Hj Cp E. set (n := List.length (r_lon r)) in *.
    assert (Hk : (j * n + i < List.length (r_lat r) * n)%nat) by nia. pose proof (Hx _ Hk) as Q. unfold comb, col in Q. cbv zeta in Q. fold n in Q. cbn [rsum] in Q.
    rewrite (Nat.add_comm (j * n) i), Nat.mod_add, Nat.div_add in Q by lia. rewrite Nat.mod_small, Nat.div_small in Q by lia. cbn [Nat.add] in Q. rewrite E in Q.
    assert (0 < sqrt (cell r j * 1 / (4 * PI))). { apply sqrt_lt_R0. apply Rdiv_lt_0_compat; lra. }
    assert (Z : sqrt (cell r j * 1 / (4 * PI)) * (x 0%nat * axis r 0 i j + x 1%nat * axis r 1 i j + x 2%nat * axis r 2 i j) = 0) by (rewrite <- Q; ring).
    apply Rmult_integral in Z. lra.
Qed.
Lemma inv_spread : (exists B, inv 3 (imat r s) = Ok B) <-> spread r.
Proof.
  rewrite <- spread_indep, <- gram_inv. split; apply inv_ext; intros; [|symmetry]; now apply imat_gram.
Qed.
Definition known (S : string) : Prop := In S ["inv"%string; "lstsq"%string; "gelsd"%string; "gelsy"%string; "gelss"%string].
Lemma solve_ok v : spread r -> known (r_solver r) -> exists D, solve r s v = Ok D /\ forall c, (c < 3)%nat -> rsum 3 (fun b => imat r s c b * D b) = v c.
Proof.
  intros HS K. destruct (proj2 inv_spread HS) as [B EB]. pose proof (inv_ok _ _ _ EB) as HB.
  assert (X : forall c, (c < 3)%nat -> rsum 3 (fun b => imat r s c b * rsum 3 (fun a => B b a * v a)) = v c).
  { intros c Hc. transitivity (rsum 3 (fun a => mmul 3 (imat r s) B c a * v a)).
    - unfold mmul. cbn [rsum]. ring.
    - rewrite (rsum_ext 3 _ (fun a => LinAlg.delta c a * v a)) by (intros; now rewrite HB). destruct c as [|[|[|c]]]; [| | |lia]; cbn; ring. }
  assert (EL : exists D, Ok (lstsq 3 3 (fun k i => imat r s i k) v) = Ok D /\ forall c, (c < 3)%nat -> rsum 3 (fun b => imat r s c b * D b) = v c).
  { eexists. split; [reflexivity|]. intros c Hc.
    assert (I : independent 3 3 (fun k i => imat r s i k)).
    { destruct (inv_sym 3 (imat r s) B) as [_ HL]; [|exact HB|].
      - intros a b Ha Hb. rewrite !imat_ok by assumption. f_equal. apply sea_ext. intros. ring.
      - intros x Hx j Hj. transitivity (rsum 3 (fun l => mmul 3 B (imat r s) j l * x l)).
        + rewrite (rsum_ext 3 _ (fun l => LinAlg.delta j l * x l)) by (intros; now rewrite HL). destruct j as [|[|[|j]]]; [| | |lia]; cbn; ring.
        + transitivity (rsum 3 (fun a => B j a * comb 3 (fun k i => imat r s i k) x a)); [unfold mmul, comb; cbn [rsum]; ring|].
          rewrite (rsum_ext 3 _ (fun _ => 0)); [cbn; ring|]. intros a Ha. rewrite (Hx a Ha). ring. }
    assert (E : forall j, (j < 3)%nat -> lstsq 3 3 (fun k i => imat r s i k) v j = rsum 3 (fun a => B j a * v a)).
    { apply (is_lstsq_exact 3 3 (fun k i => imat r s i k) v); [exact I|apply lstsq_ok|]. intros i Hi. rewrite <- (X i Hi). unfold comb. cbn [rsum]. ring. }
    rewrite <- (X c Hc). apply rsum_ext. intros b Hb. now rewrite E. }
  unfold solve. destruct K as [K|[K|[K|[K|[K|[]]]]]]; rewrite <- K; cbn [String.eqb Ascii.eqb Bool.eqb orb]; try exact EL.
  rewrite EB. cbn [bind]. eexists. split; [reflexivity|]. exact X.
Qed.
(** the solution of the normal equations is unique *)
Lemma solve_uniq D D' : spread r -> (forall c, (c < 3)%nat -> rsum 3 (fun b => imat r s c b * D b) = rsum 3 (fun b => imat r s c b * D' b)) -> forall b, (b < 3)%nat -> D b = D' b.
Proof.
  intros HS H b Hb. destruct (proj2 inv_spread HS) as [B EB]. pose proof (inv_ok _ _ _ EB) as HB.
  destruct (inv_sym 3 (imat r s) B) as [_ HL]; [|exact HB|].
  { intros a b' Ha Hb'. rewrite !imat_ok by assumption. f_equal. apply sea_ext. intros. ring. }
  assert (X : forall F, rsum 3 (fun a => B b a * rsum 3 (fun l => imat r s a l * F l)) = F b).
  { intros F. transitivity (rsum 3 (fun l => mmul 3 B (imat r s) b l * F l)); [unfold mmul; cbn [rsum]; ring|].
    rewrite (rsum_ext 3 _ (fun l => LinAlg.delta b l * F l)) by (intros; now rewrite HL). destruct b as [|[|[|b]]]; [| | |lia]; cbn; ring. }
  rewrite <- (X D), <- (X D'). apply rsum_ext. intros a Ha. now rewrite H.
Qed.
End Month.
