(** Properties C47, C48, C49: gen_stokes.py, gen_harmonics.py (integration),
    ocean_stokes.py, gen_point_load.py.  Spherical harmonics are [Nlm]
    (LegendreSpec2), sums are plain finite sums [sumn] over grid indices. *)
From Coq Require Import Reals Lra Lia String ZifyBool ZifyNat.
From Coquelicot Require Import Coquelicot.
From Verif Require Import Base UnitsModel UnitsProofs GaussModel Arr HarmModel LegendreSpec LegendreSpec2 LegendreModel LegendreProofs LegendreProofs2
  SummationModel SummationProofs LegendreOneModel LegendreOneProofs GenModel GenProofs.
Close Scope Z_scope.
Close Scope string_scope.
Open Scope R_scope.

(** ** Specification *)
(** grid steps in radians, from the first two coordinates *)
Definition cell_step (xs : list R) : R := deg (Rabs (nth 1 xs 0 - nth 0 xs 0)).
(** the discrete integral of (the spherical harmonic of degree l, order m) times
    the data over the grid, every cell having area sin(theta) dphi dtheta *)
Definition quad (trig : R -> R) (lon lat : list R) (l m : nat) (D : nat -> nat -> R) : R :=
  grid_sum (List.length lon) (List.length lat) (fun i j =>
    let th := colat (nth j lat 0) in
    Nlm l m (cos th) * (sin th * cell_step lon * cell_step lat) * trig (INR m * deg (nth i lon 0)) * D i j).
(** the sum of (spherical harmonic) * data with no cell area *)
Definition msum (trig : R -> R) (lon lat : list R) (l m : nat) (D : nat -> nat -> R) : R :=
  grid_sum (List.length lon) (List.length lat) (fun i j =>
    Nlm l m (cos (colat (nth j lat 0))) * trig (INR m * deg (nth i lon 0)) * D i j).
(** a regular grid, poles allowed *)
Definition grid_ok (lon lat : list R) : Prop :=
  (2 <= List.length lon)%nat /\ (2 <= List.length lat)%nat /\ Forall (fun y => -90 <= y <= 90) lat.
(** a set of coefficients of the right shape whose entries are [c] and [s] for
    LMIN <= degree <= LMAX and order <= min(degree, MMAX), and 0 otherwise *)
Definition coefficients (Y : harm) (LMIN LMAX MMAX : nat) (c s : nat -> nat -> R) : Prop :=
  lmax Y = LMAX /\ mmax Y = MMAX /\ time Y = TNone /\ month Y = TNone /\
  rows (clm Y) = (LMAX + 1)%nat /\ cols (clm Y) = (MMAX + 1)%nat /\ depth (clm Y) = None /\ same_shape (clm Y) (slm Y) /\
  forall l m t, (l <= LMAX)%nat -> (m <= MMAX)%nat ->
    (((LMIN <= l)%nat /\ (m <= l)%nat) -> get (clm Y) l m t = c l m /\ get (slm Y) l m t = s l m) /\
    (~ ((LMIN <= l)%nat /\ (m <= l)%nat) -> get (clm Y) l m t = 0 /\ get (slm Y) l m t = 0).

Lemma sin_lat lat j : Forall (fun y => -90 <= y <= 90) lat -> (j < List.length lat)%nat -> 0 <= sin (colat (nth j lat 0)).
Proof. intros F Hj. rewrite Forall_forall in F. pose proof (colat_range _ (F _ (nth_In lat 0 Hj))) as [A B]. now apply sin_ge_0. Qed.
Lemma sin_lat_pos lat j : Forall (fun y => -90 < y < 90) lat -> (j < List.length lat)%nat -> 0 < sin (colat (nth j lat 0)).
Proof.
  intros F Hj. rewrite Forall_forall in F. pose proof (F _ (nth_In lat 0 Hj)) as [A B]. pose proof PI_RGT_0. apply sin_gt_0; unfold colat; nra.
Qed.
Lemma grid_sum_ext n p f g : (forall i j, (i < n)%nat -> (j < p)%nat -> f i j = g i j) -> grid_sum n p f = grid_sum n p g.
Proof. intros H. unfold grid_sum. apply sumn_ext. intros j Hj. apply sumn_ext. intros i Hi. now apply H. Qed.

Lemma main_area data lon lat D LMIN LMAX MM P df c : lonlat data (List.length lon) (List.length lat) D -> grid_ok lon lat -> (2 <= LMAX)%nat -> (MM <= LMAX)%nat ->
  holmes_or None LMAX lat = Ok P -> (LMAX < List.length df)%nat ->
  (forall j, (j < List.length lat)%nat -> c j = sin (colat (nth j lat 0)) * cell_step lon * cell_step lat) ->
  exists Y, integrate (oriented data (List.length lat)) (map phi_of lon) c (List.length lat) LMIN LMAX MM P df = Ok Y /\
   coefficients Y LMIN LMAX MM (fun l m => nth l df 0 * quad cos lon lat l m D) (fun l m => nth l df 0 * quad sin lon lat l m D).
Proof.
  intros HD (G1 & G2 & G3) HL HM E Hd Hc. destruct (holmes_gives LMAX lat HL) as (P' & E' & P1 & P2 & P3 & P4). assert (P' = P) by congruence. subst P'.
  destruct (gen_main data lon lat D LMIN LMAX MM P df c) as (Y & EY & A1 & A2 & A3 & A4 & A5 & A6 & A7 & A8 & A9 & A10);
    [exact HD|lia|lia|lia|exact P1|exact Hd|]. exists Y. split; [exact EY|]. unfold coefficients. repeat (split; [assumption|]).
  assert (Q : forall trig l m, (l <= LMAX)%nat -> grid_sum (List.length lon) (List.length lat) (fun i j => get P l m j * c j * trig (INR m * deg (nth i lon 0)) * D i j)
      = quad trig lon lat l m D).
  { intros trig l m Hl. apply grid_sum_ext. intros i j Hi Hj. rewrite P4 by assumption. rewrite Hc by assumption. cbv zeta. f_equal. f_equal.
    rewrite Rmult_assoc. apply NU_sin, sin_lat; assumption. }
  intros l m t Hl Hm. rewrite A9, A10 by assumption. split.
  - intros [B1 B2]. replace ((LMIN <=? l) && (m <=? l))%nat with true by lia. split; f_equal; now apply Q.
  - intros N. replace ((LMIN <=? l) && (m <=? l))%nat with false by lia. split; reflexivity.
Qed.

(** ** C47 *)
Section C47.
Context (data : arr R) (lon lat : list R) (D : nat -> nat -> R) (LMIN LMAX : nat) (MMAX : option nat).
(** the data are given as [lat, lon], or as [lon, lat] when the two sizes differ *)
Hypothesis HD : lonlat data (List.length lon) (List.length lat) D.
Hypothesis HG : grid_ok lon lat.
Hypothesis HL : (2 <= LMAX)%nat.
Hypothesis HM : (upto_order MMAX LMAX <= LMAX)%nat.

Lemma stokes_area U LOVE df : (LMAX < List.length df)%nat ->
  stokes_units LMAX U LOVE (cell_step lon) (cell_step lat) = Ok (df, fun th => sin th * cell_step lon * cell_step lat) ->
  exists Y, gen_stokes data lon lat LMIN LMAX MMAX U None LOVE = Ok Y /\
    coefficients Y LMIN LMAX (upto_order MMAX LMAX) (fun l m => nth l df 0 * quad cos lon lat l m D) (fun l m => nth l df 0 * quad sin lon lat l m D).
Proof.
  intros Hd E. unfold gen_stokes. destruct HG as (G1 & G2 & G3). rewrite !step_ok by assumption. cbn [bind]. fold (cell_step lon) (cell_step lat).
  rewrite E. cbn [bind fst snd]. destruct (holmes_gives LMAX lat HL) as (P & EP & _). rewrite EP. cbn [bind].
  apply main_area; try assumption. reflexivity.
Qed.

(** custom degree factors *)
Theorem C47_custom : forall df LOVE, (LMAX < List.length df)%nat ->
  exists Y, gen_stokes data lon lat LMIN LMAX MMAX (GCustom df) None LOVE = Ok Y /\
    coefficients Y LMIN LMAX (upto_order MMAX LMAX) (fun l m => nth l df 0 * quad cos lon lat l m D) (fun l m => nth l df 0 * quad sin lon lat l m D).
Proof. intros df LOVE H. now apply stokes_area. Qed.

(** unit codes 1 (cm of water) and 3 (mm of water): [cmwe_factor] is
    3 (1 + k_l) / (2l + 1) / (4 pi a rho) *)
Theorem C47_water : forall h k ll, (LMAX < List.length k)%nat ->
  (exists Y, gen_stokes data lon lat LMIN LMAX MMAX (GCode 1) None (Some (h, k, ll)) = Ok Y /\
    coefficients Y LMIN LMAX (upto_order MMAX LMAX) (fun l m => cmwe_factor k LMAX l * quad cos lon lat l m D) (fun l m => cmwe_factor k LMAX l * quad sin lon lat l m D)) /\
  (exists Y, gen_stokes data lon lat LMIN LMAX MMAX (GCode 3) None (Some (h, k, ll)) = Ok Y /\
    coefficients Y LMIN LMAX (upto_order MMAX LMAX) (fun l m => cmwe_factor k LMAX l / 10 * quad cos lon lat l m D) (fun l m => cmwe_factor k LMAX l / 10 * quad sin lon lat l m D)).
Proof.
  intros h k ll Hk. destruct (spatial_ok LMAX h k ll Hk) as (d & d' & E1 & E2 & L1 & L2 & V). split.
  - destruct (stokes_area (GCode 1) (Some (h, k, ll)) d) as (Y & EY & C); [lia|cbn [stokes_units]; now rewrite E1|].
    exists Y. split; [exact EY|]. unfold coefficients in *. destruct C as (A1 & A2 & A3 & A4 & A5 & A6 & A7 & A8 & C). repeat (split; [assumption|]).
    intros l m t Hl Hm. destruct (C l m t Hl Hm) as [C1 C2]. split; [|exact C2]. intros Q. destruct (V l Hl) as [<- _]. now apply C1.
  - destruct (stokes_area (GCode 3) (Some (h, k, ll)) d') as (Y & EY & C); [lia|cbn [stokes_units]; now rewrite E2|].
    exists Y. split; [exact EY|]. unfold coefficients in *. destruct C as (A1 & A2 & A3 & A4 & A5 & A6 & A7 & A8 & C). repeat (split; [assumption|]).
    intros l m t Hl Hm. destruct (C l m t Hl Hm) as [C1 C2]. split; [|exact C2]. intros Q. destruct (V l Hl) as [_ <-]. now apply C1.
Qed.

(** unit code 2 (gigatonnes per cell): no cell area; 10^15 grams spread over the sphere *)
Theorem C47_gigatonnes : forall h k ll, (LMAX < List.length k)%nat -> Forall (fun y => -90 < y < 90) lat ->
  let a := rad_e (earth LMAX) in
  exists Y, gen_stokes data lon lat LMIN LMAX MMAX (GCode 2) None (Some (h, k, ll)) = Ok Y /\
    coefficients Y LMIN LMAX (upto_order MMAX LMAX) (fun l m => cmwe_factor k LMAX l * (10 ^ 15 / a ^ 2) * msum cos lon lat l m D)
                                                    (fun l m => cmwe_factor k LMAX l * (10 ^ 15 / a ^ 2) * msum sin lon lat l m D).
Proof.
  intros h k ll Hk HP a. destruct (spatial_ok LMAX h k ll Hk) as (d & d' & E1 & _ & L1 & _ & V).
  unfold gen_stokes. destruct HG as (G1 & G2 & G3). rewrite !step_ok by assumption. cbn [bind stokes_units]. rewrite E1. cbn [bind fst snd].
  destruct (holmes_gives LMAX lat HL) as (P & EP & P1 & P2 & P3 & P4). rewrite EP. cbn [bind].
  destruct (gen_main data lon lat D LMIN LMAX (upto_order MMAX LMAX) P d (fun _ => 10 ^ 15 / a ^ 2)) as (Y & EY & A1 & A2 & A3 & A4 & A5 & A6 & A7 & A8 & A9 & A10);
    [exact HD|lia|lia|lia|exact P1|lia|]. exists Y. split; [exact EY|]. unfold coefficients. repeat (split; [assumption|]).
  assert (Q : forall trig l m, (l <= LMAX)%nat -> grid_sum (List.length lon) (List.length lat) (fun i j => get P l m j * (10 ^ 15 / a ^ 2) * trig (INR m * deg (nth i lon 0)) * D i j)
      = 10 ^ 15 / a ^ 2 * msum trig lon lat l m D).
  { intros trig l m Hl. unfold msum, grid_sum. rewrite <- sumn_scal. apply sumn_ext. intros j Hj. rewrite <- sumn_scal. apply sumn_ext. intros i Hi.
    rewrite P4 by assumption. rewrite NU_sin_pos by (now apply sin_lat_pos). ring. }
  intros l m t Hl Hm. rewrite A9, A10 by assumption. destruct (V l Hl) as [-> _]. split.
  - intros [B1 B2]. replace ((LMIN <=? l) && (m <=? l))%nat with true by lia. rewrite !Q by assumption. split; ring.
  - intros N. replace ((LMIN <=? l) && (m <=? l))%nat with false by lia. split; reflexivity.
Qed.

(** gen_harmonics: the factor is 1/(4 pi) and there is no minimum degree *)
Theorem C47_harmonics : exists Y, gen_harmonics data lon lat LMAX MMAX None = Ok Y /\
    coefficients Y 0 LMAX (upto_order MMAX LMAX) (fun l m => 1 / (4 * PI) * quad cos lon lat l m D) (fun l m => 1 / (4 * PI) * quad sin lon lat l m D).
Proof.
  unfold gen_harmonics. destruct HG as (G1 & G2 & G3). rewrite !step_ok by assumption. cbn [bind]. fold (cell_step lon) (cell_step lat).
  destruct (holmes_gives LMAX lat HL) as (P & EP & _). rewrite EP. cbn [bind].
  destruct (main_area data lon lat D 0 LMAX (upto_order MMAX LMAX) P (repeat (1 / (4 * PI)) (LMAX + 1)) (fun j => sin (colat (nth j lat 0)) * cell_step lon * cell_step lat)) as (Y & EY & C);
    try assumption; [rewrite repeat_length; lia|reflexivity|].
  exists Y. split; [exact EY|]. unfold coefficients in *. destruct C as (A1 & A2 & A3 & A4 & A5 & A6 & A7 & A8 & C). repeat (split; [assumption|]).
  intros l m t Hl Hm. destruct (C l m t Hl Hm) as [C1 C2]. split; [|exact C2]. intros Q. destruct (C1 Q) as [-> ->].
  assert (Rn : forall n, (l < n)%nat -> nth l (repeat (1 / (4 * PI)) n) 0 = 1 / (4 * PI)).
  { clear. revert l. induction l as [|l IH]; intros [|n] H; cbn; try lia; [reflexivity|apply IH; lia]. }
  rewrite Rn by lia. split; reflexivity.
Qed.
End C47.
Print Assumptions C47_custom.
Print Assumptions C47_harmonics.

(** linear in the data: the spec integral is linear, for every grid *)
Theorem C47_linear : forall lon lat D1 D2 data1 data2 data LMIN LMAX MMAX df LOVE a b Y1 Y2 Y,
  grid_ok lon lat -> (2 <= LMAX)%nat -> (upto_order MMAX LMAX <= LMAX)%nat -> (LMAX < List.length df)%nat ->
  lonlat data1 (List.length lon) (List.length lat) D1 -> lonlat data2 (List.length lon) (List.length lat) D2 ->
  lonlat data (List.length lon) (List.length lat) (fun i j => a * D1 i j + b * D2 i j) ->
  gen_stokes data1 lon lat LMIN LMAX MMAX (GCustom df) None LOVE = Ok Y1 ->
  gen_stokes data2 lon lat LMIN LMAX MMAX (GCustom df) None LOVE = Ok Y2 ->
  gen_stokes data lon lat LMIN LMAX MMAX (GCustom df) None LOVE = Ok Y ->
  forall l m t, (l <= LMAX)%nat -> (m <= upto_order MMAX LMAX)%nat ->
    get (clm Y) l m t = a * get (clm Y1) l m t + b * get (clm Y2) l m t /\ get (slm Y) l m t = a * get (slm Y1) l m t + b * get (slm Y2) l m t.
Proof.
  intros lon lat D1 D2 data1 data2 data LMIN LMAX MMAX df LOVE a b Y1 Y2 Y HG HL HM Hd H1 H2 H E1 E2 E l m t Hl Hm.
  destruct (C47_custom data1 lon lat D1 LMIN LMAX MMAX H1 HG HL HM df LOVE Hd) as (Z1 & F1 & _ & _ & _ & _ & _ & _ & _ & _ & C1).
  destruct (C47_custom data2 lon lat D2 LMIN LMAX MMAX H2 HG HL HM df LOVE Hd) as (Z2 & F2 & _ & _ & _ & _ & _ & _ & _ & _ & C2).
  destruct (C47_custom data lon lat _ LMIN LMAX MMAX H HG HL HM df LOVE Hd) as (Z & F & _ & _ & _ & _ & _ & _ & _ & _ & C).
  assert (Z1 = Y1) by congruence. assert (Z2 = Y2) by congruence. assert (Z = Y) by congruence. subst Z Z1 Z2.
  destruct (C1 l m t Hl Hm) as [P1 N1], (C2 l m t Hl Hm) as [P2 N2], (C l m t Hl Hm) as [P N].
  assert (Q : forall trig, quad trig lon lat l m (fun i j => a * D1 i j + b * D2 i j) = a * quad trig lon lat l m D1 + b * quad trig lon lat l m D2).
  { intros trig. unfold quad, grid_sum. cbv zeta. rewrite <- !sumn_scal, <- sumn_plus. apply sumn_ext. intros j Hj.
    rewrite <- !sumn_scal, <- sumn_plus. apply sumn_ext. intros i Hi. ring. }
  destruct (le_dec LMIN l) as [A|A]; [destruct (le_dec m l) as [B|B]|].
  - destruct (P (conj A B)) as [-> ->], (P1 (conj A B)) as [-> ->], (P2 (conj A B)) as [-> ->]. rewrite !Q. split; ring.
  - assert (X : ~ ((LMIN <= l)%nat /\ (m <= l)%nat)) by lia. destruct (N X) as [-> ->], (N1 X) as [-> ->], (N2 X) as [-> ->]. split; ring.
  - assert (X : ~ ((LMIN <= l)%nat /\ (m <= l)%nat)) by lia. destruct (N X) as [-> ->], (N1 X) as [-> ->], (N2 X) as [-> ->]. split; ring.
Qed.

(** gen_harmonics is gen_stokes with the custom factors 1/(4 pi) *)
Theorem C47_same_integral : forall data lon lat LMAX MMAX PLM LOVE,
  gen_harmonics data lon lat LMAX MMAX PLM = gen_stokes data lon lat 0 LMAX MMAX (GCustom (repeat (1 / (4 * PI)) (LMAX + 1))) PLM LOVE.
Proof. reflexivity. Qed.

(** longitudes east or west: only their value modulo 360 matters *)
Theorem C47_longitude_periodic : forall data lon lat LMIN LMAX MMAX df LOVE D, grid_ok lon lat -> (2 <= LMAX)%nat -> (upto_order MMAX LMAX <= LMAX)%nat ->
  (LMAX < List.length df)%nat -> lonlat data (List.length lon) (List.length lat) D ->
  exists Y Y', gen_stokes data lon lat LMIN LMAX MMAX (GCustom df) None LOVE = Ok Y /\
    gen_stokes data (map (fun x => x + 360) lon) lat LMIN LMAX MMAX (GCustom df) None LOVE = Ok Y' /\
    forall l m t, (l <= LMAX)%nat -> (m <= upto_order MMAX LMAX)%nat -> get (clm Y') l m t = get (clm Y) l m t /\ get (slm Y') l m t = get (slm Y) l m t.
Proof.
  intros data lon lat LMIN LMAX MMAX df LOVE D HG HL HM Hd HD.
  destruct (C47_custom data lon lat D LMIN LMAX MMAX HD HG HL HM df LOVE Hd) as (Y & F & _ & _ & _ & _ & _ & _ & _ & _ & C).
  set (lon' := map (fun x => x + 360) lon).
  assert (Ln : List.length lon' = List.length lon) by apply map_length.
  assert (Nn : forall i, (i < List.length lon)%nat -> nth i lon' 0 = nth i lon 0 + 360).
  { intros i Hi. unfold lon'. rewrite (nth_indep _ 0 ((fun x => x + 360) 0)) by (rewrite map_length; exact Hi). apply (map_nth (fun x => x + 360)). }
  assert (HG' : grid_ok lon' lat) by (destruct HG as (A & B & E); repeat split; try assumption; now rewrite Ln).
  assert (HD' : lonlat data (List.length lon') (List.length lat) D) by (now rewrite Ln).
  destruct (C47_custom data lon' lat D LMIN LMAX MMAX HD' HG' HL HM df LOVE Hd) as (Y' & F' & _ & _ & _ & _ & _ & _ & _ & _ & C').
  exists Y, Y'. split; [exact F|]. split; [exact F'|]. intros l m t Hl Hm.
  assert (Q : forall trig, (forall x k, trig (x + 2 * INR k * PI) = trig x) -> quad trig lon' lat l m D = quad trig lon lat l m D).
  { intros trig HT. unfold quad. rewrite Ln. apply grid_sum_ext. intros i j Hi Hj. cbv zeta. f_equal. f_equal.
    - f_equal. f_equal. f_equal. unfold cell_step. f_equal. destruct HG as (A & _). rewrite !Nn by lia. f_equal. ring.
    - rewrite Nn by assumption. replace (INR m * deg (nth i lon 0 + 360)) with (INR m * deg (nth i lon 0) + 2 * INR m * PI) by (unfold deg; field). apply HT. }
  destruct (C l m t Hl Hm) as [P N], (C' l m t Hl Hm) as [P' N'].
  destruct (le_dec LMIN l) as [A|A]; [destruct (le_dec m l) as [B|B]|].
  - destruct (P (conj A B)) as [-> ->], (P' (conj A B)) as [-> ->]. rewrite (Q cos cos_period), (Q sin sin_period). split; reflexivity.
  - assert (X : ~ ((LMIN <= l)%nat /\ (m <= l)%nat)) by lia. destruct (N X) as [-> ->], (N' X) as [-> ->]. split; reflexivity.
  - assert (X : ~ ((LMIN <= l)%nat /\ (m <= l)%nat)) by lia. destruct (N X) as [-> ->], (N' X) as [-> ->]. split; reflexivity.
Qed.

(** errors *)
Theorem C47_errors : forall data lon lat LMIN LMAX MMAX PLM LOVE dphi dth,
  (forall z, (z <> 1 /\ z <> 2 /\ z <> 3)%Z -> (2 <= List.length lon)%nat -> (2 <= List.length lat)%nat ->
     gen_stokes data lon lat LMIN LMAX MMAX (GCode z) PLM LOVE = Err ValueError) /\
  ((List.length lon <= 1)%nat -> forall U, gen_stokes data lon lat LMIN LMAX MMAX U PLM LOVE = Err IndexError) /\
  (forall z, (z = 1 \/ z = 2 \/ z = 3)%Z -> stokes_units LMAX (GCode z) None dphi dth = Err TypeError).
Proof.
  intros data lon lat LMIN LMAX MMAX PLM LOVE dphi dth. split; [|split].
  - intros z Hz H1 H2. unfold gen_stokes. rewrite !step_ok by assumption. cbn [bind]. unfold stokes_units.
    destruct z as [|p|p]; try reflexivity. destruct p as [[|[]|]|[[]|[]|]|]; try reflexivity; lia.
  - intros H U. unfold gen_stokes, step_of. destruct lon as [|a [|b t]]; try (cbn in H; lia); reflexivity.
  - intros z [->|[->| ->]]; reflexivity.
Qed.

(** REFUTED: a square grid given as [lon, lat] is silently read as [lat, lon] *)
Theorem C47_square_refuted : forall data lon lat LMIN LMAX MMAX df LOVE n, List.length lon = n -> List.length lat = n -> rows data = n -> cols data = n ->
  grid_ok lon lat -> (2 <= LMAX)%nat -> (upto_order MMAX LMAX <= LMAX)%nat -> (LMAX < List.length df)%nat ->
  exists Y, gen_stokes data lon lat LMIN LMAX MMAX (GCustom df) None LOVE = Ok Y /\
    coefficients Y LMIN LMAX (upto_order MMAX LMAX) (fun l m => nth l df 0 * quad cos lon lat l m (fun i j => get data j i 0))
                                                    (fun l m => nth l df 0 * quad sin lon lat l m (fun i j => get data j i 0)).
Proof.
  intros data lon lat LMIN LMAX MMAX df LOVE n H1 H2 H3 H4 HG HL HM Hd. apply C47_custom; try assumption.
  left. rewrite H1, H2. repeat split; try assumption.
Qed.

(** the hypotheses are met by a real grid (poles included) with non-zero data, and the result is not 0 *)
Example C47_example : let lon := [0; 90; 180; 270] in let lat := [90; 0; -90] in
  let data := mkarr 3 4 None (fun _ _ _ => 1) in
  grid_ok lon lat /\ lonlat data 4 3 (fun _ _ => 1) /\ quad cos lon lat 0 0 (fun _ _ => 1) = PI * PI.
Proof.
  cbv zeta. split; [|split].
  - repeat split; cbn; try lia. repeat constructor; lra.
  - left. repeat split.
  - unfold quad, grid_sum. cbn [List.length sumn nth INR]. rewrite !Rmult_0_l, cos_0.
    assert (Z : forall x, Nlm 0 0 x = 1) by (intro; now rewrite Nlm_NU, NU_0_0). rewrite !Z.
    unfold cell_step, colat, deg. cbn [nth]. replace ((90 - 90) * PI / 180) with 0 by field. replace ((90 - 0) * PI / 180) with (PI / 2) by field.
    replace ((90 - -90) * PI / 180) with PI by field. rewrite sin_0, sin_PI2, sin_PI. rewrite (Rabs_right (90 - 0)), (Rabs_left (0 - 90)) by lra. field.
Qed.
