(** Properties C48 (ocean_stokes.py) and C49 (gen_point_load.py). *)
From Coq Require Import Reals Lra Lia String ZifyBool ZifyNat.
From Coquelicot Require Import Coquelicot.
From Verif Require Import Base UnitsModel UnitsProofs GaussModel Arr HarmModel LegendreSpec LegendreSpec2 LegendreModel LegendreProofs LegendreProofs2
  SummationModel SummationProofs PropLegendre LegendreOneModel LegendreOneProofs PropLegendreOne GenModel GenProofs PropGen.
Close Scope Z_scope.
Close Scope string_scope.
Open Scope R_scope.

(** ** C48 specification *)
(** land: the mask value is between 1 and 3 (not missing) *)
Definition land_cell (mask : arr (option R)) (i j : nat) : Prop := exists v, get mask i j 0 = Some v /\ 1 <= v <= 3.
(** the four neighbours of a cell: the grid is periodic in longitude; beyond the
    first (last) row the neighbour is the row on the other side *)
Definition neighbours (n p i j : nat) : list (nat * nat) :=
  [(i, (j + p - 1) mod p); (i, (j + 1) mod p);
   ((if i =? 0 then 1 else i - 1), j); ((if i =? n - 1 then n - 2 else i + 1), j)]%nat.
(** the number of land neighbours of a 0/1 field *)
Definition land_count (a : arr R) (i j : nat) : R :=
  fold_right (fun ij s => get a (fst ij) (snd ij) 0 + s) 0 (neighbours (rows a) (cols a) i j).
Definition isolated (a : arr R) (i j : nat) : Prop := get a i j 0 = 1 /\ land_count a i j <= 1.
Definition zero_one (a : arr R) : Prop := forall i j, get a i j 0 = 0 \/ get a i j 0 = 1.

Lemma roll1_mod p j : (j < p)%nat -> roll1 p j = ((j + p - 1) mod p)%nat.
Proof.
  intros H. unfold roll1. destruct (Nat.eqb_spec j 0) as [->|N].
  - rewrite Nat.mod_small; lia.
  - replace (j + p - 1)%nat with (j - 1 + 1 * p)%nat by lia. rewrite Nat.mod_add by lia. now rewrite Nat.mod_small by lia.
Qed.
Lemma roll_1_mod p j : (j < p)%nat -> roll_1 p j = ((j + 1) mod p)%nat.
Proof.
  intros H. unfold roll_1. destruct (Nat.eqb_spec j (p - 1)) as [->|N].
  - replace (p - 1 + 1)%nat with p by lia. now rewrite Nat.mod_same by lia.
  - now rewrite Nat.mod_small by lia.
Qed.

Theorem C48_isolated : forall a, (2 <= rows a)%nat -> zero_one a -> exists iso, find_isolated_points a = Ok iso /\
  rows iso = rows a /\ cols iso = cols a /\
  forall i j, (i < rows a)%nat -> (j < cols a)%nat ->
    (isolated a i j -> get iso i j 0 = 1) /\ (~ isolated a i j -> get iso i j 0 = 0).
Proof.
  intros a Hn HZ. unfold find_isolated_points. replace (rows a <? 2)%nat with false by lia. eexists. split; [reflexivity|].
  cbn [rows cols get]. split; [reflexivity|]. split; [reflexivity|]. intros i j Hi Hj.
  rewrite roll1_mod, roll_1_mod by assumption.
  assert (E : land_count a i j = get a i ((j + cols a - 1) mod cols a) 0 + (get a i ((j + 1) mod cols a) 0 +
     ((if (i =? 0)%nat then get a 1 j 0 else get a (roll1 (rows a) i) j 0) + ((if (i =? rows a - 1)%nat then get a (rows a - 2) j 0 else get a (roll_1 (rows a) i) j 0) + 0)))).
  { unfold land_count, neighbours. cbn [fold_right fst snd]. unfold roll1, roll_1.
    destruct (i =? 0)%nat, (i =? rows a - 1)%nat; reflexivity. }
  unfold isolated. rewrite E. clear E.
  set (w := get a i ((j + cols a - 1) mod cols a) 0). set (e := get a i ((j + 1) mod cols a) 0).
  set (s := if (i =? 0)%nat then _ else _). set (t := if (i =? rows a - 1)%nat then _ else _).
  assert (Hw : w = 0 \/ w = 1) by apply HZ. assert (He : e = 0 \/ e = 1) by apply HZ.
  assert (Hs : s = 0 \/ s = 1) by (unfold s; destruct (i =? 0)%nat; apply HZ).
  assert (Ht : t = 0 \/ t = 1) by (unfold t; destruct (i =? rows a - 1)%nat; apply HZ).
  destruct (HZ i j) as [-> | ->].
  - split; [intros [X _]; lra|]. intros _. destruct (Rle_dec _ _) as [X|X]; [|reflexivity]. exfalso.
    replace (-4 * 0 + 0 * w + 0 * e + 0 * s + 0 * t) with 0 in X by ring. rewrite Rabs_R0 in X. lra.
  - replace (-4 * 1 + 1 * w + 1 * e + 1 * s + 1 * t) with (- (4 - (w + (e + (s + (t + 0)))))) by ring.
    rewrite Rabs_Ropp, Rabs_right by lra. destruct (Rle_dec _ _) as [X|X]; split; intros Q; try reflexivity; exfalso; [apply Q; split; lra|destruct Q; lra].
Qed.

(** a one-row mask cannot be simplified *)
Theorem C48_one_row : forall a, (rows a < 2)%nat -> find_isolated_points a = Err IndexError.
Proof. intros a H. unfold find_isolated_points. now replace (rows a <? 2)%nat with true by lia. Qed.

Lemma land0_ok mask : zero_one (land0 mask) /\ forall i j, (land_cell mask i j -> get (land0 mask) i j 0 = 1) /\ (~ land_cell mask i j -> get (land0 mask) i j 0 = 0).
Proof.
  split.
  - intros i j. unfold land0. cbn [get]. destruct (is_land _); [right|left]; reflexivity.
  - intros i j. unfold land0, land_cell, is_land. cbn [get]. destruct (get mask i j 0) as [v|].
    + destruct (Rle_dec 1 v), (Rle_dec v 3); cbn [andb b2r]; split; intros H; try reflexivity; exfalso.
      * apply H. eexists. split; [reflexivity|lra].
      * destruct H as (x & E & X). injection E as ->. lra.
      * destruct H as (x & E & X). injection E as ->. lra.
      * destruct H as (x & E & X). injection E as ->. lra.
    + split; [intros (v & E & _); discriminate|reflexivity].
Qed.

(** the land function used: 1 on land cells (with SIMPLIFY: land cells that are not isolated) *)
Definition is_land_function (mask : arr (option R)) (simplify : bool) (L : nat -> nat -> R) : Prop :=
  forall i j, (i < rows mask)%nat -> (j < cols mask)%nat ->
    let keep := land_cell mask i j /\ (simplify = true -> ~ isolated (land0 mask) i j) in
    (keep -> L i j = 1) /\ (~ keep -> L i j = 0).

Lemma land_function_ok mask simplify : (2 <= rows mask)%nat -> exists l, land_function mask simplify = Ok l /\ rows l = rows mask /\ cols l = cols mask /\
  is_land_function mask simplify (fun i j => get l i j 0).
Proof.
  intros Hr. unfold land_function. destruct (land0_ok mask) as [Z V]. destruct simplify.
  - destruct (C48_isolated (land0 mask) Hr Z) as (iso & -> & R1 & R2 & I). cbn [bind]. eexists. split; [reflexivity|]. cbn [rows cols get land0].
    split; [reflexivity|]. split; [reflexivity|]. intros i j Hi Hj. specialize (I i j Hi Hj). destruct (V i j) as [V1 V2], I as [I1 I2].
    cbn [get] in V1, V2 |- *. cbv zeta. split.
    + intros [K1 K2]. cbn [land0 get] in *. rewrite (V1 K1), (I2 (K2 eq_refl)). ring.
    + intros K. cbn [land0 get] in *. assert (DI : isolated (land0 mask) i j \/ ~ isolated (land0 mask) i j).
      { unfold isolated. destruct (Req_dec (get (land0 mask) i j 0) 1); [destruct (Rle_dec (land_count (land0 mask) i j) 1)|]; tauto. }
      destruct DI as [DI|DI].
      * rewrite (I1 DI). destruct DI as [X _]. cbn [land0 get] in X. rewrite X. ring.
      * rewrite (I2 DI). rewrite V2; [ring|]. intros Q. apply K. split; [exact Q|auto].
  - eexists. split; [reflexivity|]. cbn [rows cols land0]. split; [reflexivity|]. split; [reflexivity|]. intros i j Hi Hj. destruct (V i j) as [V1 V2]. cbv zeta. split.
    + intros [K _]. now apply V1.
    + intros K. apply V2. intros Q. apply K. split; [exact Q|discriminate].
Qed.

(** values: the land function is integrated (nlon <> nlat) *)
Theorem C48_values : forall mask lon lat LMAX MMAX h k ll simplify, grid_ok lon lat -> (2 <= LMAX)%nat -> (upto_order MMAX LMAX <= LMAX)%nat ->
  (LMAX < List.length k)%nat -> rows mask = List.length lat -> cols mask = List.length lon -> List.length lon <> List.length lat ->
  exists L Yl Yo, is_land_function mask simplify L /\
    land_stokes (Some (mask, lon, lat)) LMAX MMAX (Some (h, k, ll)) simplify = Ok Yl /\
    ocean_stokes (Some (mask, lon, lat)) LMAX MMAX (Some (h, k, ll)) simplify = Ok Yo /\
    coefficients Yl 0 LMAX (upto_order MMAX LMAX) (fun l m => cmwe_factor k LMAX l * quad cos lon lat l m (fun i j => L j i))
                                                  (fun l m => cmwe_factor k LMAX l * quad sin lon lat l m (fun i j => L j i)) /\
    coefficients Yo 0 LMAX (upto_order MMAX LMAX) (fun l m => cmwe_factor k LMAX l * quad cos lon lat l m (fun i j => 1 - L j i))
                                                  (fun l m => cmwe_factor k LMAX l * quad sin lon lat l m (fun i j => 1 - L j i)).
Proof.
  intros mask lon lat LMAX MMAX h k ll simplify HG HL HM Hk R1 R2 N.
  destruct (land_function_ok mask simplify) as (l & El & Rl & Cl & IL); [destruct HG as (_ & G & _); lia|].
  unfold land_stokes, ocean_stokes, mask_stokes. rewrite El. cbn [bind].
  assert (W : forall f, exists Y, gen_stokes (transposed (amap f l)) lon lat 0 LMAX (Some (upto_order MMAX LMAX)) (GCode 1) None (Some (h, k, ll)) = Ok Y /\
     coefficients Y 0 LMAX (upto_order MMAX LMAX) (fun a m => cmwe_factor k LMAX a * quad cos lon lat a m (fun i j => f (get l j i 0)))
                                                  (fun a m => cmwe_factor k LMAX a * quad sin lon lat a m (fun i j => f (get l j i 0)))).
  { intros f. apply (C47_water (transposed (amap f l)) lon lat (fun i j => f (get l j i 0)) 0 LMAX (Some (upto_order MMAX LMAX))); try assumption.
    right. cbn [transposed amap rows cols get]. repeat split; try lia. }
  destruct (W (fun x => x)) as (Yl & E1 & K1). destruct (W (fun x => 1 - x)) as (Yo & E2 & K2).
  exists (fun i j => get l i j 0), Yl, Yo. split; [exact IL|]. split; [exact E1|]. split; [exact E2|]. split; [exact K1|exact K2].
Qed.
Print Assumptions C48_values.

(** complementary, for every mask (square ones too) *)
Theorem C48_complementary : forall mask lon lat LMAX MMAX h k ll simplify, grid_ok lon lat -> (2 <= LMAX)%nat -> (upto_order MMAX LMAX <= LMAX)%nat ->
  (LMAX < List.length k)%nat -> rows mask = List.length lat -> cols mask = List.length lon ->
  exists Yl Yo, land_stokes (Some (mask, lon, lat)) LMAX MMAX (Some (h, k, ll)) simplify = Ok Yl /\
    ocean_stokes (Some (mask, lon, lat)) LMAX MMAX (Some (h, k, ll)) simplify = Ok Yo /\
    forall l m t, (l <= LMAX)%nat -> (m <= upto_order MMAX LMAX)%nat -> (m <= l)%nat ->
      get (clm Yl) l m t + get (clm Yo) l m t = cmwe_factor k LMAX l * quad cos lon lat l m (fun _ _ => 1) /\
      get (slm Yl) l m t + get (slm Yo) l m t = cmwe_factor k LMAX l * quad sin lon lat l m (fun _ _ => 1).
Proof.
  intros mask lon lat LMAX MMAX h k ll simplify HG HL HM Hk R1 R2.
  destruct (land_function_ok mask simplify) as (l & El & Rl & Cl & _); [destruct HG as (_ & G & _); lia|].
  unfold land_stokes, ocean_stokes, mask_stokes. rewrite El. cbn [bind].
  assert (W : exists D : nat -> nat -> R, forall f, exists Y, gen_stokes (transposed (amap f l)) lon lat 0 LMAX (Some (upto_order MMAX LMAX)) (GCode 1) None (Some (h, k, ll)) = Ok Y /\
     coefficients Y 0 LMAX (upto_order MMAX LMAX) (fun a m => cmwe_factor k LMAX a * quad cos lon lat a m (fun i j => f (D i j)))
                                                  (fun a m => cmwe_factor k LMAX a * quad sin lon lat a m (fun i j => f (D i j)))).
  { destruct (Nat.eq_dec (List.length lon) (List.length lat)) as [E|N].
    - exists (fun i j => get l i j 0). intros f. apply (C47_water (transposed (amap f l)) lon lat (fun i j => f (get l i j 0)) 0 LMAX (Some (upto_order MMAX LMAX))); try assumption.
      left. cbn [transposed amap rows cols get]. repeat split; try lia.
    - exists (fun i j => get l j i 0). intros f. apply (C47_water (transposed (amap f l)) lon lat (fun i j => f (get l j i 0)) 0 LMAX (Some (upto_order MMAX LMAX))); try assumption.
      right. cbn [transposed amap rows cols get]. repeat split; try lia. }
  destruct W as (D & W). destruct (W (fun x => x)) as (Yl & E1 & _ & _ & _ & _ & _ & _ & _ & _ & K1). destruct (W (fun x => 1 - x)) as (Yo & E2 & _ & _ & _ & _ & _ & _ & _ & _ & K2).
  exists Yl, Yo. split; [exact E1|]. split; [exact E2|]. intros a m t Ha Hm Hma.
  destruct (K1 a m t Ha Hm) as [P1 _], (K2 a m t Ha Hm) as [P2 _].
  destruct (P1 (conj (Nat.le_0_l a) Hma)) as [-> ->], (P2 (conj (Nat.le_0_l a) Hma)) as [-> ->].
  assert (Q : forall trig, quad trig lon lat a m D + quad trig lon lat a m (fun i j => 1 - D i j) = quad trig lon lat a m (fun _ _ => 1)).
  { intros trig. unfold quad, grid_sum. rewrite <- sumn_plus. apply sumn_ext. intros j Hj. rewrite <- sumn_plus. apply sumn_ext. intros i Hi. cbv zeta. ring. }
  rewrite <- !Rmult_plus_distr_l. now rewrite !Q.
Qed.

Theorem C48_missing_file : forall LMAX MMAX LOVE s, ocean_stokes None LMAX MMAX LOVE s = Err FileNotFound /\ land_stokes None LMAX MMAX LOVE s = Err FileNotFound.
Proof. split; reflexivity. Qed.

(** a mask with an isolated land cell, a coast and a missing value *)
Example C48_example : let mask := mkarr 3 4 None (fun i j _ => if (i =? 0)%nat && (j =? 0)%nat then Some 1 else if (i =? 2)%nat && (j <=? 2)%nat then Some 3
     else if (j =? 3)%nat then None else Some 0) in
  land_cell mask 0 0 /\ isolated (land0 mask) 0 0 /\ land_cell mask 2 1 /\ ~ isolated (land0 mask) 2 1 /\ ~ land_cell mask 1 3.
Proof.
  cbv zeta. assert (T : forall x, 1 <= x <= 3 -> is_land (Some x) = true).
  { intros x H. unfold is_land. destruct (Rle_dec 1 x), (Rle_dec x 3); cbn; try reflexivity; lra. }
  assert (F : is_land (Some 0) = false) by (unfold is_land; destruct (Rle_dec 1 0); [lra|reflexivity]).
  unfold land_cell, isolated, land_count, neighbours, land0. cbn -[is_land]. rewrite !T, !F by lra. cbn. repeat split; try lra.
  - exists 1. split; [reflexivity|lra].
  - exists 3. split; [reflexivity|lra].
  - intros (v & E & _). discriminate.
Qed.

(** ** C49: point loads *)
(** the coefficient of unit point mass i *)
Definition point_sph (trig : R -> R) (lon lat : list R) (l m i : nat) : R :=
  Nlm l m (cos (colat (nth i lat 0))) * trig (INR m * deg (nth i lon 0)).
(** every point is one where legendre.py evaluates the functions exactly, up to degree LMAX *)
Definition points_exact (LMAX : nat) (lat : list R) : Prop :=
  forall l y, (l <= LMAX)%nat -> In y lat -> exact_point l (cos (colat y)).

Lemma leg_entry_ok tiny l m x : (m <= l)%nat -> exact_point l x -> leg_entry tiny l m x = Nlm l m x.
Proof.
  intros Hm Hx. destruct (C68_normalized tiny l [x]) as [Ll V]. specialize (V m 0%nat x Hm eq_refl Hx). unfold leg_entry. unfold at2 in V.
  destruct (nth_error (legendre tiny l [x] true) m) as [r|] eqn:E; [|discriminate]. rewrite (nth_error_nth _ _ [] E). now apply nth_error_nth.
Qed.

Section C49.
Context (tiny : nat -> R -> nat -> R) (data lon lat : list R) (LMAX : nat) (MMAX : option nat).
Hypothesis Hn : List.length lon = List.length data.
Hypothesis Hl : List.length lat = List.length data.
Hypothesis Hone : List.length data <> 1%nat.
Hypothesis Hexact : points_exact LMAX lat.
Let MM := upto_order MMAX LMAX.

Lemma point_core U LOVE df g : point_units LMAX U LOVE = Ok (df, g) -> (LMAX < List.length df)%nat ->
  exists Y, gen_point_load tiny data lon lat LMAX MMAX U LOVE = Ok Y /\
    coefficients Y 0 LMAX MM
      (fun l m => nth l df 0 * g * sumn (List.length data) (fun i => nth i data 0 * point_sph cos lon lat l m i))
      (fun l m => nth l df 0 * g * sumn (List.length data) (fun i => nth i data 0 * point_sph sin lon lat l m i)).
Proof.
  intros E Hd. unfold gen_point_load. rewrite E. cbn [bind fst snd].
  replace (List.length df =? 0)%nat with false by lia. replace (List.length lon =? 1)%nat with false by lia. rewrite Hn, Hl, Nat.eqb_refl. cbn [negb orb].
  replace (List.length df <? LMAX + 1)%nat with false by lia. eexists. split; [reflexivity|]. unfold coefficients.
  cbn [lmax mmax time month clm slm rows cols depth get]. fold MM. do 7 (split; [reflexivity|]). split; [repeat split; reflexivity|].
  intros l m t L1 L2. split.
  - intros [_ L3]. replace ((l <=? LMAX)%nat && (m <=? Nat.min l MM)%nat) with true by lia.
    rewrite <- !sumn_scal. split; apply sumn_ext; intros i Hi; unfold point_sph;
      (rewrite leg_entry_ok; [ring|exact L3|apply Hexact; [exact L1|apply nth_In; lia]]).
  - intros L3. replace ((l <=? LMAX)%nat && (m <=? Nat.min l MM)%nat) with false by lia. split; reflexivity.
Qed.

Theorem C49_custom : forall df LOVE, (LMAX < List.length df)%nat ->
  exists Y, gen_point_load tiny data lon lat LMAX MMAX (GCustom df) LOVE = Ok Y /\
    coefficients Y 0 LMAX MM
      (fun l m => nth l df 0 * sumn (List.length data) (fun i => nth i data 0 * point_sph cos lon lat l m i))
      (fun l m => nth l df 0 * sumn (List.length data) (fun i => nth i data 0 * point_sph sin lon lat l m i)).
Proof.
  intros df LOVE H. destruct (point_core (GCustom df) LOVE df 1 eq_refl H) as (Y & E & A1 & A2 & A3 & A4 & A5 & A6 & A7 & A8 & C). exists Y. split; [exact E|].
  unfold coefficients. repeat (split; [assumption|]). intros l m t X1 X2. destruct (C l m t X1 X2) as [P N]. split; [|exact N].
  intros Q. destruct (P Q) as [-> ->]. split; ring.
Qed.

(** grams (code 1) and gigatonnes (code 2) *)
Theorem C49_mass : forall h k ll z, (LMAX < List.length k)%nat -> (z = 1 \/ z = 2)%Z ->
  let a := rad_e (earth LMAX) in let grams := if (z =? 1)%Z then 1 else 10 ^ 15 in
  exists Y, gen_point_load tiny data lon lat LMAX MMAX (GCode z) (Some (h, k, ll)) = Ok Y /\
    coefficients Y 0 LMAX MM
      (fun l m => cmwe_factor k LMAX l / a ^ 2 * sumn (List.length data) (fun i => grams * nth i data 0 * point_sph cos lon lat l m i))
      (fun l m => cmwe_factor k LMAX l / a ^ 2 * sumn (List.length data) (fun i => grams * nth i data 0 * point_sph sin lon lat l m i)).
Proof.
  intros h k ll z Hk Hz a grams. destruct (spatial_ok LMAX h k ll Hk) as (d & d' & E1 & _ & L1 & _ & V).
  assert (EU : point_units LMAX (GCode z) (Some (h, k, ll)) = Ok (map (fun x => x / a ^ 2) d, grams)).
  { unfold point_units, grams. rewrite E1. destruct Hz as [->| ->]; reflexivity. }
  destruct (point_core _ _ _ _ EU) as (Y & E & A1 & A2 & A3 & A4 & A5 & A6 & A7 & A8 & C); [rewrite map_length; lia|]. exists Y. split; [exact E|].
  unfold coefficients. repeat (split; [assumption|]). intros l m t X1 X2. destruct (C l m t X1 X2) as [P N]. split; [|exact N].
  intros Q. destruct (P Q) as [-> ->].
  assert (F : nth l (map (fun x => x / a ^ 2) d) 0 = cmwe_factor k LMAX l / a ^ 2).
  { rewrite (nth_indep _ 0 ((fun x => x / a ^ 2) 0)) by (rewrite map_length; lia). rewrite (map_nth (fun x => x / a ^ 2)). now destruct (V l X1) as [-> _]. }
  rewrite F. split; rewrite <- !sumn_scal; apply sumn_ext; intros i Hi; ring.
Qed.

(** degree 0 is the total mass; zonal sine terms vanish *)
Theorem C49_degree0 : forall df LOVE Y, (LMAX < List.length df)%nat -> gen_point_load tiny data lon lat LMAX MMAX (GCustom df) LOVE = Ok Y ->
  get (clm Y) 0 0 0 = nth 0 df 0 * sumn (List.length data) (fun i => nth i data 0) /\ forall l, (l <= LMAX)%nat -> get (slm Y) l 0 0 = 0.
Proof.
  intros df LOVE Y Hd E. destruct (C49_custom df LOVE Hd) as (Y' & E' & _ & _ & _ & _ & _ & _ & _ & _ & C). assert (Y' = Y) by congruence. subst Y'. split.
  - destruct (C 0%nat 0%nat 0%nat (Nat.le_0_l _) (Nat.le_0_l _)) as [P _]. destruct (P (conj (le_n _) (le_n _))) as [-> _]. f_equal. apply sumn_ext. intros i Hi.
    unfold point_sph. rewrite Nlm_NU, NU_0_0. cbn [INR]. rewrite Rmult_0_l, cos_0. ring.
  - intros l X. destruct (C l 0%nat 0%nat X (Nat.le_0_l _)) as [P _]. destruct (P (conj (Nat.le_0_l _) (Nat.le_0_l _))) as [_ ->].
    rewrite (sumn_ext _ _ (fun _ => 0)); [rewrite sumn_zero; ring|]. intros i Hi. unfold point_sph. cbn [INR]. rewrite Rmult_0_l, sin_0. ring.
Qed.
End C49.
Print Assumptions C49_mass.

(** superposition: appending two sets of points adds the coefficients *)
Lemma sumn_app n p f : sumn (n + p) f = sumn n f + sumn p (fun i => f (n + i)%nat).
Proof. induction p as [|p IH]; [rewrite Nat.add_0_r; cbn; ring|]. rewrite Nat.add_succ_r. cbn [sumn]. rewrite IH. ring. Qed.

Theorem C49_superposition : forall tiny d1 lon1 lat1 d2 lon2 lat2 LMAX MMAX U LOVE Y1 Y2 Y,
  List.length lon1 = List.length d1 -> List.length lat1 = List.length d1 -> List.length lon2 = List.length d2 -> List.length lat2 = List.length d2 ->
  gen_point_load tiny d1 lon1 lat1 LMAX MMAX U LOVE = Ok Y1 -> gen_point_load tiny d2 lon2 lat2 LMAX MMAX U LOVE = Ok Y2 ->
  gen_point_load tiny (d1 ++ d2) (lon1 ++ lon2) (lat1 ++ lat2) LMAX MMAX U LOVE = Ok Y ->
  forall l m t, get (clm Y) l m t = get (clm Y1) l m t + get (clm Y2) l m t /\ get (slm Y) l m t = get (slm Y1) l m t + get (slm Y2) l m t.
Proof.
  intros tiny d1 lon1 lat1 d2 lon2 lat2 LMAX MMAX U LOVE Y1 Y2 Y H1 H2 H3 H4 E1 E2 E l m t. unfold gen_point_load in E1, E2, E.
  destruct (point_units LMAX U LOVE) as [[df g]|]; [|discriminate]. cbn [bind fst snd] in *. destruct (List.length df =? 0)%nat; [discriminate|].
  destruct (List.length lon1 =? 1)%nat; [discriminate|]. destruct (List.length lon2 =? 1)%nat; [discriminate|]. destruct (List.length (lon1 ++ lon2) =? 1)%nat; [discriminate|].
  destruct (negb _ || negb _); [discriminate|]. destruct (negb _ || negb _); [discriminate|]. destruct (negb _ || negb _); [discriminate|].
  destruct (List.length df <? LMAX + 1)%nat; [discriminate|].
  injection E1 as <-. injection E2 as <-. injection E as <-. cbn [clm slm get].
  destruct ((l <=? LMAX) && (m <=? Nat.min l (upto_order MMAX LMAX)))%nat; [|split; ring].
  rewrite app_length, !sumn_app. split; f_equal; apply sumn_ext; intros i Hi.
  - rewrite !app_nth1 by lia. reflexivity.
  - rewrite (app_nth2 d1), (app_nth2 lat1), (app_nth2 lon1) by lia. rewrite H1, H2. replace (List.length d1 + i - List.length d1)%nat with i by lia. reflexivity.
  - rewrite !app_nth1 by lia. reflexivity.
  - rewrite (app_nth2 d1), (app_nth2 lat1), (app_nth2 lon1) by lia. rewrite H1, H2. replace (List.length d1 + i - List.length d1)%nat with i by lia. reflexivity.
Qed.

(** REFUTED for one point: the call raises *)
Theorem C49_single_point_refuted : forall tiny v x y LMAX MMAX df LOVE, gen_point_load tiny [v] [x] [y] LMAX MMAX (GCustom df) LOVE = Err IndexError.
Proof. intros. unfold gen_point_load. cbn [point_units bind fst snd List.length Nat.eqb]. destruct (List.length df =? 0)%nat; reflexivity. Qed.

(** two points at 53.13 degrees of colatitude and the pole: exact up to degree 60 *)
Example C49_example : points_exact 60 [90; 0].
Proof.
  intros l y Hl [<-|[<-|[]]]; unfold exact_point.
  - replace (colat 90) with 0 by (unfold colat; field). rewrite cos_0. split; [lra|now left].
  - replace (colat 0) with (PI / 2) by (unfold colat; field). rewrite cos_PI2. split; [lra|]. right; right.
    replace (1 - 0 ^ 2) with 1 by ring. rewrite sqrt_1, pow1. rewrite <- Rinv_1. apply Rinv_lt_contravar; [rewrite Rmult_1_l; apply pow_lt; lra|].
    apply Rlt_pow_R1; [lra|lia].
Qed.
