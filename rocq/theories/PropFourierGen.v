(** C88: gen_harmonics with METHOD='fourier' recovers the coefficients of a band-limited field exactly. *)
From Coq Require Import Reals Lra Lia ZifyBool ZifyNat List Bool Arith.
From Verif Require Import Base LegendreSpec LegendreSpec2 LegendreOrtho SummationModel SummationProofs FourierLegModel LegendreFourier FourierLegProofs LegendreModel Arr HarmModel GenModel GenProofs PropGen PropLegendre PropSummation FourierGenModel FourierGenProofs.
Import ListNotations.
Close Scope Z_scope.
Close Scope string_scope.
Open Scope R_scope.
Ltac Zify.zify_post_hook ::= Z.to_euclidean_division_equations.

(** ** Specification: global grids *)
(** n longitudes lon0, lon0 + 360/n, ... *)
Definition global_lon (lon0 : R) (n : nat) : list R := map (fun i => lon0 + INR i * (360 / INR n)) (seq 0 n).
(** the n cell centres of 180/n degrees, from north to south or from south to north *)
Definition cell_lat (north_first : bool) (n : nat) : list R :=
  map (fun j => let y := 90 - (INR j + 1 / 2) * (180 / INR n) in if north_first then y else - y) (seq 0 n).
(** N+1 latitudes including both poles *)
Definition pole_lat (north_first : bool) (N : nat) : list R :=
  map (fun j => let y := 90 - INR j * (180 / INR N) in if north_first then y else - y) (seq 0 (N + 1)).

Lemma lon_len lon0 n : List.length (global_lon lon0 n) = n. Proof. unfold global_lon. rewrite map_length, seq_length. reflexivity. Qed.
Lemma lat_len b n : List.length (cell_lat b n) = n. Proof. unfold cell_lat. rewrite map_length, seq_length. reflexivity. Qed.
Lemma nth_seq_map (f : nat -> R) n i : (i < n)%nat -> nth i (map f (seq 0 n)) 0 = f i.
Proof. intros H. rewrite (nth_indep _ 0 (f 0%nat)) by (rewrite map_length, seq_length; exact H). rewrite (map_nth f). rewrite seq_nth by exact H. reflexivity. Qed.
Lemma lon_nth lon0 n i : (i < n)%nat -> nth i (map deg (global_lon lon0 n)) 0 = ring_pt (deg lon0) n i.
Proof.
  intros H. unfold global_lon. rewrite map_map, nth_seq_map by exact H. unfold deg, ring_pt. assert (INR n <> 0) by (apply not_0_INR; lia). field. assumption.
Qed.
Lemma lat_nth b n j : (j < n)%nat -> nth j (map colat (cell_lat b n)) 0 = mid_dir (negb b) n j.
Proof.
  intros H. unfold cell_lat. rewrite map_map, nth_seq_map by exact H. assert (INR n <> 0) by (apply not_0_INR; lia). unfold colat, mid_dir, mid_pt. destruct b; cbn [negb]; [field; assumption|].
  rewrite !minus_INR by lia. change (INR 1) with 1. field. assumption.
Qed.
Lemma mid_bounds b n j : (j < n)%nat -> PI / (2 * INR n) <= mid_dir b n j <= PI - PI / (2 * INR n).
Proof.
  intros H. assert (Hn : 0 < INR n) by (apply lt_0_INR; lia). pose proof PI_RGT_0 as HP.
  assert (G : forall k, (k < n)%nat -> PI / (2 * INR n) <= mid_pt n k <= PI - PI / (2 * INR n)).
  { intros k Hk. unfold mid_pt. pose proof (pos_INR k). assert (INR k <= INR n - 1) by (replace (INR n - 1) with (INR (n - 1)) by (rewrite minus_INR by lia; reflexivity); apply le_INR; lia).
    split; apply (Rmult_le_reg_r (2 * INR n)); try lra; [replace (PI / (2 * INR n) * (2 * INR n)) with PI by (field; lra); replace ((INR k + 1 / 2) * PI / INR n * (2 * INR n)) with ((2 * INR k + 1) * PI) by (field; lra); nra|].
    replace ((PI - PI / (2 * INR n)) * (2 * INR n)) with ((2 * INR n - 1) * PI) by (field; lra). replace ((INR k + 1 / 2) * PI / INR n * (2 * INR n)) with ((2 * INR k + 1) * PI) by (field; lra). nra. }
  unfold mid_dir. destruct b; apply G; lia.
Qed.
Lemma not_close b n : (2 <= n)%nat -> INR n <= 49000 -> isclose (mid_dir b n 0) 0 = false /\ isclose (mid_dir b n (n - 1)) PI = false.
Proof.
  intros H1 H2. destruct (mid_bounds b n 0 ltac:(lia)) as [A _]. destruct (mid_bounds b n (n - 1) ltac:(lia)) as [_ B]. pose proof PI_RGT_0 as HP. pose proof PI_4 as HP4.
  assert (Hn : 0 < INR n) by (apply lt_0_INR; lia).
  rename H2 into H3.
  assert (HPI : 3 < PI) by (pose proof PI2_3_2; lra).
  assert (C : PI / 98000 <= PI / (2 * INR n)). { unfold Rdiv. apply Rmult_le_compat_l; [lra|]. apply Rinv_le_contravar; lra. }
  unfold isclose. split.
  - destruct (Rle_dec (Rabs (mid_dir b n 0 - 0)) (1 / 10 ^ 8 + 1 / 10 ^ 5 * Rabs 0)) as [G|G]; [|reflexivity]. rewrite Rabs_R0, Rminus_0_r, Rabs_right in G by lra. lra.
  - destruct (Rle_dec (Rabs (mid_dir b n (n - 1) - PI)) (1 / 10 ^ 8 + 1 / 10 ^ 5 * Rabs PI)) as [G|G]; [|reflexivity]. rewrite (Rabs_right PI), Rabs_left1 in G by lra. lra.
Qed.
Lemma full_norm lon0 nlon b nlat : (2 <= nlon)%nat -> (2 <= nlat)%nat ->
  let phi := map deg (global_lon lon0 nlon) in let theta := map colat (cell_lat b nlat) in
  INR (List.length phi) * Rabs (nth 1 phi 0 - nth 0 phi 0) / (2 * PI) * INR (List.length theta) * Rabs (nth 1 theta 0 - nth 0 theta 0) / PI = 1.
Proof.
  intros H1 H2 phi theta. assert (L1 : List.length phi = nlon) by (unfold phi; rewrite map_length; apply lon_len). assert (L2 : List.length theta = nlat) by (unfold theta; rewrite map_length; apply lat_len).
  rewrite L1, L2. unfold phi, theta. rewrite !lon_nth, !lat_nth by lia. pose proof PI_RGT_0 as HP. assert (N1 : 0 < INR nlon) by (apply lt_0_INR; lia). assert (N2 : 0 < INR nlat) by (apply lt_0_INR; lia).
  assert (E1 : Rabs (ring_pt (deg lon0) nlon 1 - ring_pt (deg lon0) nlon 0) = 2 * PI / INR nlon).
  { unfold ring_pt. change (INR 1) with 1. change (INR 0) with 0. replace (deg lon0 + 1 * (2 * PI / INR nlon) - (deg lon0 + 0 * (2 * PI / INR nlon))) with (2 * PI / INR nlon) by ring. apply Rabs_right. apply Rle_ge, Rlt_le, Rdiv_lt_0_compat; lra. }
  assert (E2 : Rabs (mid_dir (negb b) nlat 1 - mid_dir (negb b) nlat 0) = PI / INR nlat).
  { assert (P : 0 <= PI / INR nlat) by (apply Rlt_le, Rdiv_lt_0_compat; lra). unfold mid_dir, mid_pt. destruct b; cbn [negb].
    - change (INR 1) with 1. change (INR 0) with 0. replace ((1 + 1 / 2) * PI / INR nlat - (0 + 1 / 2) * PI / INR nlat) with (PI / INR nlat) by (field; lra). apply Rabs_right. lra.
    - rewrite !minus_INR by lia. change (INR 1) with 1. change (INR 0) with 0. replace ((INR nlat - 1 - 1 + 1 / 2) * PI / INR nlat - (INR nlat - 1 - 0 + 1 / 2) * PI / INR nlat) with (- (PI / INR nlat)) by (field; lra). rewrite Rabs_Ropp. apply Rabs_right. lra. }
  rewrite E1, E2. field. lra.
Qed.
Lemma Nlm_high l m x : (l < m)%nat -> Nlm l m x = 0.
Proof. intros H. rewrite Nlm_LD. rewrite LD_high by exact H. ring. Qed.

(** ** the recovery theorem.  The field is given at the grid points by a series of degree and order up to MMAX. *)
Section Recovery.
Context (c s : nat -> nat -> R) (LMAX : nat) (MMAX : option nat) (lon0 : R) (nlon nlat : nat) (north_first : bool) (data : arr R) (PLM : option tbl).
Let M := upto_order MMAX LMAX.
Let lon := global_lon lon0 nlon.
Let lat := cell_lat north_first nlat.
Context (EL : Nat.even LMAX = true) (EM : Nat.even M = true) (HM : (4 <= M <= LMAX)%nat).
Context (HP : PLM = None \/ exists p, PLM = Some p /\ fourier_legendre LMAX M = Ok p).
Context (Hlon : (2 * M < nlon)%nat) (Hlat : (M < nlat)%nat) (Hmax : INR nlat <= 49000).
Context (HD : lonlat data nlon nlat (fun i j => series c s 0 M M (colat (nth j lat 0)) (deg (nth i lon 0)))).

Lemma recover : exists Y, gen_fourier data lon lat LMAX MMAX PLM = Ok Y /\
  lmax Y = LMAX /\ mmax Y = M /\ time Y = TNone /\ month Y = TNone /\
  rows (clm Y) = (LMAX + 1)%nat /\ cols (clm Y) = (M + 1)%nat /\ depth (clm Y) = None /\ same_shape (clm Y) (slm Y) /\
  (forall l m t, (m <= l <= M)%nat -> get (clm Y) l m t = c l m /\ get (slm Y) l m t = if (m =? 0)%nat then 0 else s l m) /\
  (forall l m t, (l < m)%nat -> get (clm Y) l m t = 0 /\ get (slm Y) l m t = 0).
Proof.
  destruct (oriented_ok _ _ _ _ HD) as (R1 & R2 & R3).
  assert (L1 : List.length lon = nlon) by apply lon_len. assert (L2 : List.length lat = nlat) by apply lat_len.
  destruct (table_ok LMAX M EL ltac:(lia) ltac:(lia) ltac:(lia)) as (p & Ep & Tp & _).
  assert (EP : (match PLM with Some p0 => Ok p0 | None => fourier_legendre LMAX M end) = Ok p) by (destruct HP as [->|(p' & -> & E')]; [exact Ep|congruence]).
  unfold gen_fourier. fold M. rewrite L1, L2, R1, R2. rewrite !Nat.eqb_refl. replace (nlon =? 1)%nat with false by lia. cbn [negb]. replace ((nlat <? 2)%nat || (nlon <? 2)%nat) with false by lia.
  destruct (not_close (negb north_first) nlat ltac:(lia) Hmax) as [C0 C1].
  unfold lat at 1 2 3 4. rewrite !lat_nth by lia. rewrite C0, C1. cbn [andb orb negb bind]. rewrite EP. cbn [bind].
  rewrite <- Nat.negb_even, EM. replace (LMAX <? M)%nat with false by lia. cbn [negb orb].
  eexists. split; [reflexivity|]. cbn [lmax mmax time month clm slm rows cols depth get]. repeat (split; [reflexivity|]). split; [unfold same_shape; auto|].
  set (phi := map deg lon). set (theta := map colat lat). set (d := fun i j => get (oriented data nlat) i j 0).
  assert (Lp : List.length phi = nlon) by (unfold phi; rewrite map_length; exact L1). assert (Lt : List.length theta = nlat) by (unfold theta; rewrite map_length; exact L2).
  assert (BD : Bd M = M) by (unfold Bd; rewrite even_mod in EM; lia).
  set (cut := fun (a : nat -> nat -> R) (l m : nat) => if (m <=? l)%nat then a l m else 0).
  set (X := fun (a : nat -> nat -> R) m j => sumn (M + 1) (fun l => Nlm l m (cos (mid_dir (negb north_first) nlat j)) * a l m)).
  assert (LC : forall m j, (m <= M)%nat -> (j < nlat)%nat -> lon_coef cos phi d m j = X c m j /\ lon_coef sin phi d m j = if (m =? 0)%nat then 0 else X s m j).
  { intros m j Hm Hj. apply (lon_ok (deg lon0) M phi d (X c) (X s) m j); rewrite ?Lp; [exact Hlon|exact Hm|intros i Hi; unfold phi, lon; apply lon_nth; exact Hi|].
    intros i Hi. unfold d. rewrite R3 by assumption. unfold series. apply sumn_ext. intros k _. unfold X.
    replace (colat (nth j lat 0)) with (mid_dir (negb north_first) nlat j). 2:{ rewrite <- (lat_nth north_first nlat j Hj). fold lat. rewrite (nth_indep _ 0 (colat 0)) by (rewrite map_length, L2; exact Hj). apply (map_nth colat). }
    replace (deg (nth i lon 0)) with (ring_pt (deg lon0) nlon i). 2:{ rewrite <- (lon_nth lon0 nlon i Hi). fold lon. rewrite (nth_indep _ 0 (deg 0)) by (rewrite map_length, L1; exact Hi). apply (map_nth deg). }
    set (ph := ring_pt (deg lon0) nlon i). rewrite (Rmult_comm _ (cos (INR k * ph))), (Rmult_comm _ (sin (INR k * ph))). rewrite <- (sumn_scal _ (cos (INR k * ph))), <- (sumn_scal _ (sin (INR k * ph))), <- sumn_plus. apply sumn_ext. intros l _. cbn [Nat.leb]. ring. }
  assert (XA : forall a m j, (m <= M)%nat -> (j < nlat)%nat -> X a m j = sumn (M + 1) (fun i => sumn (M + 1) (fun l => cut a l m * Fc m l i) * tr m (INR i * mid_dir (negb north_first) nlat j))).
  { intros a m j Hm Hj. unfold X. set (th := mid_dir (negb north_first) nlat j). assert (T : 0 <= th <= PI). { destruct (mid_bounds (negb north_first) nlat j Hj) as [B1 B2]. fold th in B1, B2. assert (0 < PI / (2 * INR nlat)) by (apply Rdiv_lt_0_compat; [apply PI_RGT_0|apply Rmult_lt_0_compat; [lra|apply lt_0_INR; lia]]). lra. }
    rewrite (sumn_ext (M + 1) (fun i => _ * tr m (INR i * th)) (fun i => sumn (M + 1) (fun l => cut a l m * (Fc m l i * tr m (INR i * th))))).
    2:{ intros i _. rewrite Rmult_comm, <- sumn_scal. apply sumn_ext. intros. ring. }
    rewrite sumn_swap. apply sumn_ext. intros l Hl. rewrite sumn_scal. unfold cut. destruct (Nat.leb_spec m l) as [Hml|Hml]; [rewrite NT_cut by lia; rewrite NT_Nlm by exact T; ring|rewrite Nlm_high by exact Hml; ring]. }
  assert (FIN : forall (D a : nat -> nat -> R) l m, (m <= l <= M)%nat -> (forall j, (j < nlat)%nat -> D m j = X a m j) ->
    coef_sum LMAX M p (theta_norm phi theta (theta_inner theta D)) l m / (if (m =? 0)%nat then 2 else 4) = a l m).
  { intros D a l m Hl HDm. rewrite (leg_ok LMAX M p _ (fun k => cut a k m) l m EM ltac:(lia) Hl EL).
    - unfold cut. replace (m <=? l)%nat with true by lia. unfold eps_m. destruct (m =? 0)%nat; field.
    - intros j. apply Tp. rewrite BD. exact Hl.
    - intros k Hk. unfold cut. replace (m <=? k)%nat with false by lia. reflexivity.
    - intros k Hk. apply (theta_ok (negb north_first) M theta phi D (fun m' i => sumn (M + 1) (fun l' => cut a l' m' * Fc m' l' i)) m k); rewrite ?Lt; [lia|exact Hk|intros j Hj; unfold theta, lat; apply lat_nth; exact Hj| |].
      + pose proof (full_norm lon0 nlon north_first nlat ltac:(lia) ltac:(lia)) as FN. cbv zeta in FN. fold lon lat in FN. fold phi theta in FN. rewrite Lt in FN. exact FN.
      + intros j Hj. rewrite HDm by exact Hj. apply XA; [lia|exact Hj]. }
  split.
  - intros l m _ Hl. split; [apply FIN; [exact Hl|intros j Hj; apply LC; [lia|exact Hj]]|].
    rewrite (FIN (lon_coef sin phi d) (fun l m => if (m =? 0)%nat then 0 else s l m) l m Hl); [reflexivity|].
    intros j Hj. destruct (LC m j ltac:(lia) Hj) as [_ E]. rewrite E. unfold X. destruct (m =? 0)%nat; [symmetry; apply sumn_all0; intros; ring|reflexivity].
  - intros l m _ Hl. split; rewrite coef_low by (try exact Hl; exact (table_low _ _ _ Ep)); unfold Rdiv; ring.
Qed.
End Recovery.

Theorem C88_recovers : forall (c s : nat -> nat -> R) LMAX lon0 nlon nlat north_first data PLM,
  let lon := global_lon lon0 nlon in let lat := cell_lat north_first nlat in
  Nat.even LMAX = true -> (4 <= LMAX)%nat -> (2 * LMAX < nlon)%nat -> (LMAX < nlat)%nat -> INR nlat <= 49000 ->
  (PLM = None \/ exists p, PLM = Some p /\ fourier_legendre LMAX LMAX = Ok p) ->
  lonlat data nlon nlat (fun i j => series c s 0 LMAX LMAX (colat (nth j lat 0)) (deg (nth i lon 0))) ->
  exists Y, gen_fourier data lon lat LMAX None PLM = Ok Y /\ coefficients Y 0 LMAX LMAX c (fun l m => if (m =? 0)%nat then 0 else s l m).
Proof.
  intros c s LMAX lon0 nlon nlat nf data PLM lon lat EL H4 Hlon Hlat Hmax HP HD.
  destruct (recover c s LMAX None lon0 nlon nlat nf data PLM) as (Y & E & A1 & A2 & A3 & A4 & A5 & A6 & A7 & A8 & A9 & A10); cbn [upto_order] in *; try assumption; [lia|].
  exists Y. split; [exact E|]. unfold coefficients. repeat (split; [assumption|]). intros l m t Hl Hm. split; [intros [_ Hml]; apply A9; lia|intros N; apply A10; lia].
Qed.
(** a smaller even MMAX: the degrees up to MMAX *)
Theorem C88_truncated : forall (c s : nat -> nat -> R) LMAX M lon0 nlon nlat north_first data,
  let lon := global_lon lon0 nlon in let lat := cell_lat north_first nlat in
  Nat.even LMAX = true -> Nat.even M = true -> (4 <= M <= LMAX)%nat -> (2 * M < nlon)%nat -> (M < nlat)%nat -> INR nlat <= 49000 ->
  lonlat data nlon nlat (fun i j => series c s 0 M M (colat (nth j lat 0)) (deg (nth i lon 0))) ->
  exists Y, gen_fourier data lon lat LMAX (Some M) None = Ok Y /\ lmax Y = LMAX /\ mmax Y = M /\
    (forall l m t, (m <= l <= M)%nat -> get (clm Y) l m t = c l m /\ get (slm Y) l m t = if (m =? 0)%nat then 0 else s l m) /\
    (forall l m t, (l < m)%nat -> get (clm Y) l m t = 0 /\ get (slm Y) l m t = 0).
Proof.
  intros c s LMAX M lon0 nlon nlat nf data lon lat EL EM HM Hlon Hlat Hmax HD.
  destruct (recover c s LMAX (Some M) lon0 nlon nlat nf data None) as (Y & E & A1 & A2 & A3 & A4 & A5 & A6 & A7 & A8 & A9 & A10); cbn [upto_order] in *; try assumption; [left; reflexivity|].
  exists Y. auto.
Qed.
(** harmonic_summation followed by gen_harmonics(METHOD='fourier') on a global grid is the identity *)
Definition as_array (out : list (list R)) (n p : nat) : arr R := mkarr n p None (fun i j _ => nth j (nth i out []) 0).
Theorem C88_round_trip : forall c1 s1 LMAX lon0 nlon nlat north_first,
  let lon := global_lon lon0 nlon in let lat := cell_lat north_first nlat in
  Nat.even LMAX = true -> (4 <= LMAX)%nat -> (2 * LMAX < nlon)%nat -> (LMAX < nlat)%nat -> INR nlat <= 49000 -> nlon <> nlat ->
  (LMAX < rows c1)%nat -> (LMAX < cols c1)%nat -> (LMAX < rows s1)%nat -> (LMAX < cols s1)%nat ->
  exists out Y, harmonic_summation c1 s1 lon lat 0 LMAX None None = Ok out /\
    gen_fourier (as_array out nlon nlat) lon lat LMAX None None = Ok Y /\
    coefficients Y 0 LMAX LMAX (cf c1) (fun l m => if (m =? 0)%nat then 0 else cf s1 l m).
Proof.
  intros c1 s1 LMAX lon0 nlon nlat nf lon lat EL H4 Hlon Hlat Hmax Hne A1 A2 A3 A4.
  assert (L1 : List.length lon = nlon) by apply lon_len. assert (L2 : List.length lat = nlat) by apply lat_len.
  destruct (C46_values c1 s1 lon lat 0 LMAX None) as (out & E & Lo & V); cbn [upto_order] in *; try lia.
  destruct (C88_recovers (cf c1) (cf s1) LMAX lon0 nlon nlat nf (as_array out nlon nlat) None) as (Y & EY & CY); try assumption; [left; reflexivity| |].
  - right. cbn [as_array rows cols get]. repeat (split; [first [reflexivity|exact Hne]|]). intros i j Hi Hj. fold lon lat.
    assert (N1 : nth_error lon i = Some (nth i lon 0)) by (apply nth_error_nth'; lia). assert (N2 : nth_error lat j = Some (nth j lat 0)) by (apply nth_error_nth'; lia).
    assert (B : -90 < nth j lat 0 < 90).
    { unfold lat, cell_lat. rewrite nth_seq_map by exact Hj. cbv zeta. assert (Hn : 0 < INR nlat) by (apply lt_0_INR; lia). pose proof (pos_INR j). assert (Hj' : INR j <= INR nlat - 1) by (replace (INR nlat - 1) with (INR (nlat - 1)) by (rewrite minus_INR by lia; reflexivity); apply le_INR; lia).
      set (q := (INR j + 1 / 2) * (180 / INR nlat)). assert (Q : 0 < q < 180). { unfold q. split; [apply Rmult_lt_0_compat; [lra|apply Rdiv_lt_0_compat; lra]|]. apply (Rmult_lt_reg_r (INR nlat)); [lra|]. replace ((INR j + 1 / 2) * (180 / INR nlat) * INR nlat) with ((INR j + 1 / 2) * 180) by (field; lra). nra. }
      destruct nf; lra. }
    specialize (V i j _ _ N1 N2 B). unfold at2 in V. destruct (nth_error out i) as [r|] eqn:Er; [|discriminate]. rewrite (nth_error_nth _ _ _ Er). rewrite (nth_error_nth _ _ _ V). reflexivity.
  - exists out, Y. auto.
Qed.


(** the whole list of errors of the grid: one pole only, odd orders *)
Theorem C88_one_pole : forall data lon lat LMAX MMAX PLM D, lonlat data (List.length lon) (List.length lat) D -> (2 <= List.length lon)%nat -> (2 <= List.length lat)%nat ->
  (nth 0 lat 0 = 90 /\ -89 <= nth (List.length lat - 1) lat 0 \/ nth 0 lat 0 <= 89 /\ nth (List.length lat - 1) lat 0 = -90) ->
  gen_fourier data lon lat LMAX MMAX PLM = Err ValueError.
Proof.
  intros data lon lat LMAX MMAX PLM D HD H1 H2 H. destruct (oriented_ok _ _ _ _ HD) as (R1 & R2 & _). unfold gen_fourier. rewrite R1, Nat.eqb_refl. replace (List.length lon =? 1)%nat with false by lia. cbn [negb].
  replace ((List.length lat <? 2)%nat || (List.length lon <? 2)%nat) with false by lia.
  assert (N : forall k, (k < List.length lat)%nat -> nth k (map colat lat) 0 = colat (nth k lat 0)) by (intros k Hk; rewrite (nth_indep _ 0 (colat 0)) by (rewrite map_length; exact Hk); apply (map_nth colat)).
  rewrite !N by lia. pose proof PI_RGT_0 as HP. assert (H3 : 3 < PI) by (pose proof PI2_3_2; lra).
  assert (X : isclose (colat (nth 0 lat 0)) 0 = negb (isclose (colat (nth (List.length lat - 1) lat 0)) PI)).
  { unfold isclose. rewrite Rabs_R0, (Rabs_right PI) by lra. destruct H as [[E1 E2]|[E1 E2]].
    - rewrite E1. destruct (Rle_dec (Rabs (colat 90 - 0)) (1 / 10 ^ 8 + 1 / 10 ^ 5 * 0)) as [G|G]; [|exfalso; apply G; unfold colat; replace ((90 - 90) * PI / 180 - 0) with 0 by field; rewrite Rabs_R0; lra].
      destruct (Rle_dec (Rabs (colat (nth (List.length lat - 1) lat 0) - PI)) (1 / 10 ^ 8 + 1 / 10 ^ 5 * PI)) as [K|K]; [exfalso|reflexivity]. revert K. unfold colat. set (y := nth _ lat 0) in *. clearbody y. rewrite Rabs_left1 by nra. nra.
    - rewrite E2. destruct (Rle_dec (Rabs (colat (-90) - PI)) (1 / 10 ^ 8 + 1 / 10 ^ 5 * PI)) as [G|G]; [|exfalso; apply G; unfold colat; replace ((90 - -90) * PI / 180 - PI) with 0 by field; rewrite Rabs_R0; lra].
      destruct (Rle_dec (Rabs (colat (nth 0 lat 0) - 0)) (1 / 10 ^ 8 + 1 / 10 ^ 5 * 0)) as [K|K]; [exfalso|reflexivity]. revert K. unfold colat. set (y := nth _ lat 0) in *. clearbody y. rewrite Rabs_right by nra. nra. }
  rewrite X. destruct (isclose (colat (nth (List.length lat - 1) lat 0)) PI); reflexivity.
Qed.
Theorem C88_order_errors : forall data lon0 nlon nlat north_first LMAX M D, lonlat data nlon nlat D ->
  (2 <= nlon)%nat -> (2 <= nlat)%nat -> INR nlat <= 49000 ->
  Nat.odd M = true \/ (LMAX < M)%nat \/ (M < 4)%nat \/ Nat.odd LMAX = true ->
  exists e, gen_fourier data (global_lon lon0 nlon) (cell_lat north_first nlat) LMAX (Some M) None = Err e /\ (e = IndexError \/ e = ValueError).
Proof.
  intros data lon0 nlon nlat nf LMAX M D HD H1 H2 H3 H. destruct (oriented_ok _ _ _ _ HD) as (R1 & R2 & _).
  unfold gen_fourier. rewrite lon_len, lat_len, R1, R2, !Nat.eqb_refl. replace (nlon =? 1)%nat with false by lia. cbn [negb]. replace ((nlat <? 2)%nat || (nlon <? 2)%nat) with false by lia.
  destruct (not_close (negb nf) nlat ltac:(lia) H3) as [C0 C1]. rewrite !lat_nth by lia. rewrite C0, C1. cbn [andb orb negb bind upto_order].
  destruct (fourier_legendre LMAX M) as [p|e] eqn:E; cbn [bind].
  - destruct (Nat.odd M || (LMAX <? M)%nat) eqn:EO; [eexists; split; [reflexivity|auto]|]. exfalso. apply orb_false_iff in EO. destruct EO as [EO EO'].
    destruct H as [H|[H|[H|H]]]; [congruence|lia| |]; unfold fourier_legendre in E.
    + destruct ((LMAX =? 0)%nat || Nat.odd LMAX); [discriminate|]. destruct (LMAX + 2 <=? M)%nat; [discriminate|]. destruct (M <? 2)%nat; [discriminate|]. destruct (LMAX =? 2)%nat; [discriminate|]. replace (M <? 4)%nat with true in E by lia. discriminate.
    + rewrite H, orb_true_r in E. discriminate.
  - exists e. split; [reflexivity|]. unfold fourier_legendre in E. repeat (match type of E with context [if ?b then _ else _] => destruct b end); inversion E; auto.
Qed.

(** ** Refuted: grids that include the poles *)
Lemma even_tail h : sumn (2 * h + 1) (fun k => if (k mod 2 =? 0)%nat then (if (k =? 0)%nat then 0 else 1 / (INR k ^ 2 - 1)) else 0) = (1 - 1 / (2 * INR h + 1)) / 2.
Proof.
  induction h as [|h IH]; [cbn; field|]. replace (2 * S h + 1)%nat with (S (S (2 * h + 1))) by lia. rewrite !sumn_S, IH. replace ((2 * h + 1) mod 2 =? 0)%nat with false by lia. replace (S (2 * h + 1) mod 2 =? 0)%nat with true by lia. replace (S (2 * h + 1) =? 0)%nat with false by lia.
  replace (INR (S (2 * h + 1))) with (2 * INR h + 2) by (replace (S (2 * h + 1)) with (2 * h + 2)%nat by lia; rewrite plus_INR, mult_INR; reflexivity). rewrite S_INR. pose proof (pos_INR h). field. nra.
Qed.
Lemma Fc_00 j : Fc 0 0 j = if (j =? 0)%nat then 1 else 0.
Proof.
  destruct (Nat.eqb_spec j 0) as [->|N]; [|apply Fc_zero; left; lia]. pose proof (Fc_series 0 0 0 ltac:(lia)) as E. cbn [sumn tr Nat.even] in E. unfold tr in E. cbn [Nat.even] in E. change (INR 0) with 0 in E. rewrite Rmult_0_l, cos_0 in E. unfold NT in E. rewrite NU_0_0 in E. lra.
Qed.
Lemma mean_term LMAX p t A B : Nat.even LMAX = true -> (forall j, p 0%nat 0%nat j = Fc 0 0 j) ->
  (forall k, (k <= LMAX)%nat -> Nat.even k = true -> t 0%nat k = if (k =? 0)%nat then A else B) ->
  coef_sum LMAX LMAX p t 0 0 / 2 = A - B * ((1 - 1 / (INR LMAX + 1)) / 2).
Proof.
  intros EL Hp Ht. unfold coef_sum. cbn [Nat.odd Nat.even Nat.leb andb negb]. change (Nat.modulo 0 2) with 0%nat. cbn [negb andb]. rewrite cols_parity by (try lia; exact EL).
  pose proof EL as EL'. rewrite even_mod in EL'. assert (Eh : exists h, LMAX = (2 * h)%nat) by (exists (LMAX / 2)%nat; lia). destruct Eh as [h Eh].
  rewrite (sumn_ext (LMAX + 1) _ (fun k => 2 * A * (if (k =? 0)%nat then 1 else 0) + (- (2 * B)) * (if (k mod 2 =? 0)%nat then (if (k =? 0)%nat then 0 else 1 / (INR k ^ 2 - 1)) else 0))).
  - rewrite sumn_lin2. rewrite sumn_single by lia. rewrite Eh at 1. rewrite even_tail. rewrite Eh, mult_INR. change (INR 2) with 2. pose proof (pos_INR h). field. lra.
  - intros k Hk. destruct (Nat.eqb_spec (k mod 2) 0) as [Ek|Ek]; [|destruct (Nat.eqb_spec k 0); [subst; cbn in Ek; lia|ring]].
    rewrite Ht by (try lia; rewrite even_mod; lia). rewrite cols_parity by (try lia; exact EL).
    rewrite (sumn_ext (LMAX + 1) _ (fun j => if (j =? 0)%nat then kmat 1 0 k else 0)).
    2:{ intros j _. rewrite Hp, Fc_00. destruct (Nat.eqb_spec j 0) as [->|N]; [change (0 mod 2 =? 0)%nat with true; cbn [Nat.eqb]; ring|destruct (j mod 2 =? 0)%nat; ring]. }
    rewrite sumn_single by lia. unfold kmat, dtemp. change (INR 0) with 0. destruct (Nat.eqb_spec k 0) as [->|N]; [change (INR 0) with 0; field|].
    assert (2 <= INR k) by (change 2 with (INR 2); apply le_INR; lia). field. nra.
Qed.
Lemma pole_len b N : List.length (pole_lat b N) = (N + 1)%nat. Proof. unfold pole_lat. rewrite map_length, seq_length. reflexivity. Qed.
Lemma pole_nth b N j : (1 <= N)%nat -> (j <= N)%nat -> nth j (map colat (pole_lat b N)) 0 = (if b then INR j else INR N - INR j) * (PI / INR N).
Proof.
  intros HN H. unfold pole_lat. rewrite map_map, nth_seq_map by lia. assert (INR N <> 0) by (apply not_0_INR; lia). unfold colat. destruct b; field; assumption.
Qed.
(** the sum of an even cosine over the inner points *)
Lemma inner_cos N k : (1 <= N)%nat -> (0 < k < 2 * N)%nat -> Nat.even k = true -> sumn (N - 1) (fun j => cos (INR k * (INR (S j) * (PI / INR N)))) = -1.
Proof.
  intros HN Hk Ek. assert (H0 : INR N <> 0) by (apply not_0_INR; lia). set (h := INR k * PI / INR N). pose proof (cos_telescope (N - 1) h h) as T.
  assert (S0 : sin (h / 2) <> 0). { unfold h. replace (INR k * PI / INR N / 2) with (IZR (Z.of_nat k) * PI / INR (2 * N)) by (rewrite <- INR_IZR_INZ, mult_INR; change (INR 2) with 2; field; exact H0). apply sin_frac_ne. lia. }
  assert (E : sin (h + INR (N - 1) * h - h / 2) = - sin (h / 2)).
  { pose proof Ek as Ek'. rewrite even_mod in Ek'. rewrite <- sin_neg, <- (sin_2kpi (Z.of_nat (k / 2)) (- (h / 2))). f_equal. rewrite minus_INR by lia. change (INR 1) with 1. rewrite <- INR_IZR_INZ.
    assert (K : INR k = 2 * INR (k / 2)) by (change 2 with (INR 2); rewrite <- mult_INR; f_equal; lia). unfold h. rewrite K. field. exact H0. }
  rewrite E in T. replace (h - h / 2) with (h / 2) in T by field. apply (Rmult_eq_reg_l (2 * sin (h / 2))); [|lra].
  rewrite (sumn_ext (N - 1) _ (fun i => cos (h + INR i * h))). { rewrite T. ring. }
  intros j _. f_equal. rewrite S_INR. unfold h. field. exact H0.
Qed.
(** a constant field of value 1 on a global grid from the north pole to the south pole (or back) does not have a mean of 1 *)
Theorem C88_poles_refuted : forall LMAX lon0 nlon N north_first data, let lon := global_lon lon0 nlon in let lat := pole_lat north_first N in
  Nat.even LMAX = true -> (4 <= LMAX)%nat -> (LMAX < 2 * N)%nat -> (2 <= nlon)%nat -> lonlat data nlon (N + 1) (fun _ _ => 1) ->
  exists Y, gen_fourier data lon lat LMAX None None = Ok Y /\
    get (clm Y) 0 0 0 = if north_first then 1 - 1 / (INR N * (INR LMAX + 1)) else 1 + 1 / (INR N * (INR LMAX + 1)).
Proof.
  intros LMAX lon0 nlon N nf data lon lat EL H4 HN Hlon HD. destruct (oriented_ok _ _ _ _ HD) as (R1 & R2 & R3). assert (HN2 : (3 <= N)%nat) by lia.
  assert (L1 : List.length lon = nlon) by apply lon_len. assert (L2 : List.length lat = (N + 1)%nat) by apply pole_len.
  assert (H0 : 3 <= INR N) by (replace 3 with (INR 3) by (cbn; ring); apply le_INR; exact HN2). assert (Hn0 : 0 < INR nlon) by (apply lt_0_INR; lia). pose proof PI_RGT_0 as HP. assert (HP3 : 3 < PI) by (pose proof PI2_3_2; lra).
  destruct (table_ok LMAX LMAX EL H4 H4 ltac:(lia)) as (p & Ep & Tp & _).
  unfold gen_fourier. cbn [upto_order]. rewrite L1, L2, R1, R2. rewrite !Nat.eqb_refl. replace (nlon =? 1)%nat with false by lia. cbn [negb]. replace ((N + 1 <? 2)%nat || (nlon <? 2)%nat) with false by lia.
  set (phi := map deg lon). set (theta := map colat lat). set (d := fun i j => get (oriented data (N + 1)) i j 0). replace (N + 1 - 1)%nat with N by lia.
  assert (NT' : forall j, (j <= N)%nat -> nth j theta 0 = (if nf then INR j else INR N - INR j) * (PI / INR N)) by (intros j Hj; unfold theta, lat; apply pole_nth; lia).
  assert (Lp : List.length phi = nlon) by (unfold phi; rewrite map_length; exact L1). assert (Lt : List.length theta = (N + 1)%nat) by (unfold theta; rewrite map_length; exact L2).
  assert (LC : forall j, (j <= N)%nat -> lon_coef cos phi d 0 j = 1).
  { intros j Hj. unfold lon_coef. cbn [Nat.eqb]. rewrite Lp. rewrite (sumn_ext nlon _ (fun _ => 1)). { rewrite sumn_const. field. lra. } intros i Hi. unfold d. rewrite R3 by lia. change (INR 0) with 0. rewrite Rmult_0_l, cos_0. ring. }
  assert (NORM : forall t k, theta_norm phi theta t 0 k = (if (k =? 0)%nat then t 0%nat k / 2 else t 0%nat k) / INR N).
  { intros t k. unfold theta_norm. rewrite Lp, Lt. rewrite (NT' 1%nat), (NT' 0%nat) by lia. unfold phi, lon. rewrite !lon_nth by lia.
    assert (E1 : Rabs (ring_pt (deg lon0) nlon 1 - ring_pt (deg lon0) nlon 0) = 2 * PI / INR nlon).
    { unfold ring_pt. change (INR 1) with 1. change (INR 0) with 0. replace (deg lon0 + 1 * (2 * PI / INR nlon) - (deg lon0 + 0 * (2 * PI / INR nlon))) with (2 * PI / INR nlon) by ring. apply Rabs_right. apply Rle_ge, Rlt_le, Rdiv_lt_0_compat; lra. }
    assert (P : 0 <= PI / INR N) by (apply Rlt_le, Rdiv_lt_0_compat; lra).
    assert (E2 : Rabs ((if nf then INR 1 else INR N - INR 1) * (PI / INR N) - (if nf then INR 0 else INR N - INR 0) * (PI / INR N)) = PI / INR N).
    { change (INR 1) with 1. change (INR 0) with 0. destruct nf; [replace (1 * (PI / INR N) - 0 * (PI / INR N)) with (PI / INR N) by ring; apply Rabs_right; lra|replace ((INR N - 1) * (PI / INR N) - (INR N - 0) * (PI / INR N)) with (- (PI / INR N)) by ring; rewrite Rabs_Ropp; apply Rabs_right; lra]. }
    rewrite E1, E2, plus_INR. change (INR 1) with 1. destruct (k =? 0)%nat; field; lra. }
  assert (HL : 4 <= INR LMAX) by (replace 4 with (INR 4) by (cbn; ring); apply le_INR; exact H4).
  assert (SUM : forall k, (k <= LMAX)%nat -> Nat.even k = true -> sumn (N - 1) (fun j => cos (INR k * nth (S j) theta 0)) = if (k =? 0)%nat then INR N - 1 else -1).
  { intros k Hk Ek. destruct (Nat.eqb_spec k 0) as [->|Nk]; [rewrite (sumn_ext _ _ (fun _ => 1)) by (intros; change (INR 0) with 0; rewrite Rmult_0_l; apply cos_0); rewrite sumn_const, minus_INR by lia; change (INR 1) with 1; ring|].
    destruct nf.
    - rewrite <- (inner_cos N k) by (try lia; exact Ek). apply sumn_ext. intros j Hj. rewrite NT' by lia. reflexivity.
    - rewrite <- (inner_cos N k) by (try lia; exact Ek). rewrite <- (sumn_rev (N - 1) (fun j => cos (INR k * (INR (S j) * (PI / INR N))))). apply sumn_ext. intros j Hj. rewrite NT' by lia. do 3 f_equal. rewrite <- minus_INR by lia. f_equal. lia. }
  destruct nf.
  - assert (C0 : isclose (nth 0 theta 0) 0 = true). { unfold isclose. rewrite NT' by lia. change (INR 0) with 0. destruct (Rle_dec _ _) as [G|G]; [reflexivity|exfalso; apply G]. rewrite Rmult_0_l, Rminus_0_r, Rabs_R0. lra. }
    assert (C1 : isclose (nth N theta 0) PI = true). { unfold isclose. rewrite NT' by lia. destruct (Rle_dec _ _) as [G|G]; [reflexivity|exfalso; apply G]. replace (INR N * (PI / INR N) - PI) with 0 by (field; lra). rewrite Rabs_R0, Rabs_right by lra. lra. }
    rewrite C0, C1. cbn [andb]. replace (N + 1 + 1 =? N + 1)%nat with false by lia. replace (N + 1 <? N + 1)%nat with false by lia. cbn [bind]. rewrite Ep. cbn [bind]. rewrite <- Nat.negb_even, EL. replace (LMAX <? LMAX)%nat with false by lia. cbn [negb orb].
    eexists. split; [reflexivity|]. cbn [clm get]. cbn [Nat.eqb]. rewrite (mean_term LMAX p _ ((INR N - 1) / INR N) (-2 / INR N) EL); [field; lra|intros j; apply Tp; lia|].
    intros k Hk Ek. rewrite NORM. unfold theta_poles. rewrite Lt. replace (N + 1 - 2)%nat with (N - 1)%nat by lia. replace (N + 1 - 1)%nat with N by lia.
    rewrite (sumn_ext (N - 1) _ (fun j => cos (INR k * nth (S j) theta 0))) by (intros j Hj; rewrite LC by lia; unfold tri; cbn [Nat.even]; ring). rewrite SUM by assumption. rewrite !LC by lia. unfold tri. cbn [Nat.even]. rewrite !NT' by lia.
    change (INR 0) with 0. replace (INR N * (PI / INR N)) with PI by (field; lra). rewrite Rmult_0_l, cos_0, cos_PI. destruct (k =? 0)%nat; field; lra.
  - assert (C0 : isclose (nth 0 theta 0) 0 = false). { unfold isclose. rewrite NT' by lia. change (INR 0) with 0. destruct (Rle_dec _ _) as [G|G]; [exfalso|reflexivity]. revert G. replace ((INR N - 0) * (PI / INR N) - 0) with PI by (field; lra). rewrite Rabs_R0, Rabs_right by lra. lra. }
    assert (C1 : isclose (nth N theta 0) PI = false). { unfold isclose. rewrite NT' by lia. destruct (Rle_dec _ _) as [G|G]; [exfalso|reflexivity]. revert G. replace ((INR N - INR N) * (PI / INR N) - PI) with (- PI) by ring. rewrite Rabs_Ropp, !Rabs_right by lra. lra. }
    rewrite C0, C1. cbn [andb orb negb bind]. rewrite Ep. cbn [bind]. rewrite <- Nat.negb_even, EL. replace (LMAX <? LMAX)%nat with false by lia. cbn [negb orb].
    eexists. split; [reflexivity|]. cbn [clm get]. cbn [Nat.eqb]. rewrite (mean_term LMAX p _ ((INR N + 1) / INR N) (2 / INR N) EL); [field; lra|intros j; apply Tp; lia|].
    intros k Hk Ek. rewrite NORM. unfold theta_inner. rewrite Lt.
    rewrite (sumn_ext (N + 1) _ (fun j => cos (INR k * nth j theta 0))) by (intros j Hj; rewrite LC by lia; unfold tri; cbn [Nat.even]; ring).
    replace (N + 1)%nat with (S (S (N - 1))) by lia. rewrite sumn_first, sumn_S, SUM by assumption. rewrite (NT' (S (N - 1))), (NT' 0%nat) by lia. replace (S (N - 1)) with N by lia. change (INR 0) with 0.
    replace (INR k * ((INR N - INR N) * (PI / INR N))) with 0 by ring. replace (INR k * ((INR N - 0) * (PI / INR N))) with (IZR (Z.of_nat k) * PI) by (rewrite <- INR_IZR_INZ; field; lra). rewrite cos_0, cos_IPI, even_Z_nat, Ek. destruct (k =? 0)%nat; field; lra.
Qed.
(** a concrete grid of 12 x 8 cells with a field of degree 4 *)
Example C88_example : let data := mkarr 12 8 None (fun i j _ => series (fun _ _ => 1) (fun _ _ => 1) 0 4 4 (colat (nth j (cell_lat true 8) 0)) (deg (nth i (global_lon (-180) 12) 0))) in
  exists Y, gen_fourier data (global_lon (-180) 12) (cell_lat true 8) 4 None None = Ok Y /\ get (clm Y) 3 2 0 = 1 /\ get (slm Y) 3 2 0 = 1 /\ get (slm Y) 3 0 0 = 0.
Proof.
  intros data. destruct (C88_recovers (fun _ _ => 1) (fun _ _ => 1) 4 (-180) 12 8 true data None) as (Y & E & C); try reflexivity; try lia; [cbn; lra|left; reflexivity| |].
  - right. repeat (split; [first [reflexivity|lia]|]). intros i j _ _. reflexivity.
  - exists Y. split; [exact E|]. destruct C as (_ & _ & _ & _ & _ & _ & _ & _ & C). destruct (C 3%nat 2%nat 0%nat ltac:(lia) ltac:(lia)) as [A _]. destruct (C 3%nat 0%nat 0%nat ltac:(lia) ltac:(lia)) as [B _]. destruct (A ltac:(lia)) as [A1 A2]. destruct (B ltac:(lia)) as [_ B2]. auto.
Qed.
