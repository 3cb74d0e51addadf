(** C90: geostrophic_currents. *)
From Coq Require Import Reals Lra Lia ZifyBool ZifyNat List Bool Arith.
From Coquelicot Require Import Coquelicot.
From Verif Require Import Base UnitsModel LegendreSpec LegendreSpec2 LegendreOrtho SummationModel SummationProofs FourierLegModel LegendreFourier LegendreModel Arr PropSummation GradModel GradProofs PropGrad.
Import ListNotations.
Close Scope Z_scope.
Close Scope string_scope.
Open Scope R_scope.
Ltac Zify.zify_post_hook ::= Z.to_euclidean_division_equations.

(** ** Specification *)
(** the pressure (water height) harmonics of geoid harmonics [c]: (2l+1)/(1+k_l) c *)
Definition height (k : list R) (c : nat -> nat -> R) (l m : nat) : R := (2 * INR l + 1) / (1 + nth l k 0) * c l m.
(** g rho_e / (6 Omega rho_w) *)
Definition scale (DENSITY : R) : R := g_wmo * rho_e (units_init (Some 0%nat) a_default flat_default) / (6 * (7292115 / 10 ^ 11) * DENSITY).

(** ** sin(theta) d/dtheta of the Legendre functions *)
Definition dN (l m : nat) (th : R) : R := Derive (fun t => Nlm l m (cos t)) th.
Lemma alpha_diag l : alpha l l = 0.
Proof. unfold alpha. replace ((INR l - INR l) * (INR l + INR l) / ((2 * INR l - 1) * (2 * INR l + 1))) with 0; [apply sqrt_0|]. unfold Rdiv. ring. Qed.
Lemma fLM_alpha l m : (1 <= l)%nat -> (m <= l)%nat -> fLM (INR l) (INR m) = (2 * INR l + 1) * alpha l m.
Proof.
  intros H1 H. pose proof (le_INR 1 l ltac:(lia)) as L. cbn in L. unfold fLM, alpha. set (x := INR l) in *. set (y := INR m).
  rewrite <- (sqrt_Rsqr (2 * x + 1)) at 2 by lra. rewrite <- sqrt_mult_alt by apply Rle_0_sqr. f_equal. unfold Rsqr. field. lra.
Qed.
Lemma sin_dN l m th : 0 < th < PI -> sin th * dN l m th = INR l * alpha (S l) m * Nlm (S l) m (cos th) - (INR l + 1) * alpha l m * Nlm (l - 1) m (cos th).
Proof.
  intros Ht. pose proof (sin_gt_0 th ltac:(lra) ltac:(lra)) as Hs. destruct (Nat.le_gt_cases m l) as [H|H].
  - destruct (Nat.eq_dec l 0) as [->|N].
    + assert (m = 0)%nat by lia. subst m. unfold dN. rewrite (dNlm 0 0 th ltac:(lia) Ht), slope_0, alpha_diag. change (INR 0) with 0. ring.
    + assert (D : dN l m th = (INR l * cos th * Nlm l m (cos th) - fLM (INR l) (INR m) * Nlm (l - 1) m (cos th)) / sin th) by (apply is_derive_unique, Nlm_slope; [lia|exact H|exact Hs]).
      rewrite D, (fLM_alpha l m) by lia.
      assert (X : cos th * Nlm l m (cos th) = alpha (S l) m * Nlm (S l) m (cos th) + alpha l m * Nlm (l - 1) m (cos th)).
      { rewrite !Nlm_NU. destruct (Nat.eq_dec m l) as [->|N2]; [rewrite NU_x0, alpha_diag; ring|apply NU_x; lia]. }
      transitivity (INR l * (cos th * Nlm l m (cos th)) - (2 * INR l + 1) * alpha l m * Nlm (l - 1) m (cos th)); [field; lra|]. rewrite X. ring.
  - unfold dN. rewrite dNlm_high by exact H. destruct (Nat.eq_dec m (S l)) as [->|N].
    + rewrite alpha_diag, (Nlm_high (l - 1)) by lia. ring.
    + rewrite (Nlm_high (S l)), (Nlm_high (l - 1)) by lia. ring.
Qed.
(** the sum over the degrees, shifted to the degrees of the result *)
Lemma shift_sum b m th n : 0 < th < PI ->
  sumn (n + 3) (fun l => b l * (sin th * dN l m th)) =
  sumn (n + 1) (fun i => let l := S i in (INR i * alpha l m * b i - (INR l + 1 + 1) * alpha (S l) m * b (S l)) * Nlm l m (cos th))
  - 2 * alpha 1 m * b 1%nat * Nlm 0 m (cos th)
  + INR (n + 1) * alpha (n + 2) m * b (n + 1)%nat * Nlm (n + 2) m (cos th) + INR (n + 2) * alpha (n + 3) m * b (n + 2)%nat * Nlm (n + 3) m (cos th).
Proof.
  intros Ht. induction n as [|n IH].
  - cbn [Nat.add sumn]. rewrite !sin_dN by exact Ht. cbn [Nat.sub].
    assert (Z : (INR 0 + 1) * alpha 0 m * Nlm 0 m (cos th) = 0). { destruct (Nat.eq_dec m 0) as [->|N]; [rewrite alpha_diag; ring|rewrite Nlm_high by lia; ring]. }
    replace (b 0%nat * (INR 0 * alpha 1 m * Nlm 1 m (cos th) - (INR 0 + 1) * alpha 0 m * Nlm 0 m (cos th))) with (b 0%nat * (INR 0 * alpha 1 m * Nlm 1 m (cos th) - ((INR 0 + 1) * alpha 0 m * Nlm 0 m (cos th)))) by ring. rewrite Z.
    cbn [INR]. ring.
  - replace (S n + 3)%nat with (S (n + 3)) by lia. rewrite sumn_S, IH. replace (S n + 1)%nat with (S (n + 1)) by lia. rewrite (sumn_S (n + 1)).
    rewrite sin_dN by exact Ht. replace (n + 3 - 1)%nat with (n + 2)%nat by lia. replace (S n + 2)%nat with (n + 3)%nat by lia. replace (S n + 3)%nat with (S (n + 3)) by lia.
    cbv zeta. replace (S (n + 1)) with (n + 2)%nat by lia. replace (S (n + 2)) with (n + 3)%nat by lia. replace (INR (n + 3)) with (INR (n + 2) + 1) by (rewrite <- S_INR; f_equal; lia). ring.
Qed.
(** the code's factors *)
Lemma temp1_ok l m kk : (1 <= l)%nat -> (m <= l)%nat -> (INR l - 1) / (1 + nth (l - 1) kk 0) * sqrt ((INR l ^ 2 - INR m ^ 2) * (2 * INR l - 1) / (2 * INR l + 1))
  = INR (l - 1) * alpha l m * ((2 * INR (l - 1) + 1) / (1 + nth (l - 1) kk 0)).
Proof.
  intros H1 H. rewrite minus_INR by lia. change (INR 1) with 1. pose proof (le_INR 1 l ltac:(lia)) as L. cbn in L. unfold alpha.
  set (x := INR l) in *. set (y := INR m). replace (2 * (x - 1) + 1) with (2 * x - 1) by ring.
  assert (E : sqrt ((x ^ 2 - y ^ 2) * (2 * x - 1) / (2 * x + 1)) = (2 * x - 1) * sqrt ((x - y) * (x + y) / ((2 * x - 1) * (2 * x + 1)))).
  { rewrite <- (sqrt_Rsqr (2 * x - 1)) at 2 by lra. rewrite <- sqrt_mult_alt by apply Rle_0_sqr. f_equal. unfold Rsqr. field. lra. }
  rewrite E. unfold Rdiv. ring.
Qed.
Lemma temp2_ok l m kk : (m <= l)%nat -> (INR l + 2) / (1 + nth (l + 1) kk 0) * sqrt (((INR l + 1) ^ 2 - INR m ^ 2) * (2 * INR l + 3) / (2 * INR l + 1))
  = (INR l + 1 + 1) * alpha (S l) m * ((2 * INR (S l) + 1) / (1 + nth (S l) kk 0)).
Proof.
  intros H. replace (l + 1)%nat with (S l) by lia. rewrite S_INR. pose proof (pos_INR l) as L. unfold alpha. rewrite S_INR.
  set (x := INR l) in *. set (y := INR m).
  assert (E : sqrt (((x + 1) ^ 2 - y ^ 2) * (2 * x + 3) / (2 * x + 1)) = (2 * (x + 1) + 1) * sqrt ((x + 1 - y) * (x + 1 + y) / ((2 * (x + 1) - 1) * (2 * (x + 1) + 1)))).
  { rewrite <- (sqrt_Rsqr (2 * (x + 1) + 1)) at 1 by lra. rewrite <- sqrt_mult_alt by apply Rle_0_sqr. f_equal. unfold Rsqr. field. lra. }
  rewrite E. unfold Rdiv. ring.
Qed.
Lemma ones_nth n l : (l < n)%nat -> nth l (repeat 1 n) 0 = 1.
Proof. revert l. induction n as [|n IH]; intros [|l] H; cbn; try lia; [reflexivity|apply IH; lia]. Qed.
(** component 0 of one order *)
Lemma order_sum LMAX MM coeff kk a m th : (2 <= LMAX)%nat -> (m <= MM)%nat -> 0 < th < PI ->
  sumn (LMAX + 1) (fun l => Nlm l m (cos th) * current0 LMAX MM coeff (repeat 1 (LMAX + 1)) kk a l m) =
  coeff * (sumn (LMAX + 1) (fun l => height kk a l m * (sin th * dN l m th)) + 2 * alpha 1 m * height kk a 1 m * Nlm 0 m (cos th)
    - (INR (LMAX - 1) * alpha LMAX m * height kk a (LMAX - 1) m * Nlm LMAX m (cos th) + INR LMAX * alpha (LMAX + 1) m * height kk a LMAX m * Nlm (LMAX + 1) m (cos th))).
Proof.
  intros H2 Hm Ht. destruct LMAX as [|[|n]]; [lia|lia|]. replace (S (S n) + 1)%nat with (n + 3)%nat by lia. rewrite (shift_sum (fun l => height kk a l m) m th n Ht).
  replace (S (S n) - 1)%nat with (n + 1)%nat by lia. replace (S (S n)) with (n + 2)%nat by lia.
  match goal with |- _ = coeff * ?z => replace z with (sumn (n + 1) (fun i => let l := S i in (INR i * alpha l m * height kk a i m - (INR l + 1 + 1) * alpha (S l) m * height kk a (S l) m) * Nlm l m (cos th))) by ring end.
  replace (n + 3)%nat with (S (n + 2)) by lia. rewrite sumn_S, <- sumn_scal. replace (n + 2)%nat with (S (n + 1)) by lia. rewrite sumn_first.
  unfold current0 at 1. cbn [Nat.leb andb]. rewrite Rmult_0_r, Rplus_0_l.
  unfold current0 at 2. rewrite (Nat.ltb_irrefl (S (n + 1))), andb_false_r. cbn [andb]. rewrite Rmult_0_r, Rplus_0_r.
  apply sumn_ext. intros i Hi. cbv zeta. unfold current0. replace (1 <=? S i)%nat with true by lia. replace (S i <? S (n + 1))%nat with true by lia. cbn [andb].
  destruct (Nat.leb_spec m (Nat.min (S i) MM)) as [H|H]; [|rewrite (Nlm_high (S i)) by lia; ring].
  rewrite temp1_ok, temp2_ok, ones_nth by lia. replace (S i - 1)%nat with i by lia. replace (S i + 1)%nat with (S (S i)) by lia. unfold height. ring.
Qed.

Lemma scale_eq LMAX D : current_scale LMAX D = scale D. Proof. reflexivity. Qed.
(** derivative of the series, order by order *)
Lemma series_theta a b n MM th phi : 0 < th < PI ->
  is_derive (fun t => series a b 0 n MM t phi) th (sumn (MM + 1) (fun m => sumn (n + 1) (fun l => dN l m th * (a l m * cos (INR m * phi) + b l m * sin (INR m * phi))))).
Proof.
  intros Ht. unfold series. set (k := fun l m : nat => a l m * cos (INR m * phi) + b l m * sin (INR m * phi)).
  apply (is_derive_sumn (MM + 1) (fun m x => sumn (n + 1) (fun l => if (0 <=? l)%nat then Nlm l m (cos x) * k l m else 0)) (fun m x => sumn (n + 1) (fun l => dN l m th * k l m))).
  intros m Hm. apply (is_derive_sumn (n + 1) (fun l x => if (0 <=? l)%nat then Nlm l m (cos x) * k l m else 0) (fun l x => dN l m th * k l m)).
  intros l Hl. cbn [Nat.leb]. apply (is_derive_ext (fun x => k l m * Nlm l m (cos x))); [intros; req; ring|]. rewrite Rmult_comm. apply (is_derive_scal (fun x => Nlm l m (cos x))). unfold dN.
  destruct (Nat.le_gt_cases m l) as [H|H]; [rewrite (dNlm l m th H Ht); apply Nlm_derive; [exact H|exact Ht]|].
  rewrite dNlm_high by exact H. apply (is_derive_ext (fun _ => 0)); [intros; symmetry; apply Nlm_high; exact H|apply @is_derive_const].
Qed.
Lemma series_phi a b n MM th phi :
  is_derive (fun p => series a b 0 n MM th p) phi (sumn (MM + 1) (fun m => sumn (n + 1) (fun l => Nlm l m (cos th) * (INR m * (b l m * cos (INR m * phi) - a l m * sin (INR m * phi)))))).
Proof.
  unfold series.
  apply (is_derive_sumn (MM + 1) (fun m p => sumn (n + 1) (fun l => if (0 <=? l)%nat then Nlm l m (cos th) * (a l m * cos (INR m * p) + b l m * sin (INR m * p)) else 0)) (fun m p => sumn (n + 1) (fun l => Nlm l m (cos th) * (INR m * (b l m * cos (INR m * phi) - a l m * sin (INR m * phi)))))).
  intros m Hm. apply (is_derive_sumn (n + 1) (fun l p => if (0 <=? l)%nat then Nlm l m (cos th) * (a l m * cos (INR m * p) + b l m * sin (INR m * p)) else 0) (fun l p => Nlm l m (cos th) * (INR m * (b l m * cos (INR m * phi) - a l m * sin (INR m * phi))))).
  intros l Hl. cbn [Nat.leb]. apply (is_derive_scal (fun p => a l m * cos (INR m * p) + b l m * sin (INR m * p))).
  auto_derive; [exact I|]. ring.
Qed.

Section Currents.
Context (c1 s1 : arr R) (lon lat h k ll : list R) (LMIN LMAX : nat) (MMAX : option nat) (RAD DENSITY : R) (wl : list R).
Context (H2 : (2 <= LMAX)%nat) (HM : (upto_order MMAX LMAX <= LMAX)%nat) (Hlon : List.length lon <> 1%nat) (Hlat : List.length lat <> 1%nat).
Context (Hh : (LMAX < List.length h)%nat) (Hk : (LMAX < List.length k)%nat) (Hl : (LMAX < List.length ll)%nat).
Context (A1 : (LMAX < rows c1)%nat) (A2 : (upto_order MMAX LMAX < cols c1)%nat) (A3 : (LMAX < rows s1)%nat) (A4 : (upto_order MMAX LMAX < cols s1)%nat).
Context (Hy : forall y, In y lat -> -90 < y < 90 /\ y <> 0) (EW : smoothing RAD LMAX = Ok wl).
Notation MM := (upto_order MMAX LMAX).
Lemma currents_ok : exists P g0 g1, geostrophic_currents c1 s1 lon lat LMIN LMAX MMAX RAD DENSITY (Some (h, k, ll)) None = Ok (g0, g1) /\
   rows g0 = List.length lon /\ cols g0 = List.length lat /\ depth g0 = None /\ same_shape g0 g1 /\
   (forall l m j, (l <= LMAX)%nat -> (m <= LMAX)%nat -> (j < List.length lat)%nat -> get P l m j = Nlm l m (cos (colat (nth j lat 0)))) /\
   (forall i j t, get g0 i j t = current_at LMAX MM P j (colat (nth j lat 0)) (deg (nth i lon 0)) (current0 LMAX MM (scale DENSITY) wl k (cf c1)) (current0 LMAX MM (scale DENSITY) wl k (cf s1))) /\
   (forall i j t, get g1 i j t = current_at LMAX MM P j (colat (nth j lat 0)) (deg (nth i lon 0)) (current1 LMAX MM (scale DENSITY) wl k (-1) (cf s1)) (current1 LMAX MM (scale DENSITY) wl k 1 (cf c1))).
Proof.
  destruct (holmes_rows LMAX (map (fun x => cos (colat x)) lat) H2) as (P & D & EP & R1 & R2 & R3 & V). rewrite map_length in R3.
  unfold geostrophic_currents. assert (EF : eff_lmax LMAX c1 = LMAX) by (unfold eff_lmax; replace (LMAX =? 0)%nat with false by lia; reflexivity). rewrite EF.
  replace (List.length lon =? 1)%nat with false by lia. replace (List.length lat =? 1)%nat with false by lia. rewrite EW. cbn [bind].
  assert (EH : exists u, harmonic h k ll true false (units_init (Some LMAX) a_default flat_default) = Ok u).
  { unfold harmonic. cbn [UnitsModel.lmax units_init]. unfold fraction, take_idx. replace (S LMAX <=? List.length k)%nat with true by lia. replace (S LMAX <=? List.length h)%nat with true by lia. replace (S LMAX <=? List.length ll)%nat with true by lia. cbn [bind]. eexists. reflexivity. }
  destruct EH as (u & EH). rewrite EH. cbn [bind]. rewrite EP. cbn [bind fst].
  set (MM := upto_order MMAX LMAX) in *.
  replace ((rows c1 <? LMAX + 1)%nat || (cols c1 <? Nat.min LMAX MM + 1)%nat || (rows s1 <? LMAX + 1)%nat || (cols s1 <? Nat.min LMAX MM + 1)%nat) with false
    by (symmetry; rewrite !orb_false_iff; repeat split; apply Nat.ltb_ge; lia).
  unfold check_plm. rewrite R1, R2, R3, Nat.eqb_refl. replace (LMAX + 1 <? MM + 1)%nat with false by lia. rewrite Nat.ltb_irrefl. cbn [orb bind].
  exists P. eexists. eexists. split; [reflexivity|]. cbn [rows cols depth get]. repeat (split; [reflexivity|]). split; [unfold same_shape; auto|].
  split; [|split; intros; reflexivity]. intros l m j Ll Lm Lj.
  apply V; [exact Ll|exact Lm|rewrite (nth_error_map (fun x => cos (colat x))), (nth_error_nth' lat 0 Lj); reflexivity|]. apply colat_cos_in. apply Hy, nth_In, Lj.
Qed.
End Currents.
Lemma colat_in y : -90 < y < 90 /\ y <> 0 -> 0 < colat y < PI /\ 0 < sin (colat y) /\ cos (colat y) <> 0.
Proof.
  intros [Y N]. pose proof PI_RGT_0. assert (Ht : 0 < colat y < PI) by (unfold colat; nra). split; [exact Ht|]. split; [apply sin_gt_0; lra|].
  destruct (Rtotal_order y 0) as [U|[U|U]]; [|contradiction|].
  - apply Rlt_not_eq, cos_lt_0; unfold colat; nra.
  - apply Rgt_not_eq, cos_gt_0; unfold colat; nra.
Qed.
(** what is missing at the top: the terms of degrees LMAX and LMAX + 1 that come from the coefficients of degrees LMAX - 1 and LMAX *)
Definition truncation (k : list R) (c s : nat -> nat -> R) (LMAX MM : nat) (th phi : R) : R :=
  sumn (MM + 1) (fun m => let at_ := fun l => height k c l m * cos (INR m * phi) + height k s l m * sin (INR m * phi) in
    INR (LMAX - 1) * alpha LMAX m * Nlm LMAX m (cos th) * at_ (LMAX - 1)%nat + INR LMAX * alpha (LMAX + 1) m * Nlm (LMAX + 1) m (cos th) * at_ LMAX).
(** component 0 exactly: the colatitude derivative, plus an error in C10, minus the truncation *)
Theorem C90_zonal_exact : forall c1 s1 lon lat h k ll LMIN LMAX MMAX DENSITY, (2 <= LMAX)%nat -> (upto_order MMAX LMAX <= LMAX)%nat ->
  List.length lon <> 1%nat -> List.length lat <> 1%nat -> (LMAX < List.length h)%nat -> (LMAX < List.length k)%nat -> (LMAX < List.length ll)%nat ->
  (LMAX < rows c1)%nat -> (upto_order MMAX LMAX < cols c1)%nat -> (LMAX < rows s1)%nat -> (upto_order MMAX LMAX < cols s1)%nat ->
  (forall y, In y lat -> -90 < y < 90 /\ y <> 0) ->
  exists g0 g1, geostrophic_currents c1 s1 lon lat LMIN LMAX MMAX 0 DENSITY (Some (h, k, ll)) None = Ok (g0, g1) /\
  rows g0 = List.length lon /\ cols g0 = List.length lat /\ depth g0 = None /\ same_shape g0 g1 /\
  forall i j, (i < List.length lon)%nat -> (j < List.length lat)%nat -> let th := colat (nth j lat 0) in let phi := deg (nth i lon 0) in
    cos th * sin th * get g0 i j 0 = scale DENSITY * (sin th * Derive (fun t => series (height k (cf c1)) (height k (cf s1)) 0 LMAX (upto_order MMAX LMAX) t phi) th
      + 2 / sqrt 3 * height k (cf c1) 1 0 - truncation k (cf c1) (cf s1) LMAX (upto_order MMAX LMAX) th phi).
Proof.
  intros c1 s1 lon lat h k ll LMIN LMAX MMAX DENSITY H2 HM Hlon Hlat Hh Hk Hl A1 A2 A3 A4 Hy.
  assert (EW : smoothing 0 LMAX = Ok (repeat 1 (LMAX + 1))) by (unfold smoothing; destruct (Req_EM_T 0 0); [reflexivity|contradiction]).
  destruct (currents_ok c1 s1 lon lat h k ll LMIN LMAX MMAX 0 DENSITY _ H2 HM Hlon Hlat Hh Hk Hl A1 A2 A3 A4 Hy EW) as (P & g0 & g1 & E & B1 & B2 & B3 & B4 & V & B5 & _).
  exists g0, g1. split; [exact E|]. repeat (split; [assumption|]). intros i j Hi Hj th phi. rewrite B5. fold th phi.
  destruct (colat_in _ (Hy _ (nth_In _ 0 Hj))) as (Ht & Hs & Hc). fold th in Ht, Hs, Hc.
  set (M := upto_order MMAX LMAX) in *. unfold current_at. cbv zeta.
  assert (S1 : forall a m, (m <= M)%nat -> sumn (LMAX + 1) (fun l => get P l m j * current0 LMAX M (scale DENSITY) (repeat 1 (LMAX + 1)) k a l m)
    = sumn (LMAX + 1) (fun l => Nlm l m (cos th) * current0 LMAX M (scale DENSITY) (repeat 1 (LMAX + 1)) k a l m)).
  { intros a m Lm. apply sumn_ext. intros l Ll. rewrite V by lia. reflexivity. }
  assert (Dv : Derive (fun t => series (height k (cf c1)) (height k (cf s1)) 0 LMAX M t phi) th = sumn (M + 1) (fun m => sumn (LMAX + 1) (fun l => dN l m th * (height k (cf c1) l m * cos (INR m * phi) + height k (cf s1) l m * sin (INR m * phi)))))
    by (apply is_derive_unique, series_theta; exact Ht).
  rewrite Dv. clear Dv. rewrite <- sumn_plus.
  assert (Ten : 2 / sqrt 3 * height k (cf c1) 1 0 = sumn (M + 1) (fun m => 2 * alpha 1 m * Nlm 0 m (cos th) * (height k (cf c1) 1 m * cos (INR m * phi) + height k (cf s1) 1 m * sin (INR m * phi)))).
  { rewrite (sumn_cut 1 (M + 1)) by (try lia; intros m Lm; rewrite Nlm_high by lia; ring). cbn [sumn]. change (INR 0) with 0. rewrite Rmult_0_l, cos_0, sin_0.
    assert (N0 : Nlm 0 0 (cos th) = 1) by (rewrite Nlm_zonal; cbn [legP INR]; rewrite Rmult_0_r, Rplus_0_l, sqrt_1; ring). rewrite N0.
    assert (Al : alpha 1 0 = / sqrt 3). { unfold alpha. cbn [INR]. replace ((1 - 0) * (1 + 0) / ((2 * 1 - 1) * (2 * 1 + 1))) with (/ 3) by field. apply sqrt_inv. } rewrite Al. unfold Rdiv. ring. }
  rewrite Ten. unfold truncation. cbv zeta. rewrite <- (sumn_scal (M + 1) (sin th)), <- (sumn_plus (M + 1)). unfold Rminus. replace (- sumn (M + 1) _) with (sumn (M + 1) (fun m => -1 * (INR (LMAX - 1) * alpha LMAX m * Nlm LMAX m (cos th) * (height k (cf c1) (LMAX - 1) m * cos (INR m * phi) + height k (cf s1) (LMAX - 1) m * sin (INR m * phi)) + INR LMAX * alpha (LMAX + 1) m * Nlm (LMAX + 1) m (cos th) * (height k (cf c1) LMAX m * cos (INR m * phi) + height k (cf s1) LMAX m * sin (INR m * phi))))) by (rewrite sumn_scal; ring).
  rewrite <- sumn_plus, <- !sumn_scal. apply sumn_ext. intros m Lm. rewrite !S1, !order_sum by (try exact Ht; lia).
  assert (Sp : sumn (LMAX + 1) (fun l => dN l m th * (height k (cf c1) l m * cos (INR m * phi) + height k (cf s1) l m * sin (INR m * phi))) * sin th
    = cos (INR m * phi) * sumn (LMAX + 1) (fun l => height k (cf c1) l m * (sin th * dN l m th)) + sin (INR m * phi) * sumn (LMAX + 1) (fun l => height k (cf s1) l m * (sin th * dN l m th))).
  { rewrite Rmult_comm, <- !sumn_scal, <- sumn_plus. apply sumn_ext. intros. ring. }
  rewrite (Rmult_comm (sin th) (sumn _ _)), Sp. field. split; [lra|exact Hc].
Qed.
(** Component 0 is the colatitude derivative of the height field times scale/cos(colatitude), when C10 and the coefficients of the two highest degrees vanish *)
Theorem C90_zonal : forall c1 s1 lon lat h k ll LMIN LMAX MMAX DENSITY, (2 <= LMAX)%nat -> (upto_order MMAX LMAX <= LMAX)%nat ->
  List.length lon <> 1%nat -> List.length lat <> 1%nat -> (LMAX < List.length h)%nat -> (LMAX < List.length k)%nat -> (LMAX < List.length ll)%nat ->
  (LMAX < rows c1)%nat -> (upto_order MMAX LMAX < cols c1)%nat -> (LMAX < rows s1)%nat -> (upto_order MMAX LMAX < cols s1)%nat ->
  (forall y, In y lat -> -90 < y < 90 /\ y <> 0) ->
  cf c1 1 0 = 0 -> (forall l m, (LMAX - 1 <= l)%nat -> cf c1 l m = 0 /\ cf s1 l m = 0) ->
  exists g0 g1, geostrophic_currents c1 s1 lon lat LMIN LMAX MMAX 0 DENSITY (Some (h, k, ll)) None = Ok (g0, g1) /\
  forall i j, (i < List.length lon)%nat -> (j < List.length lat)%nat -> let th := colat (nth j lat 0) in let phi := deg (nth i lon 0) in
    is_derive (fun t => series (height k (cf c1)) (height k (cf s1)) 0 LMAX (upto_order MMAX LMAX) t phi) th
      (Derive (fun t => series (height k (cf c1)) (height k (cf s1)) 0 LMAX (upto_order MMAX LMAX) t phi) th) /\
    get g0 i j 0 = scale DENSITY / cos th * Derive (fun t => series (height k (cf c1)) (height k (cf s1)) 0 LMAX (upto_order MMAX LMAX) t phi) th.
Proof.
  intros c1 s1 lon lat h k ll LMIN LMAX MMAX DENSITY H2 HM Hlon Hlat Hh Hk Hl A1 A2 A3 A4 Hy Z0 Z1.
  destruct (C90_zonal_exact c1 s1 lon lat h k ll LMIN LMAX MMAX DENSITY H2 HM Hlon Hlat Hh Hk Hl A1 A2 A3 A4 Hy) as (g0 & g1 & E & _ & _ & _ & _ & V).
  exists g0, g1. split; [exact E|]. intros i j Hi Hj th phi. destruct (colat_in _ (Hy _ (nth_In _ 0 Hj))) as (Ht & Hs & Hc). fold th in Ht, Hs, Hc.
  split; [apply Derive_correct; eexists; apply series_theta; exact Ht|].
  specialize (V i j Hi Hj). cbv zeta in V. fold th phi in V. set (D := Derive _ _) in *.
  assert (T0 : truncation k (cf c1) (cf s1) LMAX (upto_order MMAX LMAX) th phi = 0).
  { unfold truncation. apply sumn_all0. intros m _. cbv zeta. unfold height. destruct (Z1 (LMAX - 1)%nat m ltac:(lia)) as [-> ->]. destruct (Z1 LMAX m ltac:(lia)) as [-> ->]. ring. }
  assert (H0 : height k (cf c1) 1 0 = 0) by (unfold height; rewrite Z0; ring). rewrite T0, H0, Rmult_0_r in V. apply (Rmult_eq_reg_l (cos th * sin th)); [rewrite V; field; exact Hc|]. apply Rmult_integral_contrapositive_currified; lra.
Qed.
(** Component 1 is the longitude derivative, degrees damped by the smoothing weights [wl]; all degrees contribute whatever LMIN *)
Theorem C90_meridional : forall c1 s1 lon lat h k ll LMIN LMAX MMAX RAD DENSITY wl, (2 <= LMAX)%nat -> (upto_order MMAX LMAX <= LMAX)%nat ->
  List.length lon <> 1%nat -> List.length lat <> 1%nat -> (LMAX < List.length h)%nat -> (LMAX < List.length k)%nat -> (LMAX < List.length ll)%nat ->
  (LMAX < rows c1)%nat -> (upto_order MMAX LMAX < cols c1)%nat -> (LMAX < rows s1)%nat -> (upto_order MMAX LMAX < cols s1)%nat ->
  (forall y, In y lat -> -90 < y < 90 /\ y <> 0) -> smoothing RAD LMAX = Ok wl ->
  exists g0 g1, geostrophic_currents c1 s1 lon lat LMIN LMAX MMAX RAD DENSITY (Some (h, k, ll)) None = Ok (g0, g1) /\
  forall i j, (i < List.length lon)%nat -> (j < List.length lat)%nat -> let th := colat (nth j lat 0) in let phi := deg (nth i lon 0) in
  exists D, is_derive (fun p => series (fun l m => nth l wl 0 * height k (cf c1) l m) (fun l m => nth l wl 0 * height k (cf s1) l m) 0 LMAX (upto_order MMAX LMAX) th p) phi D /\
    get g1 i j 0 = - scale DENSITY / (cos th * sin th) * D.
Proof.
  intros c1 s1 lon lat h k ll LMIN LMAX MMAX RAD DENSITY wl H2 HM Hlon Hlat Hh Hk Hl A1 A2 A3 A4 Hy EW.
  destruct (currents_ok c1 s1 lon lat h k ll LMIN LMAX MMAX RAD DENSITY wl H2 HM Hlon Hlat Hh Hk Hl A1 A2 A3 A4 Hy EW) as (P & g0 & g1 & E & B1 & B2 & B3 & B4 & V & _ & B6).
  exists g0, g1. split; [exact E|]. intros i j Hi Hj th phi. eexists. split; [apply series_phi|]. rewrite B6. fold th phi.
  destruct (colat_in _ (Hy _ (nth_In _ 0 Hj))) as (Ht & Hs & Hc). fold th in Ht, Hs, Hc.
  set (M := upto_order MMAX LMAX) in *. unfold current_at. cbv zeta. rewrite <- sumn_plus.
  rewrite <- sumn_scal. apply sumn_ext. intros m Lm. rewrite <- !sumn_scal, <- sumn_plus. apply sumn_ext. intros l Ll.
  rewrite V by lia. fold th. unfold current1, height. replace (l <=? LMAX)%nat with true by lia. cbn [andb].
  destruct (Nat.leb_spec m (Nat.min l M)) as [H|H]; [|rewrite !Nlm_high by lia; ring].
  unfold Rdiv. rewrite Rinv_mult. ring.
Qed.
(** Refuted: the relation holds for C10 *)
Theorem C90_degree_one_refuted : forall c1 s1 lon lat h k ll LMIN LMAX MMAX DENSITY, (2 <= LMAX)%nat -> (upto_order MMAX LMAX <= LMAX)%nat ->
  List.length lon <> 1%nat -> List.length lat <> 1%nat -> (LMAX < List.length h)%nat -> (LMAX < List.length k)%nat -> (LMAX < List.length ll)%nat ->
  (LMAX < rows c1)%nat -> (upto_order MMAX LMAX < cols c1)%nat -> (LMAX < rows s1)%nat -> (upto_order MMAX LMAX < cols s1)%nat ->
  (forall y, In y lat -> -90 < y < 90 /\ y <> 0) -> (forall l m, (LMAX - 1 <= l)%nat -> cf c1 l m = 0 /\ cf s1 l m = 0) ->
  exists g0 g1, geostrophic_currents c1 s1 lon lat LMIN LMAX MMAX 0 DENSITY (Some (h, k, ll)) None = Ok (g0, g1) /\
  forall i j, (i < List.length lon)%nat -> (j < List.length lat)%nat -> let th := colat (nth j lat 0) in let phi := deg (nth i lon 0) in
    get g0 i j 0 - scale DENSITY / cos th * Derive (fun t => series (height k (cf c1)) (height k (cf s1)) 0 LMAX (upto_order MMAX LMAX) t phi) th
    = scale DENSITY / (cos th * sin th) * (2 * sqrt 3 / (1 + nth 1 k 0)) * cf c1 1 0.
Proof.
  intros c1 s1 lon lat h k ll LMIN LMAX MMAX DENSITY H2 HM Hlon Hlat Hh Hk Hl A1 A2 A3 A4 Hy Z1.
  destruct (C90_zonal_exact c1 s1 lon lat h k ll LMIN LMAX MMAX DENSITY H2 HM Hlon Hlat Hh Hk Hl A1 A2 A3 A4 Hy) as (g0 & g1 & E & _ & _ & _ & _ & V).
  exists g0, g1. split; [exact E|]. intros i j Hi Hj th phi. destruct (colat_in _ (Hy _ (nth_In _ 0 Hj))) as (Ht & Hs & Hc). fold th in Ht, Hs, Hc.
  specialize (V i j Hi Hj). cbv zeta in V. fold th phi in V. set (D := Derive _ _) in *.
  assert (T0 : truncation k (cf c1) (cf s1) LMAX (upto_order MMAX LMAX) th phi = 0).
  { unfold truncation. apply sumn_all0. intros m _. cbv zeta. unfold height. destruct (Z1 (LMAX - 1)%nat m ltac:(lia)) as [-> ->]. destruct (Z1 LMAX m ltac:(lia)) as [-> ->]. ring. }
  rewrite T0 in V.
  assert (H1 : 2 / sqrt 3 * height k (cf c1) 1 0 = 2 * sqrt 3 / (1 + nth 1 k 0) * cf c1 1 0).
  { unfold height. cbn [INR]. assert (P3 : 0 < sqrt 3) by (apply sqrt_lt_R0; lra). assert (Q3 : sqrt 3 * sqrt 3 = 3) by (apply sqrt_sqrt; lra).
    replace (2 * 1 + 1) with (sqrt 3 * sqrt 3) by lra. unfold Rdiv. set (q := / (1 + nth 1 k 0)). field. lra. }
  rewrite H1 in V. clear H1. set (w := 2 * sqrt 3 / (1 + nth 1 k 0)) in *. clearbody w.
  apply (Rmult_eq_reg_l (cos th * sin th)); [|apply Rmult_integral_contrapositive_currified; lra].
  rewrite Rmult_minus_distr_l, V. field. split; [lra|exact Hc].
Qed.
(** Refuted: it holds up to degree LMAX.  A field of degree LMAX and order 0 *)
Theorem C90_top_refuted : forall c1 s1 lon lat h k ll LMIN LMAX MMAX DENSITY, (2 <= LMAX)%nat -> (upto_order MMAX LMAX <= LMAX)%nat ->
  List.length lon <> 1%nat -> List.length lat <> 1%nat -> (LMAX < List.length h)%nat -> (LMAX < List.length k)%nat -> (LMAX < List.length ll)%nat ->
  (LMAX < rows c1)%nat -> (upto_order MMAX LMAX < cols c1)%nat -> (LMAX < rows s1)%nat -> (upto_order MMAX LMAX < cols s1)%nat ->
  (forall y, In y lat -> -90 < y < 90 /\ y <> 0) -> (forall l m, cf c1 l m = if (l =? LMAX)%nat && (m =? 0)%nat then 1 else 0) -> (forall l m, cf s1 l m = 0) ->
  exists g0 g1, geostrophic_currents c1 s1 lon lat LMIN LMAX MMAX 0 DENSITY (Some (h, k, ll)) None = Ok (g0, g1) /\
  forall i j, (i < List.length lon)%nat -> (j < List.length lat)%nat -> let th := colat (nth j lat 0) in let phi := deg (nth i lon 0) in
    get g0 i j 0 - scale DENSITY / cos th * Derive (fun t => series (height k (cf c1)) (height k (cf s1)) 0 LMAX (upto_order MMAX LMAX) t phi) th
    = - (scale DENSITY / (cos th * sin th) * (INR LMAX * (INR LMAX + 1) * sqrt (2 * INR LMAX + 1) / (1 + nth LMAX k 0)) * legP (LMAX + 1) (cos th)).
Proof.
  intros c1 s1 lon lat h k ll LMIN LMAX MMAX DENSITY H2 HM Hlon Hlat Hh Hk Hl A1 A2 A3 A4 Hy Zc Zs.
  destruct (C90_zonal_exact c1 s1 lon lat h k ll LMIN LMAX MMAX DENSITY H2 HM Hlon Hlat Hh Hk Hl A1 A2 A3 A4 Hy) as (g0 & g1 & E & _ & _ & _ & _ & V).
  exists g0, g1. split; [exact E|]. intros i j Hi Hj th phi. destruct (colat_in _ (Hy _ (nth_In _ 0 Hj))) as (Ht & Hs & Hc). fold th in Ht, Hs, Hc.
  specialize (V i j Hi Hj). cbv zeta in V. fold th phi in V. set (D := Derive _ _) in *.
  assert (H1 : height k (cf c1) 1 0 = 0). { unfold height. rewrite Zc. replace (1 =? LMAX)%nat with false by lia. cbn [andb]. ring. }
  assert (T0 : truncation k (cf c1) (cf s1) LMAX (upto_order MMAX LMAX) th phi = INR LMAX * (INR LMAX + 1) * sqrt (2 * INR LMAX + 1) / (1 + nth LMAX k 0) * legP (LMAX + 1) (cos th)).
  { unfold truncation. cbv zeta. rewrite (sumn_cut 1).
    2:{ lia. } 2:{ intros m Lm. unfold height. rewrite !Zc, !Zs. replace (m =? 0)%nat with false by lia. rewrite !andb_false_r. ring. }
    cbn [sumn]. unfold height. rewrite !Zc, !Zs, Nat.eqb_refl. replace (LMAX - 1 =? LMAX)%nat with false by lia. cbn [andb Nat.eqb]. change (INR 0) with 0. rewrite Rmult_0_l, cos_0, sin_0, (Nlm_zonal (LMAX + 1)).
    assert (Al : alpha (LMAX + 1) 0 * sqrt (2 * INR (LMAX + 1) + 1) * (2 * INR LMAX + 1) = (INR LMAX + 1) * sqrt (2 * INR LMAX + 1)).
    { unfold alpha. rewrite plus_INR. change (INR 0) with 0. change (INR 1) with 1. set (x := INR LMAX) in *. assert (0 <= x) by apply pos_INR.
      replace ((x + 1 - 0) * (x + 1 + 0) / ((2 * (x + 1) - 1) * (2 * (x + 1) + 1))) with (Rsqr (x + 1) / ((2 * x + 1) * (2 * (x + 1) + 1))) by (unfold Rsqr; field; lra).
      rewrite sqrt_div_alt by nra. rewrite sqrt_Rsqr, sqrt_mult_alt by lra.
      pose proof (sqrt_lt_R0 (2 * x + 1) ltac:(lra)) as P1. pose proof (sqrt_lt_R0 (2 * (x + 1) + 1) ltac:(lra)) as P2. pose proof (sqrt_sqrt (2 * x + 1) ltac:(lra)) as Q1.
      set (u1 := sqrt (2 * x + 1)) in *. set (u2 := sqrt (2 * (x + 1) + 1)) in *. clearbody u1 u2. rewrite <- Q1. field. lra. }
    transitivity (INR LMAX * (alpha (LMAX + 1) 0 * sqrt (2 * INR (LMAX + 1) + 1) * (2 * INR LMAX + 1)) / (1 + nth LMAX k 0) * legP (LMAX + 1) (cos th)); [unfold Rdiv; rewrite Nat.eqb_refl; cbn [andb]; ring|]. rewrite Al. unfold Rdiv. ring. }
  rewrite T0, H1 in V. clear T0 H1. set (w := INR LMAX * (INR LMAX + 1) * sqrt (2 * INR LMAX + 1) / (1 + nth LMAX k 0)) in *. clearbody w.
  apply (Rmult_eq_reg_l (cos th * sin th)); [|apply Rmult_integral_contrapositive_currified; lra].
  rewrite Rmult_minus_distr_l, V, Rmult_0_r. field. split; [lra|exact Hc].
Qed.
Theorem C90_errors : forall c1 s1 lon lat LMIN LMAX MMAX RAD DENSITY LOVE PLM,
  LOVE = None \/ List.length lon = 1%nat \/ List.length lat = 1%nat \/ (exists h k ll, LOVE = Some (h, k, ll) /\ (List.length k <= eff_lmax LMAX c1)%nat) ->
  exists e, geostrophic_currents c1 s1 lon lat LMIN LMAX MMAX RAD DENSITY LOVE PLM = Err e.
Proof.
  intros c1 s1 lon lat LMIN LMAX MMAX RAD DENSITY LOVE PLM H. unfold geostrophic_currents. cbv zeta.
  destruct (Nat.eqb_spec (List.length lon) 1) as [|N1]; [eexists; reflexivity|]. destruct (Nat.eqb_spec (List.length lat) 1) as [|N2]; [eexists; reflexivity|].
  destruct (smoothing RAD _) as [w|e]; [|eexists; reflexivity]. cbn [bind].
  destruct H as [->|[?|[?|(h & k & ll & -> & H)]]]; [eexists; reflexivity|contradiction|contradiction|].
  unfold harmonic. cbn [UnitsModel.lmax units_init]. unfold fraction, take_idx at 1. replace (S (eff_lmax LMAX c1) <=? List.length k)%nat with false by lia. cbn [bind]. eexists. reflexivity.
Qed.
(** a case that meets the hypotheses *)
Example C90_case : let c1 := mkarr 5 5 None (fun l m _ => if (l =? 2)%nat then INR (1 + m) else 0) in let s1 := mkarr 5 5 None (fun l m _ => if (l =? 2)%nat then INR m else 0) in
  let lon := [0; 120; 240] in let lat := [-45; 30] in let z := [0; 1 / 50; -3 / 10; -2 / 10; -13 / 100] in
  (2 <= 4)%nat /\ (upto_order (Some 3%nat) 4 <= 4)%nat /\ List.length lon <> 1%nat /\ List.length lat <> 1%nat /\ (4 < List.length z)%nat /\ (4 < rows c1)%nat /\ (3 < cols c1)%nat /\ (4 < rows s1)%nat /\ (3 < cols s1)%nat /\
  (forall y, In y lat -> -90 < y < 90 /\ y <> 0) /\ cf c1 1 0 = 0 /\ (forall l m, (4 - 1 <= l)%nat -> cf c1 l m = 0 /\ cf s1 l m = 0) /\ cf c1 2 1 = 2 /\
  smoothing 0 4 = Ok [1; 1; 1; 1; 1] /\ exists g, geostrophic_currents c1 s1 lon lat 0 4 (Some 3%nat) 0 1 (Some (z, z, z)) None = Ok g.
Proof.
  cbn zeta. set (c1 := mkarr 5 5 None (fun l m _ => if (l =? 2)%nat then INR (1 + m) else 0)). set (s1 := mkarr 5 5 None (fun l m _ => if (l =? 2)%nat then INR m else 0)).
  assert (Y : forall y, In y [-45; 30] -> -90 < y < 90 /\ y <> 0) by (intros y [<-|[<-|[]]]; split; Lra.lra).
  assert (Z : forall l m, (4 - 1 <= l)%nat -> cf c1 l m = 0 /\ cf s1 l m = 0). { intros l m H. unfold cf, c1, s1. cbn [get]. replace (l =? 2)%nat with false by lia. auto. }
  assert (W : smoothing 0 4 = Ok [1; 1; 1; 1; 1]) by (unfold smoothing; destruct (Req_EM_T 0 0); [reflexivity|contradiction]).
  repeat (split; [first [exact Y|exact Z|exact W|reflexivity|cbn; lia]|]).
  set (z := [0; 1 / 50; -3 / 10; -2 / 10; -13 / 100]).
  destruct (C90_zonal_exact c1 s1 [0; 120; 240] [-45; 30] z z z 0 4 (Some 3%nat) 1 ltac:(lia) ltac:(cbn; lia) ltac:(cbn; lia) ltac:(cbn; lia) ltac:(cbn; lia) ltac:(cbn; lia) ltac:(cbn; lia) ltac:(cbn; lia) ltac:(cbn; lia) ltac:(cbn; lia) ltac:(cbn; lia) Y) as (g0 & g1 & E & _).
  exists (g0, g1). exact E.
Qed.
