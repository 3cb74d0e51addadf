(** C89: legendre_gradient and harmonic_gradients. *)
From Coq Require Import Reals Lra Lia ZifyBool ZifyNat List Bool Arith.
From Coquelicot Require Import Coquelicot.
From Verif Require Import Base LegendreSpec LegendreSpec2 LegendreOrtho SummationModel SummationProofs FourierLegModel LegendreFourier FourierLegProofs FourierGenProofs LegendreModel Arr PropSummation GradModel GradProofs.
Import ListNotations.
Close Scope Z_scope.
Close Scope string_scope.
Open Scope R_scope.
Ltac Zify.zify_post_hook ::= Z.to_euclidean_division_equations.

Lemma gradient_table lmax : Nat.even lmax = true -> (4 <= lmax)%nat -> exists p, table lmax p /\ legendre_gradient lmax lmax = Ok (vlm_of lmax p, wlm_of lmax p).
Proof.
  intros EL H4. destruct (table_ok lmax lmax EL H4 H4 ltac:(lia)) as (p & E & T & _). exists p. split; [|unfold legendre_gradient; rewrite E; reflexivity].
  intros l m j H. apply T. unfold Bd. rewrite even_mod in EL. lia.
Qed.
(** the first table holds the colatitude derivatives of the Legendre functions, divided by -sqrt(l(l+1)) *)
Theorem C89_table : forall lmax, Nat.even lmax = true -> (4 <= lmax)%nat -> exists v w, legendre_gradient lmax lmax = Ok (v, w) /\
  forall l m th, (m <= l <= lmax)%nat -> 0 < th < PI ->
    is_derive (fun t => Nlm l m (cos t)) th (- sqrt (INR l * (INR l + 1)) * sumn (lmax + 1) (fun n => v l m n * (if Nat.even m then sin (INR n * th) else cos (INR n * th)))).
Proof.
  intros lmax EL H4. destruct (gradient_table lmax EL H4) as (p & T & E). exists (vlm_of lmax p), (wlm_of lmax p). split; [exact E|]. intros l m th H Ht.
  replace (- sqrt (INR l * (INR l + 1)) * _) with (slope l m th); [apply Nlm_derive; [lia|exact Ht]|]. symmetry.
  destruct (Nat.eq_dec l 0) as [->|N]; [assert (m = 0)%nat by lia; subst m; rewrite slope_0; change (INR 0) with 0; rewrite Rmult_0_l, sqrt_0; ring|].
  pose proof (v_series lmax p l m th T ltac:(lia) H) as V. unfold trc in V. rewrite V. pose proof (lead_pos l ltac:(lia)). rewrite (Rmult_comm (INR l)). field. lra.
Qed.

Lemma block_ok' (a : arr R) LMIN LMAX M : (LMAX < rows a)%nat -> (M < cols a)%nat -> exists f, load_block a LMIN LMAX M = Ok f /\ forall l m, (l <= LMAX)%nat -> (m <= M)%nat -> f l m = if (LMIN <=? l)%nat then cf a l m else 0.
Proof.
  intros H1 H2. unfold load_block. replace (cols a <? M + 1)%nat with false by lia. replace (Nat.min (rows a) (LMAX + 1) - LMIN =? LMAX + 1 - LMIN)%nat with true by lia. eexists. split; [reflexivity|].
  intros l m Hl Hm. cbv beta. replace (l <=? LMAX)%nat with true by lia. replace (m <=? M)%nat with true by lia. rewrite !andb_true_r. reflexivity.
Qed.
Lemma part_v LMAX p a m th : table LMAX p -> (m <= LMAX)%nat ->
  sumn (LMAX + 1) (fun n => sumn (LMAX + 1) (fun l => vlm_of LMAX p l m n * (- a l m * sqrt ((INR l + 1) * INR l))) * trc m (INR n * th))
  = sumn (LMAX + 1) (fun l => if (m <=? l)%nat then a l m * slope l m th else 0).
Proof.
  intros T Hm. rewrite (sumn_ext (LMAX + 1) _ (fun n => sumn (LMAX + 1) (fun l => (- a l m * sqrt ((INR l + 1) * INR l)) * (vlm_of LMAX p l m n * trc m (INR n * th))))).
  2:{ intros n _. rewrite Rmult_comm, <- sumn_scal. apply sumn_ext. intros. ring. }
  rewrite sumn_swap. apply sumn_ext. intros l Hl. rewrite sumn_scal. destruct (Nat.leb_spec m l) as [H|H].
  - destruct (Nat.eq_dec l 0) as [->|N]; [assert (m = 0)%nat by lia; subst m; rewrite slope_0; change (INR 0) with 0; rewrite Rmult_0_r, sqrt_0; ring|].
    rewrite v_series by (try exact T; lia). pose proof (lead_pos l ltac:(lia)). field. lra.
  - rewrite sumn_all0; [ring|]. intros n _. unfold vlm_of. replace (m <=? l)%nat with false by lia. rewrite andb_false_r. ring.
Qed.
Section Grad.
Context (c1 s1 : arr R) (lon lat : list R) (LMIN LMAX : nat).
Context (EL : Nat.even LMAX = true) (H4 : (4 <= LMAX)%nat) (Hlon : List.length lon <> 1%nat) (Hlat : List.length lat <> 1%nat).
Context (A1 : (LMAX < rows c1)%nat) (A2 : (LMAX < cols c1)%nat) (A3 : (LMAX < rows s1)%nat) (A4 : (LMAX < cols s1)%nat).
Lemma gradients_ok : exists p c s, table LMAX p /\ (forall l m, (l <= LMAX)%nat -> (m <= LMAX)%nat -> c l m = (if (LMIN <=? l)%nat then cf c1 l m else 0) /\ s l m = (if (LMIN <=? l)%nat then cf s1 l m else 0)) /\
  exists g0 g1, harmonic_gradients c1 s1 lon lat LMIN LMAX None = Ok (g0, g1) /\
   rows g0 = List.length lon /\ cols g0 = List.length lat /\ depth g0 = None /\ same_shape g0 g1 /\
   (forall i j t, get g0 i j t = grad_sum LMAX LMAX (wlm_of LMAX p) c s (colat (nth j lat 0)) (deg (nth i lon 0))) /\
   (forall i j t, get g1 i j t = grad_sum LMAX LMAX (vlm_of LMAX p) c s (colat (nth j lat 0)) (deg (nth i lon 0))).
Proof.
  destruct (gradient_table LMAX EL H4) as (p & T & E). destruct (block_ok' c1 LMIN LMAX LMAX A1 A2) as (c & Ec & Vc). destruct (block_ok' s1 LMIN LMAX LMAX A3 A4) as (s & Es & Vs).
  exists p, c, s. split; [exact T|]. split; [auto|].
  unfold harmonic_gradients. assert (EF : eff_lmax LMAX c1 = LMAX) by (unfold eff_lmax; replace (LMAX =? 0)%nat with false by lia; reflexivity). rewrite EF. cbn [upto_order].
  replace (List.length lon =? 1)%nat with false by lia. replace (List.length lat =? 1)%nat with false by lia. rewrite Ec, Es. cbn [bind]. rewrite E. cbn [bind]. rewrite Nat.eqb_refl. cbn [negb fst snd].
  eexists. eexists. split; [reflexivity|]. cbn [rows cols depth get]. repeat (split; [reflexivity|]). split; [unfold same_shape; auto|]. auto.
Qed.
End Grad.
Lemma dNlm_high l m th : (l < m)%nat -> Derive (fun t => Nlm l m (cos t)) th = 0.
Proof. intros H. rewrite (Derive_ext _ (fun _ => 0)) by (intros; apply Nlm_high; exact H). apply Derive_const. Qed.

Lemma dNlm l m th : (m <= l)%nat -> 0 < th < PI -> Derive (fun t => Nlm l m (cos t)) th = slope l m th.
Proof. intros H Ht. apply is_derive_unique, Nlm_derive; assumption. Qed.
(** what the second component is: the colatitude derivative of the series with cosine and sine coefficients exchanged
    (S in front of the cosine, -C in front of the sine) *)
Theorem C89_meridional : forall c1 s1 lon lat LMIN LMAX, Nat.even LMAX = true -> (4 <= LMAX)%nat -> List.length lon <> 1%nat -> List.length lat <> 1%nat ->
  (LMAX < rows c1)%nat -> (LMAX < cols c1)%nat -> (LMAX < rows s1)%nat -> (LMAX < cols s1)%nat -> (forall y, In y lat -> -90 < y < 90) ->
  exists g0 g1, harmonic_gradients c1 s1 lon lat LMIN LMAX None = Ok (g0, g1) /\ rows g1 = List.length lon /\ cols g1 = List.length lat /\ depth g1 = None /\ same_shape g0 g1 /\
  forall i j, (i < List.length lon)%nat -> (j < List.length lat)%nat ->
    is_derive (fun th => series (cf s1) (fun l m => - cf c1 l m) LMIN LMAX LMAX th (deg (nth i lon 0))) (colat (nth j lat 0)) (get g1 i j 0).
Proof.
  intros c1 s1 lon lat LMIN LMAX EL H4 Hlon Hlat A1 A2 A3 A4 Hy.
  destruct (gradients_ok c1 s1 lon lat LMIN LMAX EL H4 Hlon Hlat A1 A2 A3 A4) as (p & c & s & T & CS & g0 & g1 & E & B1 & B2 & B3 & B4 & B5 & B6). exists g0, g1. split; [exact E|].
  destruct B4 as (S1 & S2 & S3). split; [congruence|]. split; [congruence|]. split; [congruence|]. split; [split; [exact S1|split; [exact S2|exact S3]]|]. intros i j Hi Hj. rewrite B6. set (phi := deg (nth i lon 0)). set (y := nth j lat 0).
  assert (Ht : 0 < colat y < PI). { pose proof (Hy y (nth_In _ _ Hj)) as Y. unfold colat. pose proof PI_RGT_0. nra. }
  unfold grad_sum, series.
  set (k := fun l m : nat => cf s1 l m * cos (INR m * phi) + - cf c1 l m * sin (INR m * phi)).
  evar_last. { apply (is_derive_sumn (LMAX + 1) (fun m x => sumn (LMAX + 1) (fun l => if (LMIN <=? l)%nat then Nlm l m (cos x) * k l m else 0))
      (fun m x => sumn (LMAX + 1) (fun l => if (LMIN <=? l)%nat then Derive (fun t => Nlm l m (cos t)) (colat y) * k l m else 0))).
    intros m Hm. apply (is_derive_sumn (LMAX + 1) (fun l x => if (LMIN <=? l)%nat then Nlm l m (cos x) * k l m else 0)
      (fun l x => if (LMIN <=? l)%nat then Derive (fun t => Nlm l m (cos t)) (colat y) * k l m else 0)).
    intros l Hl. destruct (LMIN <=? l)%nat; [|apply @is_derive_const].
    apply (is_derive_ext (fun x => k l m * Nlm l m (cos x))); [intros; req; ring|]. rewrite Rmult_comm. apply (is_derive_scal (fun x => Nlm l m (cos x))).
    destruct (Nat.le_gt_cases m l) as [H|H]; [rewrite (dNlm l m (colat y) H Ht); apply Nlm_derive; [exact H|exact Ht]|].
    rewrite dNlm_high by exact H. apply (is_derive_ext (fun _ => 0)); [intros; symmetry; apply Nlm_high; exact H|apply @is_derive_const]. }
  cbv beta. apply sumn_ext. intros m Hm. cbv zeta. rewrite !part_v by (try exact T; lia). unfold k.
  rewrite <- (sumn_scal _ (cos (INR m * phi))). rewrite Ropp_mult_distr_r_reverse, <- Ropp_mult_distr_l_reverse, <- (sumn_scal _ (- sin (INR m * phi))), <- sumn_plus. apply sumn_ext. intros l Hl.
  destruct (CS l m ltac:(lia) ltac:(lia)) as [Cc Cs]. rewrite Cc, Cs. destruct (Nat.leb_spec m l) as [H|H].
  - rewrite (dNlm l m (colat y) H Ht). destruct (LMIN <=? l)%nat; ring.
  - rewrite dNlm_high by exact H. destruct (LMIN <=? l)%nat; ring.
Qed.
(** Refuted: a zonal field has a meridional gradient.  Both components vanish everywhere, whatever the coefficients *)
Theorem C89_zonal_refuted : forall c1 s1 lon lat LMIN LMAX, Nat.even LMAX = true -> (4 <= LMAX)%nat -> List.length lon <> 1%nat -> List.length lat <> 1%nat ->
  (LMAX < rows c1)%nat -> (LMAX < cols c1)%nat -> (LMAX < rows s1)%nat -> (LMAX < cols s1)%nat ->
  (forall l m, (1 <= m)%nat -> cf c1 l m = 0) -> (forall l m, cf s1 l m = 0) ->
  exists g0 g1, harmonic_gradients c1 s1 lon lat LMIN LMAX None = Ok (g0, g1) /\ forall i j t, get g0 i j t = 0 /\ get g1 i j t = 0.
Proof.
  intros c1 s1 lon lat LMIN LMAX EL H4 Hlon Hlat A1 A2 A3 A4 Zc Zs.
  destruct (gradients_ok c1 s1 lon lat LMIN LMAX EL H4 Hlon Hlat A1 A2 A3 A4) as (p & c & s & T & CS & g0 & g1 & E & B1 & B2 & B3 & B4 & B5 & B6). exists g0, g1. split; [exact E|].
  assert (G : forall f th phi, grad_sum LMAX LMAX f c s th phi = 0).
  { intros f th phi. unfold grad_sum. apply sumn_all0. intros m Hm. cbv zeta.
    rewrite (sumn_all0 (LMAX + 1) (fun n => sumn (LMAX + 1) (fun l => f l m n * (- s l m * _)) * _)).
    2:{ intros n _. rewrite sumn_all0; [ring|]. intros l Hl. destruct (CS l m ltac:(lia) ltac:(lia)) as [_ Cs]. rewrite Cs, Zs. destruct (LMIN <=? l)%nat; ring. }
    destruct (Nat.eq_dec m 0) as [->|N]; [change (INR 0) with 0; rewrite Rmult_0_l, sin_0; ring|].
    rewrite (sumn_all0 (LMAX + 1) (fun n => sumn (LMAX + 1) (fun l => f l m n * (- c l m * _)) * _)); [ring|].
    intros n _. rewrite sumn_all0; [ring|]. intros l Hl. destruct (CS l m ltac:(lia) ltac:(lia)) as [Cc _]. rewrite Cc, Zc by lia. destruct (LMIN <=? l)%nat; ring. }
  intros i j t. rewrite B5, B6, !G. auto.
Qed.
(** although the field of C10 changes with the colatitude *)
Example C89_zonal_field : forall th, is_derive (fun t => Nlm 1 0 (cos t)) th (- (sqrt 3 * sin th)).
Proof.
  intros th. apply (is_derive_ext (fun t => sqrt 3 * cos t)); [intros t; req; rewrite Nlm_NU, NU_1_0; reflexivity|].
  replace (- (sqrt 3 * sin th)) with (sqrt 3 * - sin th) by ring. apply (is_derive_scal cos). apply is_derive_Reals, derivable_pt_lim_cos.
Qed.
(** Refuted: the first component is the longitude derivative divided by -sin(colatitude).  It is for degree and order 1, it is half
    of it for every larger sectoral harmonic cos(l phi) P(l,l) *)
Theorem C89_sectoral_refuted : forall c1 s1 lon lat LMAX l, Nat.even LMAX = true -> (4 <= LMAX)%nat -> List.length lon <> 1%nat -> List.length lat <> 1%nat ->
  (LMAX < rows c1)%nat -> (LMAX < cols c1)%nat -> (LMAX < rows s1)%nat -> (LMAX < cols s1)%nat -> (forall y, In y lat -> -90 < y < 90) ->
  (1 <= l <= LMAX)%nat -> (forall k m, cf c1 k m = if (k =? l)%nat && (m =? l)%nat then 1 else 0) -> (forall k m, cf s1 k m = 0) ->
  exists g0 g1, harmonic_gradients c1 s1 lon lat 0 LMAX None = Ok (g0, g1) /\ forall i j, (i < List.length lon)%nat -> (j < List.length lat)%nat ->
    let th := colat (nth j lat 0) in let phi := deg (nth i lon 0) in
    Derive (fun x => series (cf c1) (cf s1) 0 LMAX LMAX th x) phi = - (INR l * Nlm l l (cos th) * sin (INR l * phi)) /\
    sin th * get g0 i j 0 = (if (l =? 1)%nat then 1 else 1 / 2) * (INR l * Nlm l l (cos th) * sin (INR l * phi)).
Proof.
  intros c1 s1 lon lat LMAX l EL H4 Hlon Hlat A1 A2 A3 A4 Hy Hl Hc Hs.
  destruct (gradients_ok c1 s1 lon lat 0 LMAX EL H4 Hlon Hlat A1 A2 A3 A4) as (p & c & s & T & CS & g0 & g1 & E & B1 & B2 & B3 & B4 & B5 & B6). exists g0, g1. split; [exact E|]. intros i j Hi Hj th phi.
  assert (Ht : 0 < th < PI). { pose proof (Hy _ (nth_In _ 0 Hj)) as Y. unfold th, colat. pose proof PI_RGT_0. nra. } split.
  - rewrite (Derive_ext _ (fun x => Nlm l l (cos th) * cos (INR l * x))).
    + apply is_derive_unique. evar_last; [apply (is_derive_scal (fun x => cos (INR l * x))); apply (is_derive_comp cos (fun x => INR l * x)); [apply is_derive_Reals, derivable_pt_lim_cos|apply (is_derive_scal (fun x => x)); apply @is_derive_id]|]. unfold scal; cbn -[INR]; unfold mult; cbn -[INR]. ring.
    + intros x. unfold series. rewrite (sumn_ext (LMAX + 1) _ (fun m => if (m =? l)%nat then Nlm l l (cos th) * cos (INR l * x) else 0)); [apply sumn_single; lia|].
      intros m Hm. rewrite (sumn_ext (LMAX + 1) _ (fun k => if (k =? l)%nat then (if (m =? l)%nat then Nlm l l (cos th) * cos (INR l * x) else 0) else 0)); [apply sumn_single; lia|].
      intros k Hk. cbn [Nat.leb]. rewrite Hc, Hs. destruct (Nat.eqb_spec k l) as [->|]; destruct (Nat.eqb_spec m l) as [->|]; cbn [andb]; ring.
  - rewrite B5. fold th phi. unfold grad_sum.
    rewrite (sumn_ext (LMAX + 1) _ (fun m => if (m =? l)%nat then sin (INR l * phi) * (sqrt ((INR l + 1) * INR l) * sumn (LMAX + 1) (fun n => wlm_of LMAX p l l n * trc l (INR n * th))) else 0)).
    + rewrite sumn_single by lia. pose proof (w_sect LMAX p l th T Hl) as W. rewrite NT_Nlm in W by lra. pose proof (lead_pos l ltac:(lia)) as PS.
      transitivity (sin (INR l * phi) * (sqrt ((INR l + 1) * INR l) * (sin th * sumn (LMAX + 1) (fun n => wlm_of LMAX p l l n * trc l (INR n * th))))); [ring|]. rewrite W. field. lra.
    + intros m Hm. cbv zeta. rewrite (sumn_all0 (LMAX + 1) (fun n => sumn (LMAX + 1) (fun k => wlm_of LMAX p k m n * (- s k m * _)) * _)).
      2:{ intros n _. rewrite sumn_all0; [ring|]. intros k Hk. destruct (CS k m ltac:(lia) ltac:(lia)) as [_ Cs]. rewrite Cs, Hs. cbn [Nat.leb]. ring. }
      rewrite (sumn_ext (LMAX + 1) (fun n => sumn (LMAX + 1) (fun k => wlm_of LMAX p k m n * (- c k m * _)) * _) (fun n => (if (m =? l)%nat then - sqrt ((INR l + 1) * INR l) else 0) * (wlm_of LMAX p l m n * trc m (INR n * th)))).
      * rewrite sumn_scal. destruct (Nat.eqb_spec m l) as [->|]; ring.
      * intros n _. rewrite (sumn_ext (LMAX + 1) _ (fun k => if (k =? l)%nat then wlm_of LMAX p l m n * (- (if (m =? l)%nat then 1 else 0) * sqrt ((INR l + 1) * INR l)) else 0)).
        { rewrite sumn_single by lia. destruct (m =? l)%nat; ring. }
        intros k Hk. destruct (CS k m ltac:(lia) ltac:(lia)) as [Cc _]. rewrite Cc, Hc. cbn [Nat.leb]. destruct (Nat.eqb_spec k l) as [->|]; cbn [andb]; [reflexivity|ring].
Qed.
Theorem C89_errors : forall c1 s1 lon lat LMIN LMAX M, (1 <= LMAX)%nat -> Nat.odd LMAX = true \/ M <> LMAX \/ (M < 4)%nat ->
  exists e, harmonic_gradients c1 s1 lon lat LMIN LMAX (Some M) = Err e.
Proof.
  intros c1 s1 lon lat LMIN LMAX M H1 H. unfold harmonic_gradients. assert (EF : eff_lmax LMAX c1 = LMAX) by (unfold eff_lmax; replace (LMAX =? 0)%nat with false by lia; reflexivity). rewrite EF. cbn [upto_order].
  destruct (List.length lon =? 1)%nat; [eexists; reflexivity|]. destruct (List.length lat =? 1)%nat; [eexists; reflexivity|].
  destruct (load_block c1 LMIN LMAX M) as [c|e]; [|eexists; reflexivity]. destruct (load_block s1 LMIN LMAX M) as [s|e]; [|eexists; reflexivity]. cbn [bind].
  destruct (legendre_gradient LMAX M) as [vw|e] eqn:E; [|eexists; reflexivity]. cbn [bind]. destruct (Nat.eqb_spec M LMAX) as [->|N]; [|eexists; reflexivity].
  exfalso. destruct H as [H|[H|H]]; [| contradiction|]; unfold legendre_gradient, fourier_legendre in E.
  - rewrite H, orb_true_r in E. discriminate.
  - destruct ((LMAX =? 0)%nat || Nat.odd LMAX); [discriminate|]. destruct (LMAX + 2 <=? LMAX)%nat; [discriminate|]. destruct (LMAX <? 2)%nat; [discriminate|]. destruct (LMAX =? 2)%nat; [discriminate|]. replace (LMAX <? 4)%nat with true in E by lia. discriminate.
Qed.
(** a case that meets the hypotheses of the theorems above *)
Example C89_case : let c1 := mkarr 5 5 None (fun l m _ => INR (l + m)) in let s1 := mkarr 5 5 None (fun l m _ => INR (l * m)) in
  let lon := [0; 120; 240] in let lat := [-45; 30] in
  Nat.even 4 = true /\ (4 <= 4)%nat /\ List.length lon <> 1%nat /\ List.length lat <> 1%nat /\ (4 < rows c1)%nat /\ (4 < cols c1)%nat /\ (4 < rows s1)%nat /\ (4 < cols s1)%nat /\
  (forall y, In y lat -> -90 < y < 90) /\ cf s1 2 1 = 2 /\ exists g, harmonic_gradients c1 s1 lon lat 0 4 None = Ok g.
Proof.
  cbn zeta. cbn [rows cols List.length]. assert (Y : forall y, In y [-45; 30] -> -90 < y < 90) by (intros y [<-|[<-|[]]]; Lra.lra).
  repeat (split; [first [reflexivity|lia|exact Y|cbn; ring]|]).
  destruct (C89_meridional (mkarr 5 5 None (fun l m _ => INR (l + m))) (mkarr 5 5 None (fun l m _ => INR (l * m))) [0; 120; 240] [-45; 30] 0 4 eq_refl ltac:(lia) ltac:(cbn; lia) ltac:(cbn; lia) ltac:(cbn; lia) ltac:(cbn; lia) ltac:(cbn; lia) ltac:(cbn; lia) Y) as (g0 & g1 & E & _).
  exists (g0, g1). exact E.
Qed.
