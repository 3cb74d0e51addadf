(** Properties C43, C44: legendre_polynomials.py and associated_legendre.py.
    Specification: [legP] (Bonnet's Legendre polynomials) and [Nlm]
    (sqrt((2-delta_m0)(2l+1)(l-m)!/(l+m)!) (1-x^2)^(m/2) d^m/dx^m P_l). *)
From Coq Require Import Reals Lra Lia String ZifyBool ZifyNat.
From Coquelicot Require Import Coquelicot.
From Verif Require Import Base Arr LegendreSpec LegendreSpec2 LegendreModel LegendreProofs LegendreProofs2 LegendreOrtho.
Close Scope Z_scope.
Open Scope R_scope.

(** entry [row, col] of a 2-d array given as a list of rows *)
Definition at2 (a : list (list R)) (i j : nat) : option R :=
  match nth_error a i with Some r => nth_error r j | None => None end.
Lemma at2_map (f : nat -> R -> R) n xs i j x : (i < n)%nat -> nth_error xs j = Some x ->
  at2 (map (fun l => map (f l) xs) (seq 0 n)) i j = Some (f i x).
Proof.
  intros Hi Hj. unfold at2. rewrite (map_nth_error _ i (seq 0 n) (d := i)).
  - now apply map_nth_error.
  - rewrite (nth_error_nth' _ 0%nat) by (rewrite seq_length; exact Hi). now rewrite seq_nth.
Qed.

Lemma lp_inv lmax xs pl dpl : (1 <= lmax)%nat -> legendre_polynomials lmax xs = Ok (pl, dpl) ->
  pl = map (fun l => map (fun x => fst (legpoly_tab lmax x) l) xs) (seq 0 (lmax + 1)) /\
  dpl = map (fun l => map (fun x => snd (legpoly_tab lmax x) l) xs) (seq 0 (lmax + 1)).
Proof.
  intros H E. unfold legendre_polynomials in E. destruct lmax as [|k]; [lia|]. set (n := (S k + 1)%nat) in *.
  inversion E. split; reflexivity.
Qed.
(** ** C43 *)
Theorem C43_values : forall lmax xs, (1 <= lmax)%nat -> (forall x, In x xs -> -1 <= x <= 1) ->
  exists pl dpl, legendre_polynomials lmax xs = Ok (pl, dpl) /\ List.length pl = (lmax + 1)%nat /\ List.length dpl = (lmax + 1)%nat /\
    forall l t x, (l <= lmax)%nat -> nth_error xs t = Some x -> at2 pl l t = Some (sqrt (2 * INR l + 1) * legP l x).
Proof.
  intros lmax xs Hl Hx. unfold legendre_polynomials. destruct lmax as [|k]; [lia|]. do 2 eexists. split; [reflexivity|].
  rewrite !map_length, !seq_length. split; [reflexivity|]. split; [reflexivity|]. intros l t x Hle Ht.
  rewrite (at2_map (fun l x => fst (legpoly_tab (S k) x) l)) with (x := x) by (lia || assumption).
  f_equal. apply (legpoly_ok (S k) x); [apply Hx; eapply nth_error_In; eassumption|lia|lia].
Qed.
Print Assumptions C43_values.

(** the second result is the derivative with respect to colatitude *)
Theorem C43_derivative : forall lmax ths pl dpl, (1 <= lmax)%nat -> legendre_polynomials lmax (map cos ths) = Ok (pl, dpl) ->
  forall l t th, (l <= lmax)%nat -> nth_error ths t = Some th -> 0 < sin th ->
  exists v, at2 dpl l t = Some v /\ is_derive (fun a => sqrt (2 * INR l + 1) * legP l (cos a)) th v.
Proof.
  intros lmax ths pl dpl Hl E l t th Hle Ht Hs. destruct (lp_inv _ _ _ _ Hl E) as [-> ->]. clear E.
  destruct lmax as [|k]; [lia|].
  exists (snd (legpoly_tab (S k) (cos th)) l). split.
  - apply (at2_map (fun l x => snd (legpoly_tab (S k) x) l)); [lia|]. now apply map_nth_error.
  - assert (Su : sqrt (1 - cos th ^ 2) = sin th).
    { replace (1 - cos th ^ 2) with (Rsqr (sin th)) by (rewrite sin2; unfold Rsqr; ring). apply sqrt_Rsqr. lra. }
    assert (Uv : uval (cos th) = sqrt (1 - cos th ^ 2)).
    { unfold uval. rewrite Su. destruct (Req_EM_T (sin th) 0); lra. }
    replace (snd (legpoly_tab (S k) (cos th)) l) with (DU l 0 (cos th) (sqrt (1 - cos th ^ 2))).
    + apply (is_derive_ext (fun a => Nlm l 0 (cos a))); [intros; apply Nlm_zonal|]. apply DU_slope; [exact Hs|lia].
    + destruct (legpoly_ok (S k) (cos th) (COS_bound th) ltac:(lia) l Hle) as [_ ->]. unfold DU. destruct l as [|l]; [reflexivity|].
      rewrite Uv. rewrite !(fun l => NU_zonal l (cos th) (sqrt (1 - cos th ^ 2))), fLM_0. reflexivity.
Qed.
Print Assumptions C43_derivative.

(** at the poles: (+-1)^l sqrt(2l+1), slope exactly 0 (no division by zero) *)
Theorem C43_poles : forall lmax xs pl dpl, (1 <= lmax)%nat -> (forall x, In x xs -> -1 <= x <= 1) -> legendre_polynomials lmax xs = Ok (pl, dpl) ->
  forall l t x, (l <= lmax)%nat -> nth_error xs t = Some x -> x = 1 \/ x = -1 ->
  at2 pl l t = Some (sqrt (2 * INR l + 1) * x ^ l) /\ at2 dpl l t = Some 0.
Proof.
  intros lmax xs pl dpl Hl Hx E l t x Hle Ht Hp. destruct (lp_inv _ _ _ _ Hl E) as [-> ->]. clear E.
  destruct lmax as [|k]; [lia|].
  assert (In x xs) by (eapply nth_error_In; eassumption).
  destruct (legpoly_ok (S k) x (Hx x H) ltac:(lia) l Hle) as [A B]. split.
  - rewrite (at2_map (fun l x => fst (legpoly_tab (S k) x) l)) with (x := x) by (lia || assumption). now rewrite A, legP_pole.
  - rewrite (at2_map (fun l x => snd (legpoly_tab (S k) x) l)) with (x := x) by (lia || assumption). rewrite B. f_equal. destruct l as [|l]; [reflexivity|].
    rewrite leg_slope_pole by (assumption || lia). ring.
Qed.

(** a smaller lmax gives a prefix of both arrays *)
Theorem C43_prefix : forall lmax lmax' xs pl dpl pl' dpl', (1 <= lmax <= lmax')%nat -> (forall x, In x xs -> -1 <= x <= 1) ->
  legendre_polynomials lmax xs = Ok (pl, dpl) -> legendre_polynomials lmax' xs = Ok (pl', dpl') ->
  pl = firstn (lmax + 1) pl' /\ dpl = firstn (lmax + 1) dpl'.
Proof.
  intros a b xs pl dpl pl' dpl' Hl Hx E E'. destruct (lp_inv a _ _ _ ltac:(lia) E) as [-> ->]. destruct (lp_inv b _ _ _ ltac:(lia) E') as [-> ->]. clear E E'.
  destruct a as [|a]; [lia|]. destruct b as [|b]; [lia|].
  assert (F : forall n m : nat, (n <= m)%nat -> firstn n (seq 0 m) = seq 0 n).
  { intros n m H. replace m with (n + (m - n))%nat by lia. rewrite seq_app, firstn_app, seq_length, Nat.sub_diag, app_nil_r.
    rewrite <- (seq_length n 0) at 1. apply firstn_all. }
  rewrite !firstn_map, F by lia. split; apply map_ext_in; intros l Hin; apply map_ext_in; intros x Hix; apply in_seq in Hin;
    destruct (legpoly_ok (S a) x (Hx x Hix) ltac:(lia) l ltac:(lia)) as [A B]; destruct (legpoly_ok (S b) x (Hx x Hix) ltac:(lia) l ltac:(lia)) as [A' B'].
  - now rewrite A, A'.
  - now rewrite B, B'.
Qed.

(** REFUTED: lmax = 0 is not supported *)
Theorem C43_lmax0_refuted : forall xs, legendre_polynomials 0 xs = Err IndexError.
Proof. reflexivity. Qed.

Example C43_example : exists pl dpl, legendre_polynomials 2 [1 / 2] = Ok (pl, dpl) /\ at2 pl 2 0 = Some (sqrt 5 * (- (1 / 8))).
Proof.
  destruct (C43_values 2 [1 / 2] ltac:(lia)) as (pl & dpl & E & _ & _ & V). { intros x [<-|[]]. lra. }
  exists pl, dpl. split; [exact E|]. rewrite (V 2%nat 0%nat (1 / 2)) by (lia || reflexivity). f_equal. unfold legP. cbn [INR].
  replace (2 * (1 + 1) + 1) with 5 by ring. f_equal. field.
Qed.

(** ** C44 *)
Open Scope string_scope.
Definition methods := ["colombo"; "holmes"; "mohlenkamp"].
Definition ncols (MMAX : option nat) (LMAX : nat) : nat := (upto_order MMAX LMAX + 1)%nat.

Lemma all_tables LMAX xs method MMAX : (2 <= LMAX)%nat -> (upto_order MMAX LMAX <= LMAX)%nat -> In method methods ->
  exists p d, associated_legendre LMAX xs method MMAX = Ok (p, d) /\
    rows p = (LMAX + 1)%nat /\ cols p = ncols MMAX LMAX /\ depth p = Some (List.length xs) /\
    rows d = (LMAX + 1)%nat /\ (ncols MMAX LMAX <= cols d)%nat /\ depth d = Some (List.length xs) /\
    forall l m t x, (l <= LMAX)%nat -> (m <= upto_order MMAX LMAX)%nat -> nth_error xs t = Some x ->
      get p l m t = NU l m x (uval x) /\ get d l m t = DU l m x (uval x).
Proof.
  intros HL HM Hin. unfold ncols.
  assert (Hn : forall t x, nth_error xs t = Some x -> nth t xs 0 = x) by (intros t x H; now apply nth_error_nth).
  destruct Hin as [<-|[<-|[<-|[]]]]; unfold associated_legendre; cbn [String.eqb Ascii.eqb Bool.eqb].
  - unfold plm_colombo. destruct LMAX as [|k]; [lia|]. set (L := S k) in *. rewrite Nat.min_r by exact HM. do 2 eexists. split; [reflexivity|].
    cbn [table rows cols depth get]. repeat split; try (intros; lia); intros; rewrite (Hn t x) by assumption; apply colombo_ok; lia.
  - unfold plm_holmes. destruct LMAX as [|[|k]]; [lia|lia|]. set (L := S (S k)) in *. rewrite Nat.min_r by exact HM. do 2 eexists. split; [reflexivity|].
    cbn [table rows cols depth get]. repeat split; try (intros; lia); intros; rewrite (Hn t x) by assumption; apply holmes_ok; lia.
  - unfold plm_mohlenkamp. do 2 eexists. split; [reflexivity|].
    cbn [table rows cols depth get]. repeat split; try (intros; lia); intros; rewrite (Hn t x) by assumption; apply mohl_ok; lia.
Qed.

(** every method returns the normalised functions, all degrees and orders *)
Theorem C44_values : forall LMAX xs method MMAX, (2 <= LMAX)%nat -> (upto_order MMAX LMAX <= LMAX)%nat -> In method methods ->
  exists p d, associated_legendre LMAX xs method MMAX = Ok (p, d) /\
    rows p = (LMAX + 1)%nat /\ cols p = ncols MMAX LMAX /\ depth p = Some (List.length xs) /\
    forall l m t x, (l <= LMAX)%nat -> (m < ncols MMAX LMAX)%nat -> nth_error xs t = Some x -> -1 < x < 1 -> get p l m t = Nlm l m x.
Proof.
  intros LMAX xs method MMAX HL HM Hin. destruct (all_tables LMAX xs method MMAX HL HM Hin) as (p & d & E & R1 & R2 & R3 & _ & _ & _ & V).
  exists p, d. do 4 (split; [assumption|]). intros l m t x Hl Hm Ht Hx. unfold ncols in Hm.
  destruct (V l m t x Hl ltac:(lia) Ht) as [-> _]. rewrite uval_in by exact Hx. symmetry. apply Nlm_NU.
Qed.
Print Assumptions C44_values.

(** and their derivatives with respect to colatitude *)
Theorem C44_derivative : forall LMAX ths method MMAX p d, (2 <= LMAX)%nat -> (upto_order MMAX LMAX <= LMAX)%nat -> In method methods ->
  associated_legendre LMAX (map cos ths) method MMAX = Ok (p, d) ->
  forall l m t th, (m <= l <= LMAX)%nat -> (m < ncols MMAX LMAX)%nat -> nth_error ths t = Some th -> 0 < sin th ->
  is_derive (fun a => Nlm l m (cos a)) th (get d l m t).
Proof.
  intros LMAX ths method MMAX p d HL HM Hin E l m t th Hl Hm Ht Hs. unfold ncols in Hm.
  destruct (all_tables LMAX (map cos ths) method MMAX HL HM Hin) as (p' & d' & E' & _ & _ & _ & _ & _ & _ & V).
  rewrite E in E'. injection E' as <- <-.
  destruct (V l m t (cos th) ltac:(lia) ltac:(lia) ltac:(now apply map_nth_error)) as [_ ->].
  assert (Uv : uval (cos th) = sqrt (1 - cos th ^ 2)).
  { replace (1 - cos th ^ 2) with (Rsqr (sin th)) by (rewrite sin2; unfold Rsqr; ring). rewrite sqrt_Rsqr by lra.
    unfold uval. replace (1 - cos th ^ 2) with (Rsqr (sin th)) by (rewrite sin2; unfold Rsqr; ring). rewrite sqrt_Rsqr by lra.
    destruct (Req_EM_T (sin th) 0); lra. }
  rewrite Uv. apply DU_slope; [exact Hs|lia].
Qed.
Print Assumptions C44_derivative.

(** the methods agree at every point including the poles *)
Theorem C44_agree : forall LMAX xs m1 m2 MMAX p1 d1 p2 d2, (2 <= LMAX)%nat -> (upto_order MMAX LMAX <= LMAX)%nat ->
  In m1 methods -> In m2 methods ->
  associated_legendre LMAX xs m1 MMAX = Ok (p1, d1) -> associated_legendre LMAX xs m2 MMAX = Ok (p2, d2) ->
  aeq p1 p2 /\ forall l m t, (l <= LMAX)%nat -> (m < ncols MMAX LMAX)%nat -> (t < List.length xs)%nat -> get d1 l m t = get d2 l m t.
Proof.
  intros LMAX xs m1 m2 MMAX p1 d1 p2 d2 HL HM I1 I2 E1 E2.
  destruct (all_tables LMAX xs m1 MMAX HL HM I1) as (p & d & E & R1 & R2 & R3 & _ & _ & _ & V). rewrite E1 in E. injection E as <- <-.
  destruct (all_tables LMAX xs m2 MMAX HL HM I2) as (p & d & E & S1 & S2 & S3 & _ & _ & _ & W). rewrite E2 in E. injection E as <- <-.
  assert (X : forall t, (t < List.length xs)%nat -> exists x, nth_error xs t = Some x).
  { intros t H. exists (nth t xs 0). now apply nth_error_nth'. }
  split.
  - split; [repeat split; congruence|]. intros l m t (H1 & H2 & H3). unfold nslice in H3. rewrite R3 in H3. unfold ncols in R2.
    destruct (X t H3) as [x Hx]. destruct (V l m t x ltac:(lia) ltac:(lia) Hx) as [-> _]. destruct (W l m t x ltac:(lia) ltac:(lia) Hx) as [-> _]. reflexivity.
  - intros l m t H1 H2 H3. unfold ncols in H2. destruct (X t H3) as [x Hx].
    destruct (V l m t x ltac:(lia) ltac:(lia) Hx) as [_ ->]. destruct (W l m t x ltac:(lia) ltac:(lia) Hx) as [_ ->]. reflexivity.
Qed.
Print Assumptions C44_agree.

(** REFUTED for small degrees: the default method fails below degree 2, and only
    one method supports degree 0 *)
Theorem C44_small_degree_refuted : forall xs MMAX,
  associated_legendre 0 xs "holmes" MMAX = Err IndexError /\ associated_legendre 0 xs "colombo" MMAX = Err IndexError /\
  is_ok (associated_legendre 0 xs "mohlenkamp" MMAX) = true /\
  associated_legendre 1 xs "holmes" MMAX = Err UnboundLocalError /\ is_ok (associated_legendre 1 xs "colombo" MMAX) = true.
Proof. intros. repeat split. Qed.
(** REFUTED: the documented method name "columbo" is rejected *)
Theorem C44_documented_name_refuted : forall LMAX xs MMAX, associated_legendre LMAX xs "columbo" MMAX = Err ValueError.
Proof. reflexivity. Qed.
(** REFUTED: with MMAX < LMAX the derivative array of plm_mohlenkamp keeps all
    LMAX+1 columns, the other methods truncate it *)
Theorem C44_derivative_shape_refuted : forall LMAX xs k p d p' d', (2 <= LMAX)%nat -> (k < LMAX)%nat ->
  associated_legendre LMAX xs "mohlenkamp" (Some k) = Ok (p, d) -> associated_legendre LMAX xs "holmes" (Some k) = Ok (p', d') ->
  cols d = (LMAX + 1)%nat /\ cols d' = (k + 1)%nat.
Proof.
  intros LMAX xs k p d p' d' HL Hk E E'. unfold associated_legendre in E, E'. cbn [String.eqb Ascii.eqb Bool.eqb] in E, E'.
  unfold plm_mohlenkamp in E. injection E as _ <-. unfold plm_holmes in E'. destruct LMAX as [|[|L]]; [lia|lia|].
  apply (f_equal (fun r : res (arr R * arr R) => match r with Ok pd => cols (snd pd) | Err _ => 0%nat end)) in E'.
  cbn [snd cols table upto_order] in E'. split; [reflexivity|]. rewrite <- E'. lia.
Qed.

(** at the poles order 0 is exact *)
Theorem C44_pole_zonal : forall LMAX xs method MMAX p d, (2 <= LMAX)%nat -> (upto_order MMAX LMAX <= LMAX)%nat -> In method methods ->
  associated_legendre LMAX xs method MMAX = Ok (p, d) ->
  forall l t x, (l <= LMAX)%nat -> nth_error xs t = Some x -> x = 1 \/ x = -1 -> get p l 0 t = sqrt (2 * INR l + 1) * x ^ l.
Proof.
  intros LMAX xs method MMAX p d HL HM Hin E l t x Hl Ht Hx.
  destruct (all_tables LMAX xs method MMAX HL HM Hin) as (p' & d' & E' & _ & _ & _ & _ & _ & _ & V). rewrite E in E'. injection E' as <- <-.
  destruct (V l 0%nat t x Hl ltac:(lia) Ht) as [-> _]. rewrite NU_zonal, legP_pole by exact Hx. reflexivity.
Qed.
(** REFUTED: there the exact functions of order 1 vanish, the returned ones do not
    (sin(colatitude) = 0 is replaced by the machine epsilon) *)
Theorem C44_pole_order_refuted : forall LMAX xs method MMAX p d, (2 <= LMAX)%nat -> (1 <= upto_order MMAX LMAX <= LMAX)%nat -> In method methods ->
  associated_legendre LMAX xs method MMAX = Ok (p, d) ->
  forall t x, nth_error xs t = Some x -> x = 1 \/ x = -1 -> get p 1 1 t = sqrt 3 * / 2 ^ 52 /\ Nlm 1 1 x = 0.
Proof.
  intros LMAX xs method MMAX p d HL HM Hin E t x Ht Hx.
  destruct (all_tables LMAX xs method MMAX HL ltac:(lia) Hin) as (p' & d' & E' & _ & _ & _ & _ & _ & _ & V). rewrite E in E'. injection E' as <- <-.
  destruct (V 1%nat 1%nat t x ltac:(lia) ltac:(lia) Ht) as [-> _]. rewrite Nlm_NU, !NU_1_1.
  assert (Z : sqrt (1 - x ^ 2) = 0) by (replace (1 - x ^ 2) with 0 by (destruct Hx as [->| ->]; ring); apply sqrt_0).
  split; [|rewrite Z; ring]. f_equal. unfold uval. rewrite Z. destruct (Req_EM_T 0 0); [reflexivity|lra].
Qed.

(** the functions returned are orthogonal over the sphere and fully normalised: for two degrees l, k >= m the integral of their
    product over colatitude is 0, or 2 (order 0), or 4 (other orders) when l = k.  [T th] is the table returned at colatitude th *)
Theorem C44_orthonormal : forall LMAX method MMAX (T D : R -> arr R), (2 <= LMAX)%nat -> (upto_order MMAX LMAX <= LMAX)%nat -> In method methods ->
  (forall th, associated_legendre LMAX [cos th] method MMAX = Ok (T th, D th)) ->
  forall l k m, (m <= l <= LMAX)%nat -> (m <= k <= LMAX)%nat -> (m < ncols MMAX LMAX)%nat ->
  is_RInt (fun th => get (T th) l m 0 * get (T th) k m 0 * sin th) 0 PI (if (l =? k)%nat then (if (m =? 0)%nat then 2 else 4) else 0).
Proof.
  intros LMAX method MMAX T D HL HM Hin E l k m Hl Hk Hm.
  apply (is_RInt_ext (fun th => NT l m th * NT k m th * sin th)).
  - pose proof PI_RGT_0 as P. rewrite Rmin_left, Rmax_right by lra. intros th Hth. match goal with |- ?a = ?b => change (@eq R a b) end.
    destruct (C44_values LMAX [cos th] method MMAX HL HM Hin) as (p & d & E' & _ & _ & _ & V). rewrite E in E'. assert (X : p = T th) by congruence. subst p.
    assert (C : -1 < cos th < 1). { pose proof (sin_gt_0 th ltac:(lra) ltac:(lra)) as S1. pose proof (sin2_cos2 th) as S2. unfold Rsqr in S2. nra. }
    rewrite !(V _ _ 0%nat (cos th)) by (lia || reflexivity || assumption). rewrite !NT_Nlm by lra. reflexivity.
  - assert (X : ip l k m = (if (l =? k)%nat then (if (m =? 0)%nat then 2 else 4) else 0)); [|pose proof (ip_is l k m) as Ip; rewrite X in Ip; exact Ip].
    rewrite orthonormal by lia. unfold eps_m. destruct (l =? k)%nat, (m =? 0)%nat; lra.
Qed.
Example C44_example : exists p d, associated_legendre 2 [0] "holmes" None = Ok (p, d) /\ get p 1%nat 1%nat 0%nat = sqrt 3.
Proof.
  destruct (C44_values 2 [0] "holmes" None) as (p & d & E & _ & _ & _ & V); [lia|cbn; lia|cbn; tauto|].
  exists p, d. split; [exact E|]. rewrite (V 1%nat 1%nat 0%nat 0) by (cbn; lia || lra || reflexivity). rewrite Nlm_NU, NU_1_1.
  replace (1 - 0 ^ 2) with 1 by ring. rewrite sqrt_1. ring.
Qed.
