(** C111: spatial fields of a file to spherical harmonics (model: ConvertModel.v; the integration itself: C47). *)
From Coq Require Import Reals Lra Lia ZifyBool ZifyNat Permutation Sorted FunctionalExtensionality.
From Verif Require Import Base UnitsModel UnitsProofs Arr HarmModel HarmProofs HarmProofs3 LegendreModel SummationModel SummationProofs GenModel GenProofs PropGen ConvertModel PropSmooth.
From Verif Require Import TimeModel.
From Verif Require SpatialModel.
Close Scope Z_scope.
Close Scope string_scope.
Open Scope R_scope.

(** ** Specification *)
(** the value of a cell (row j, column i, field t) of a file: missing cells (fill value or nan) count as zero *)
Definition cell (f : SpatialModel.sp) (j i t : nat) : R :=
  match get (SpatialModel.sdata f) j i t with
  | None => 0
  | Some x => match SpatialModel.sfill f with Some (Some v) => if Req_EM_T x v then 0 else x | _ => x end
  end.
(** the coefficient of a field D (longitude, latitude) for the units of the file *)
Definition coefficient (U : grid_units) (k : list R) (LMAX : nat) (lon lat : list R) (trig : R -> R) (l m : nat) (D : nat -> nat -> R) : R :=
  match U with
  | GCustom df => nth l df 0 * quad trig lon lat l m D
  | GCode 1 => cmwe_factor k LMAX l * quad trig lon lat l m D
  | GCode 2 => cmwe_factor k LMAX l * (10 ^ 15 / rad_e (earth LMAX) ^ 2) * msum trig lon lat l m D
  | _ => cmwe_factor k LMAX l / 10 * quad trig lon lat l m D
  end.
(** custom factors for every degree, or centimeters, gigatonnes (no cells at the poles), millimeters with Love numbers for every degree *)
Definition units_ok (U : grid_units) (k : list R) (LMAX : nat) (lat : list R) : Prop :=
  match U with
  | GCustom df => (LMAX < List.length df)%nat
  | GCode z => (LMAX < List.length k)%nat /\ (z = 1 \/ z = 3 \/ (z = 2 /\ Forall (fun y => (-90 < y < 90)%R) lat))%Z
  end.
(** a file: every degree and order of the triangle once, with the coefficients c, s of n fields *)
Definition stored (f : flat) (L M n : nat) (c s : nat -> nat -> nat -> R) : Prop :=
  f_depth f = Some n /\ NoDup (combine (f_l f) (f_m f)) /\ (forall l m, In (l, m) (combine (f_l f) (f_m f)) <-> (m <= l <= L)%nat /\ (m <= M)%nat) /\
  List.length (f_m f) = List.length (f_l f) /\ List.length (f_clm f) = List.length (f_l f) /\ List.length (f_slm f) = List.length (f_l f) /\
  forall p l m t, nth_error (f_l f) p = Some l -> nth_error (f_m f) p = Some m -> (t < n)%nat ->
    nth p (f_clm f) (fun _ => 0) t = c l m t /\ nth p (f_slm f) (fun _ => 0) t = s l m t.
(** a file of n fields on a grid: at least two rows and columns, no nan unless there is a fill value *)
Definition grid_file (f : SpatialModel.sp) (n : nat) : Prop :=
  grid_ok (SpatialModel.slon f) (SpatialModel.slat f) /\ rows (SpatialModel.sdata f) = List.length (SpatialModel.slat f) /\
  cols (SpatialModel.sdata f) = List.length (SpatialModel.slon f) /\ depth (SpatialModel.sdata f) = Some n /\ (1 <= n)%nat /\
  (SpatialModel.sfill f = None -> forall j i t, (j < List.length (SpatialModel.slat f))%nat -> (i < List.length (SpatialModel.slon f))%nat -> (t < n)%nat -> get (SpatialModel.sdata f) j i t <> None).

(** ** the object after reading, expand_dims and replace_invalid *)
Definition inval (fl : option SpatialModel.val) (v : SpatialModel.val) : bool := match fl with None => false | Some w => SpatialModel.veqb v w || SpatialModel.isnan v end.
Definition shown (fl : option SpatialModel.val) (v : SpatialModel.val) : SpatialModel.val := match fl with None => v | Some w => if inval fl v then w else v end.
Definition inv (fl : option SpatialModel.val) (D : nat -> nat -> nat -> SpatialModel.val) (s : SpatialModel.sp) : Prop :=
  SpatialModel.sfill s = fl /\ SpatialModel.serr s = None /\ same_shape (SpatialModel.smask s) (SpatialModel.sdata s) /\
  forall i j t, get (SpatialModel.smask s) i j t = inval fl (D i j t) /\ get (SpatialModel.sdata s) i j t = shown fl (D i j t).
Definition same_axes (s s' : SpatialModel.sp) : Prop :=
  SpatialModel.slon s' = SpatialModel.slon s /\ SpatialModel.slat s' = SpatialModel.slat s /\ SpatialModel.stime s' = SpatialModel.stime s /\ SpatialModel.smonth s' = SpatialModel.smonth s /\ same_shape (SpatialModel.sdata s) (SpatialModel.sdata s').
Lemma shape_refl {A B} (a : arr A) (b : arr B) : same_shape a b -> SpatialModel.shape_eqb a b = true.
Proof. intros (H1 & H2 & H3). unfold SpatialModel.shape_eqb. rewrite H1, H2, H3, !Nat.eqb_refl. destruct (depth b); cbn; [apply Nat.eqb_refl|reflexivity]. Qed.
Lemma update_keeps fl D s : inv fl D s -> exists s', SpatialModel.update_mask s = Ok s' /\ inv fl D s' /\ same_axes s s'.
Proof.
  intros (F & E & SH & V). unfold SpatialModel.update_mask. rewrite F. destruct fl as [w|].
  - rewrite (shape_refl _ _ SH), E. cbn [negb]. eexists. split; [reflexivity|]. split.
    + unfold inv. cbn [SpatialModel.sfill SpatialModel.serr SpatialModel.smask SpatialModel.sdata]. split; [reflexivity|]. split; [reflexivity|]. split; [unfold SpatialModel.masked_set, same_shape; cbn [rows cols depth]; auto|].
      intros i j t. destruct (V i j t) as [M G]. unfold SpatialModel.masked_set. cbn [get]. rewrite M, G. cbn [inval shown]. destruct (SpatialModel.veqb (D i j t) w || SpatialModel.isnan (D i j t)) eqn:Q; cbn [orb]; [auto|]. apply orb_false_iff in Q as [Q1 Q2]. rewrite Q1, Q2. auto.
    + unfold same_axes, SpatialModel.masked_set, same_shape. cbn. auto 10.
  - exists s. split; [reflexivity|]. split; [unfold inv; auto|]. unfold same_axes, same_shape. auto 10.
Qed.
Lemma read_inv f n : grid_file f n ->
  let flip := ((n =? 1) && (List.length (SpatialModel.slon f) =? List.length (SpatialModel.slat f)))%nat in
  exists s, SpatialModel.nc_read f = Ok s /\ SpatialModel.slon s = SpatialModel.slon f /\ SpatialModel.slat s = SpatialModel.slat f /\ SpatialModel.stime s = tsqueeze (SpatialModel.stime f) /\
    rows (SpatialModel.sdata s) = List.length (SpatialModel.slat f) /\ cols (SpatialModel.sdata s) = List.length (SpatialModel.slon f) /\ depth (SpatialModel.sdata s) = (if (n =? 1)%nat then None else Some n) /\
    inv (SpatialModel.sfill f) (fun j i t => let u := if (n =? 1)%nat then 0%nat else t in if flip then get (SpatialModel.sdata f) i j u else get (SpatialModel.sdata f) j i u) s.
Proof.
  intros ((G1 & G2 & G3) & R & C & D & N & NN) flip. unfold SpatialModel.nc_read, SpatialModel.gsqueeze. rewrite R, C.
  destruct (Nat.eqb_spec (List.length (SpatialModel.slat f)) 1); [lia|]. destruct (Nat.eqb_spec (List.length (SpatialModel.slon f)) 1); [lia|]. cbn [orb]. rewrite D.
  assert (K : forall d : arr SpatialModel.val, (exists d0, (match n with 1%nat => Ok (slice (SpatialModel.sdata f) 0) | _ => Ok (SpatialModel.sdata f) end) = Ok d0 /\ d = match depth d0 with None => if (List.length (SpatialModel.slon f) =? rows d0)%nat then SpatialModel.gtrans d0 else d0 | Some _ => d0 end) ->
    rows d = List.length (SpatialModel.slat f) /\ cols d = List.length (SpatialModel.slon f) /\ depth d = (if (n =? 1)%nat then None else Some n) /\
    forall j i t, get d j i t = (let u := if (n =? 1)%nat then 0%nat else t in if flip then get (SpatialModel.sdata f) i j u else get (SpatialModel.sdata f) j i u)).
  { intros d (d0 & E & ->). unfold flip. destruct (Nat.eqb_spec n 1) as [->|N1].
    - injection E as <-. unfold slice. cbn [depth rows]. rewrite R. destruct (Nat.eqb_spec (List.length (SpatialModel.slon f)) (List.length (SpatialModel.slat f))) as [Q|Q].
      + unfold SpatialModel.gtrans. cbn [rows cols depth get andb]. repeat split; congruence.
      + cbn [rows cols depth get andb]. auto.
    - assert (E' : SpatialModel.sdata f = d0) by (destruct n as [|[|]]; [congruence|lia|congruence]). subst d0. rewrite D. cbn [andb]. auto. }
  assert (X : exists d0, (match n with 1%nat => Ok (slice (SpatialModel.sdata f) 0) | _ => Ok (SpatialModel.sdata f) end) = Ok d0) by (destruct n as [|[|]]; eauto).
  destruct X as (d0 & E). rewrite E. cbn [bind]. set (d := match depth d0 with None => _ | Some _ => _ end). destruct (K d ltac:(exists d0; auto)) as (K1 & K2 & K3 & K4). clearbody d.
  set (DD := fun j i t : nat => let u := if (n =? 1)%nat then 0%nat else t in if flip then get (SpatialModel.sdata f) i j u else get (SpatialModel.sdata f) j i u). change (forall j i t, get d j i t = DD j i t) in K4.
  destruct (SpatialModel.sfill f) as [w|] eqn:F.
  - unfold SpatialModel.update_mask. cbn [SpatialModel.sfill SpatialModel.smask SpatialModel.sdata SpatialModel.serr]. rewrite shape_refl by (repeat split; reflexivity). cbn [negb]. eexists. split; [reflexivity|].
    cbn [SpatialModel.slon SpatialModel.slat SpatialModel.stime SpatialModel.sdata]. unfold SpatialModel.masked_set. cbn [rows cols depth]. do 6 (split; [auto|]).
    unfold inv. cbn [SpatialModel.sfill SpatialModel.serr SpatialModel.smask SpatialModel.sdata rows cols depth get]. split; [auto|]. split; [reflexivity|]. split; [unfold same_shape; cbn [rows cols depth]; auto|].
    intros j i t. rewrite K4. cbn [inval shown]. destruct (SpatialModel.veqb (DD j i t) w); cbn [orb]; auto.
  - unfold SpatialModel.update_mask. cbn [SpatialModel.sfill]. eexists. split; [reflexivity|]. cbn [SpatialModel.slon SpatialModel.slat SpatialModel.stime SpatialModel.sdata]. do 6 (split; [auto|]).
    unfold inv. cbn [SpatialModel.sfill SpatialModel.serr SpatialModel.smask SpatialModel.sdata rows cols depth get]. split; [auto|]. split; [reflexivity|]. split; [unfold same_shape; cbn [rows cols depth]; auto|].
    intros j i t. cbn [inval shown]. auto.
Qed.

Lemma prepared f n : grid_file f n -> 
  let flip := ((n =? 1) && (List.length (SpatialModel.slon f) =? List.length (SpatialModel.slat f)))%nat in
  exists r s1 s, SpatialModel.nc_read f = Ok r /\ SpatialModel.sexpand r = Ok s1 /\ SpatialModel.replace_invalid (Some 0) None s1 = Ok s /\
    SpatialModel.slon s = SpatialModel.slon f /\ SpatialModel.slat s = SpatialModel.slat f /\ SpatialModel.stime s = atleast_1d (tsqueeze (SpatialModel.stime f)) /\
    rows (SpatialModel.sdata s) = List.length (SpatialModel.slat f) /\ cols (SpatialModel.sdata s) = List.length (SpatialModel.slon f) /\ depth (SpatialModel.sdata s) = Some n /\
    forall j i t, (j < List.length (SpatialModel.slat f))%nat -> (i < List.length (SpatialModel.slon f))%nat -> (t < n)%nat ->
      get (SpatialModel.sdata s) j i t = Some (if flip then cell f i j t else cell f j i t).
Proof.
  intros GF flip. destruct (read_inv f n GF) as (r & Er & L1 & L2 & T & R & C & D & V). fold flip in V. pose proof GF as ((G1 & G2 & G3) & R0 & C0 & D0 & N & NN).
  assert (I1 : inv (SpatialModel.sfill f) (fun j i t => if flip then get (SpatialModel.sdata f) i j (if (n =? 1)%nat then 0%nat else t) else get (SpatialModel.sdata f) j i (if (n =? 1)%nat then 0%nat else t))
     (SpatialModel.mksp (SpatialModel.gexpand (SpatialModel.sdata r)) (SpatialModel.gexpand (SpatialModel.smask r)) (match SpatialModel.serr r with None => None | Some e => Some (SpatialModel.gexpand e) end)
       (SpatialModel.slon r) (SpatialModel.slat r) (atleast_1d (SpatialModel.stime r)) (atleast_1d (SpatialModel.smonth r)) (SpatialModel.sfill r))).
  { destruct V as (F & E & (S1 & S2 & S3) & V). unfold inv. cbn [SpatialModel.sfill SpatialModel.serr SpatialModel.smask SpatialModel.sdata]. split; [exact F|]. split; [now rewrite E|].
    unfold SpatialModel.gexpand. rewrite S3, D. split.
    - destruct (n =? 1)%nat; unfold same_shape; cbn [rows cols depth]; auto.
    - intros i j t. destruct (Nat.eqb_spec n 1) as [->|N1].
      + cbn [get]. destruct (V i j 0%nat) as [M W]. cbv zeta in M, W. cbn [Nat.eqb] in M, W |- *. auto.
      + destruct (V i j t) as [M W]. cbv zeta in M, W. auto. }
  destruct (update_keeps _ _ _ I1) as (s1 & E1 & I2 & (A1 & A2 & A3 & A4 & (B1 & B2 & B3))).
  destruct (update_keeps _ _ _ I2) as (s2 & E2 & I3 & (A1' & A2' & A3' & A4' & (B1' & B2' & B3'))).
  exists r, s1. unfold SpatialModel.replace_invalid. rewrite E2. cbn [bind]. eexists. split; [exact Er|]. split; [exact E1|]. split; [reflexivity|].
  cbn [SpatialModel.slon SpatialModel.slat SpatialModel.stime SpatialModel.sdata SpatialModel.smonth] in *. unfold SpatialModel.masked_set. cbn [rows cols depth get].
  assert (SH : rows (SpatialModel.gexpand (SpatialModel.sdata r)) = List.length (SpatialModel.slat f) /\ cols (SpatialModel.gexpand (SpatialModel.sdata r)) = List.length (SpatialModel.slon f) /\ depth (SpatialModel.gexpand (SpatialModel.sdata r)) = Some n).
  { unfold SpatialModel.gexpand. rewrite D. destruct (Nat.eqb_spec n 1) as [->|]; cbn [rows cols depth]; auto. }
  destruct SH as (H1 & H2 & H3). split; [congruence|]. split; [congruence|]. split; [congruence|]. split; [congruence|]. split; [congruence|]. split; [congruence|].
  intros j i t Hj Hi Ht. destruct I3 as (_ & _ & _ & V3). destruct (V3 j i t) as [M W]. rewrite M, W.
  assert (U : (if (n =? 1)%nat then 0%nat else t) = t) by (destruct (Nat.eqb_spec n 1); lia). rewrite !U.
  assert (K : forall a b, (a < List.length (SpatialModel.slat f))%nat -> (b < List.length (SpatialModel.slon f))%nat ->
    (if inval (SpatialModel.sfill f) (get (SpatialModel.sdata f) a b t) then Some 0 else shown (SpatialModel.sfill f) (get (SpatialModel.sdata f) a b t)) = Some (cell f a b t)).
  { intros a b Ha Hb. unfold cell. specialize (NN) as NN'. unfold inval, shown, inval. destruct (SpatialModel.sfill f) as [w|].
    - destruct (get (SpatialModel.sdata f) a b t) as [x|]; [|destruct w; reflexivity]. cbn [SpatialModel.isnan]. rewrite orb_false_r. destruct w as [v|]; cbn [SpatialModel.veqb]; [|reflexivity]. destruct (Req_EM_T x v); reflexivity.
    - specialize (NN' eq_refl a b t Ha Hb Ht). destruct (get (SpatialModel.sdata f) a b t) as [x|]; [reflexivity|congruence]. }
  unfold flip in *. destruct ((n =? 1) && _)%nat eqn:Q; apply K; lia.
Qed.

(** ** the integration of one field *)
Lemma stokes_all data lon lat D LMAX MMAX U h k ll : lonlat data (List.length lon) (List.length lat) D -> grid_ok lon lat -> (2 <= LMAX)%nat -> (upto_order MMAX LMAX <= LMAX)%nat -> units_ok U k LMAX lat ->
  exists Y, gen_stokes data lon lat 0 LMAX MMAX U None (Some (h, k, ll)) = Ok Y /\
    coefficients Y 0 LMAX (upto_order MMAX LMAX) (fun l m => coefficient U k LMAX lon lat cos l m D) (fun l m => coefficient U k LMAX lon lat sin l m D).
Proof.
  intros HD HG HL HM HU. destruct U as [df|z]; cbn [units_ok coefficient] in *.
  - now apply C47_custom.
  - destruct HU as [HK [->|[->|[-> HP]]]].
    + now apply C47_water.
    + now apply C47_water.
    + now apply C47_gigatonnes.
Qed.
Lemma given_plm data lon lat LMAX MMAX U LOVE P Q : plm_holmes LMAX (map (fun x => cos (colat x)) lat) None = Ok (P, Q) ->
  gen_stokes data lon lat 0 LMAX MMAX U (Some P) LOVE = gen_stokes data lon lat 0 LMAX MMAX U None LOVE.
Proof. intros E. unfold gen_stokes, holmes_or. rewrite E. reflexivity. Qed.
Lemma holmes_exists LMAX lat : (2 <= LMAX)%nat -> exists P Q, plm_holmes LMAX (map (fun x => cos (colat x)) lat) None = Ok (P, Q).
Proof.
  intros HL. destruct (holmes_gives LMAX lat HL) as (P & E & _). unfold holmes_or in E. destruct (plm_holmes _ _ _) as [[P' Q]|]; [|discriminate]. eauto.
Qed.

(** the field the integration of field t sees, by longitude and latitude *)
Definition seen (f : SpatialModel.sp) (n t i j : nat) : R :=
  if (negb (n =? 1) && (List.length (SpatialModel.slon f) =? List.length (SpatialModel.slat f)))%nat then cell f i j t else cell f j i t.
Lemma convert_field_ok grace (DATE : bool) f n ts s P Q LMAX MM U h k ll t : grid_file f n -> (2 <= LMAX)%nat -> (MM <= LMAX)%nat -> units_ok U k LMAX (SpatialModel.slat f) ->
  (if DATE then SpatialModel.stime f = TArr ts /\ List.length ts = n else n = 1%nat) ->
  plm_holmes LMAX (map (fun x => cos (colat x)) (SpatialModel.slat f)) None = Ok (P, Q) ->
  SpatialModel.slon s = SpatialModel.slon f -> SpatialModel.slat s = SpatialModel.slat f -> SpatialModel.stime s = atleast_1d (tsqueeze (SpatialModel.stime f)) ->
  rows (SpatialModel.sdata s) = List.length (SpatialModel.slat f) -> cols (SpatialModel.sdata s) = List.length (SpatialModel.slon f) ->
  (forall j i t, (j < List.length (SpatialModel.slat f))%nat -> (i < List.length (SpatialModel.slon f))%nat -> (t < n)%nat ->
      get (SpatialModel.sdata s) j i t = Some (if ((n =? 1) && (List.length (SpatialModel.slon f) =? List.length (SpatialModel.slat f)))%nat then cell f i j t else cell f j i t)) ->
  (t < n)%nat ->
  exists Y, convert_field grace DATE s P LMAX MM U (Some (h, k, ll)) t = Ok Y /\ lmax Y = LMAX /\ mmax Y = MM /\ wf Y /\ depth (clm Y) = None /\
    time Y = (if DATE then TScalar (nth t ts 0) else TNone) /\ month Y = (if DATE then TScalar (grace (nth t ts 0)) else TNone) /\
    forall l m u, (m <= l <= LMAX)%nat -> (m <= MM)%nat ->
      get (clm Y) l m u = coefficient U k LMAX (SpatialModel.slon f) (SpatialModel.slat f) cos l m (seen f n t) /\
      get (slm Y) l m u = coefficient U k LMAX (SpatialModel.slon f) (SpatialModel.slat f) sin l m (seen f n t).
Proof.
  intros GF HL HM HU HT EP L1 L2 TS R C V Ht. pose proof GF as (G & _). unfold convert_field.
  set (d := slice (SpatialModel.sdata s) t).
  assert (AN : all_numbers d = true).
  { unfold all_numbers, d, slice. cbn [rows cols get]. rewrite R, C. apply forallb_forall. intros j Hj. apply in_seq in Hj. apply forallb_forall. intros i Hi. apply in_seq in Hi. rewrite V by lia. reflexivity. }
  assert (LL : lonlat (transposed (amap SpatialModel.val_of d)) (List.length (SpatialModel.slon f)) (List.length (SpatialModel.slat f)) (seen f n t)).
  { unfold lonlat, transposed, amap, d, slice, seen. cbn [rows cols get]. rewrite R, C.
    destruct (Nat.eqb_spec (List.length (SpatialModel.slon f)) (List.length (SpatialModel.slat f))) as [E|E].
    - left. split; [exact E|]. split; [auto|]. intros i j Hi Hj. rewrite V by lia. cbn [SpatialModel.val_of]. rewrite !andb_true_r. destruct (n =? 1)%nat; reflexivity.
    - right. repeat split; auto. intros i j Hi Hj. rewrite V by lia. cbn [SpatialModel.val_of]. rewrite !andb_false_r. reflexivity. }
  assert (ET : (if DATE then do t0 <- tget (SpatialModel.stime s) (Z.of_nat t); Ok (Some t0) else if (t <? 1)%nat then Ok None else Err IndexError) = Ok (if DATE then Some (nth t ts 0) else None)).
  { destruct DATE.
    - destruct HT as [E1 E2]. rewrite TS, E1. assert (X : atleast_1d (tsqueeze (TArr ts)) = TArr ts) by (destruct ts as [|a [|b q]]; reflexivity). rewrite X. cbn [tget].
      unfold py_get. destruct (Z.ltb_spec (Z.of_nat t) 0); [lia|]. rewrite E2. destruct (Z.ltb_spec (Z.of_nat t) (Z.of_nat n)); [|lia]. destruct (Z.leb_spec 0 (Z.of_nat t)); [|lia]. cbn [andb].
      rewrite Nat2Z.id. destruct (nth_error ts t) eqn:Q0; [|apply nth_error_None in Q0; lia]. rewrite (nth_error_nth _ _ 0 Q0). reflexivity.
    - subst n. destruct (Nat.ltb_spec t 1); [reflexivity|lia]. }
  rewrite ET. cbn [bind]. rewrite AN. cbn [negb]. rewrite L1, L2. rewrite (given_plm _ _ _ _ _ _ _ _ _ EP).
  destruct (stokes_all _ _ _ _ LMAX (Some MM) U h k ll LL G HL HM HU) as (Y & EY & (Y1 & Y2 & _ & _ & Y3 & Y4 & Y5 & Y6 & Y7)). rewrite EY. cbn [bind upto_order] in *.
  eexists. split; [reflexivity|]. cbn [lmax mmax clm slm time month]. split; [exact Y1|]. split; [exact Y2|].
  split; [unfold wf; cbn [lmax mmax clm slm]; rewrite Y1, Y2, Y5; auto|]. split; [exact Y5|]. split; [destruct DATE; reflexivity|]. split; [destruct DATE; reflexivity|].
  intros l m u Hl Hm. apply (Y7 l m u); lia.
Qed.

Lemma flat_stored Y n c s' : depth (clm Y) = Some n -> (mmax Y <= lmax Y)%nat ->
  (forall l m t, (m <= l <= lmax Y)%nat -> (m <= mmax Y)%nat -> (t < n)%nat -> get (clm Y) l m t = c l m t /\ get (slm Y) l m t = s' l m t) ->
  forall t mo, stored (mkflat (lmax Y) (mmax Y) (map fst (lm_loop (lmax Y) (mmax Y))) (map snd (lm_loop (lmax Y) (mmax Y))) (depth (clm Y))
    (map (fun p u => get (clm Y) (fst p) (snd p) u) (lm_loop (lmax Y) (mmax Y))) (map (fun p u => get (slm Y) (fst p) (snd p) u) (lm_loop (lmax Y) (mmax Y))) t mo) (lmax Y) (mmax Y) n c s'.
Proof.
  intros D HM V t mo. unfold stored. cbn [f_l f_m f_depth f_clm f_slm]. set (ps := lm_loop (lmax Y) (mmax Y)).
  assert (CB : combine (map fst ps) (map snd ps) = ps) by (induction ps as [|[a b] q IH]; cbn; [reflexivity|now rewrite IH]).
  rewrite CB, !map_length. split; [exact D|]. split; [apply lm_loop_nodup|]. split.
  - intros l m. unfold ps. rewrite lm_loop_in. lia.
  - do 3 (split; [reflexivity|]). intros p l m u El Em Hu.
    rewrite nth_error_map in El, Em. destruct (nth_error ps p) as [[a b]|] eqn:E; [|discriminate]. cbn in El, Em. injection El as <-. injection Em as <-.
    assert (IN : In (a, b) ps) by (eapply nth_error_In; eauto). unfold ps in IN. rewrite lm_loop_in in IN.
    assert (K : forall g : (nat * nat) -> nat -> R, nth p (map g ps) (fun _ => 0) = g (a, b)).
    { intros g. apply nth_error_nth. rewrite nth_error_map, E. reflexivity. }
    rewrite !K. cbn [fst snd]. apply V; lia.
Qed.

(** ** C111: files with dates.  Every field is integrated on its own (missing cells as zero), the fields are sorted by date, and the file holds every
    coefficient of the triangle once.  [order] is any sorting permutation of the dates. *)
Section Main.
Context (grace : R -> Z) (rd rt : R -> R).
Lemma convert_dated form f n ts LMAX MMAX U h k ll order : grid_file f n -> form <> CAscii ->
  (2 <= LMAX)%nat -> (upto_order MMAX LMAX <= LMAX)%nat -> units_ok U k LMAX (SpatialModel.slat f) ->
  SpatialModel.stime f = TArr ts -> List.length ts = n -> Permutation order (seq 0 n) ->
  exists out, convert_harmonics grace rd rt form true LMAX MMAX U (Some (h, k, ll)) order f = Ok (CArrays out) /\
    f_time out = TArr (map (fun i => nth i ts 0) order) /\ f_month out = TArr (adjust_months (map (fun i => grace (nth i ts 0)) order)) /\
    stored out LMAX (upto_order MMAX LMAX) n
      (fun l m t => coefficient U k LMAX (SpatialModel.slon f) (SpatialModel.slat f) cos l m (seen f n (nth t order 0%nat)))
      (fun l m t => coefficient U k LMAX (SpatialModel.slon f) (SpatialModel.slat f) sin l m (seen f n (nth t order 0%nat))).
Proof.
  intros GF NF HL HM HU ET LT PO. unfold convert_harmonics, convert_fields. set (MM := upto_order MMAX LMAX) in *. pose proof GF as (_ & _ & _ & _ & N & _).
  destruct (prepared f n GF) as (r & s1 & s & E1 & E2 & E3 & L1 & L2 & TS & R & C & D & V). rewrite E1. cbn [bind]. rewrite E2. cbn [bind]. rewrite E3. cbn [bind]. rewrite D, L2.
  destruct (holmes_exists LMAX (SpatialModel.slat f) HL) as (P & Q & EP). rewrite EP. cbn [bind fst].
  pose proof (fun t => convert_field_ok grace true f n ts s P Q LMAX MM U h k ll t GF HL HM HU (conj ET LT) EP L1 L2 TS R C V) as FO.
  destruct (mapM_all (convert_field grace true s P LMAX MM U (Some (h, k, ll))) (seq 0 n)) as (Ys & EYs).
  { intros a Ha. apply in_seq in Ha. destruct (FO a ltac:(lia)) as (Y & EY & _). eauto. }
  rewrite EYs. cbn [bind]. destruct (mapM_nth _ _ _ EYs) as [LY NY]. rewrite seq_length in LY, NY.
  assert (YT : forall t, (t < n)%nat -> let Y := nth t Ys dummy in lmax Y = LMAX /\ mmax Y = MM /\ wf Y /\ single Y (nth t ts 0) (grace (nth t ts 0)) /\
    forall l m u, (m <= l <= LMAX)%nat -> (m <= MM)%nat ->
      get (clm Y) l m u = coefficient U k LMAX (SpatialModel.slon f) (SpatialModel.slat f) cos l m (seen f n t) /\
      get (slm Y) l m u = coefficient U k LMAX (SpatialModel.slon f) (SpatialModel.slat f) sin l m (seen f n t)).
  { intros t Ht. specialize (NY t 0%nat dummy Ht). rewrite seq_nth in NY by lia. cbn [Nat.add] in NY. destruct (FO t Ht) as (Y & EY & A1 & A2 & A3 & A4 & A5 & A6 & A7).
    assert (X : nth t Ys dummy = Y) by congruence. cbv zeta. rewrite X. repeat (split; [assumption|]). split; [|exact A7]. unfold single. auto. }
  destruct (from_list_spec Ys order) as (Y & EY & IL & IM & _ & Y1 & Y2 & Y3 & Y4 & _ & Y5 & Y6 & Y7).
  { intros X. rewrite X in LY. cbn in LY. lia. }
  { intros o Ho. destruct (In_nth _ _ dummy Ho) as (t & Ht & <-). destruct (YT t ltac:(lia)) as (_ & _ & W & SG & _). split; [exact W|]. eauto. }
  { now rewrite LY. }
  rewrite EY. cbn [bind]. rewrite LY in *.
  assert (YL : lmax Y = LMAX). { apply in_map_iff in IL as (o & <- & Ho). destruct (In_nth _ _ dummy Ho) as (t & Ht & <-). apply YT. lia. }
  assert (YM : mmax Y = MM). { apply in_map_iff in IM as (o & <- & Ho). destruct (In_nth _ _ dummy Ho) as (t & Ht & <-). apply YT. lia. }
  assert (OB : forall i, In i order -> (i < n)%nat). { intros i Hi. apply (Permutation_in _ PO) in Hi. apply in_seq in Hi. lia. }
  assert (LO : List.length order = n) by (rewrite (Permutation_length PO); apply seq_length).
  assert (TT : map time_of (map (fun i => nth i Ys dummy) order) = map (fun i => nth i ts 0) order).
  { rewrite map_map. apply map_ext_in. intros i Hi. destruct (YT i (OB i Hi)) as (_ & _ & _ & (_ & X & _) & _). unfold time_of. now rewrite X. }
  assert (TM : map month_of (map (fun i => nth i Ys dummy) order) = map (fun i => grace (nth i ts 0)) order).
  { rewrite map_map. apply map_ext_in. intros i Hi. destruct (YT i (OB i Hi)) as (_ & _ & _ & (_ & _ & X) & _). unfold month_of. now rewrite X. }
  rewrite TT in Y5. rewrite TM in Y6.
  assert (FT : to_nc Y = Ok (mkflat (lmax Y) (mmax Y) (map fst (lm_loop (lmax Y) (mmax Y))) (map snd (lm_loop (lmax Y) (mmax Y))) (depth (clm Y))
    (map (fun p u => get (clm Y) (fst p) (snd p) u) (lm_loop (lmax Y) (mmax Y))) (map (fun p u => get (slm Y) (fst p) (snd p) u) (lm_loop (lmax Y) (mmax Y))) (atleast_1d (time Y)) (atleast_1d (month Y)))).
  { unfold to_nc. rewrite (flatten_ok Y true) by lia. cbn [bind f_lmax f_mmax f_l f_m f_depth f_clm f_slm f_time f_month]. rewrite Y3. reflexivity. }
  assert (RES : (match form with CAscii => do ls <- to_ascii rd rt true Y; Ok (CText ls) | _ => do f0 <- to_nc Y; Ok (CArrays f0) end) = (do f0 <- to_nc Y; Ok (CArrays f0))) by (destruct form; [congruence|reflexivity|reflexivity]).
  cbv beta iota in RES |- *. rewrite RES, FT. cbn [bind]. eexists. split; [reflexivity|]. cbn [f_time f_month].
  split; [rewrite Y5; reflexivity|]. split.
  - rewrite Y6. destruct (adjust_months _) as [|a [|b q]]; reflexivity.
  - rewrite <- YL at 1. rewrite <- YM at 1. apply flat_stored; [exact Y3|lia|]. rewrite YL, YM. intros l m t Hl Hm Ht.
    destruct (Y7 t l m Ht) as [-> ->]; [lia|lia|].
    assert (X : nth t (map (fun i => nth i Ys dummy) order) dummy = nth (nth t order 0%nat) Ys dummy).
    { rewrite (nth_indep (map _ order) dummy ((fun i => nth i Ys dummy) 0%nat)) by (rewrite map_length; lia). apply (map_nth (fun i => nth i Ys dummy)). }
    rewrite X. apply (YT (nth t order 0%nat)); [apply OB, nth_In; lia|lia|lia].
Qed.
Lemma convert_plain form f LMAX MMAX U h k ll order : grid_file f 1 -> form <> CAscii ->
  (2 <= LMAX)%nat -> (upto_order MMAX LMAX <= LMAX)%nat -> units_ok U k LMAX (SpatialModel.slat f) ->
  exists out, convert_harmonics grace rd rt form false LMAX MMAX U (Some (h, k, ll)) order f = Ok (CArrays out) /\
    f_time out = TNone /\ f_month out = TNone /\
    stored out LMAX (upto_order MMAX LMAX) 1
      (fun l m t => coefficient U k LMAX (SpatialModel.slon f) (SpatialModel.slat f) cos l m (fun i j => cell f j i 0))
      (fun l m t => coefficient U k LMAX (SpatialModel.slon f) (SpatialModel.slat f) sin l m (fun i j => cell f j i 0)).
Proof.
  intros GF NF HL HM HU. unfold convert_harmonics, convert_fields. set (MM := upto_order MMAX LMAX) in *.
  destruct (prepared f 1 GF) as (r & s1 & s & E1 & E2 & E3 & L1 & L2 & TS & R & C & D & V). rewrite E1. cbn [bind]. rewrite E2. cbn [bind]. rewrite E3. cbn [bind]. rewrite D, L2.
  destruct (holmes_exists LMAX (SpatialModel.slat f) HL) as (P & Q & EP). rewrite EP. cbn [bind fst].
  destruct (convert_field_ok grace false f 1 [] s P Q LMAX MM U h k ll 0 GF HL HM HU eq_refl EP L1 L2 TS R C V ltac:(lia)) as (Y & EY & A1 & A2 & A3 & A4 & A5 & A6 & A7).
  cbn [seq mapM]. rewrite EY. cbn [bind]. unfold stack. cbn [map list_min fold_left bind List.length nth_error]. rewrite A1, A2.
  set (Z := mkharm LMAX MM _ _ TNone TNone).
  assert (RES : (match form with CAscii => do ls <- to_ascii rd rt false Z; Ok (CText ls) | _ => do f0 <- flatten false Z; Ok (CArrays f0) end) = (do f0 <- flatten false Z; Ok (CArrays f0))) by (destruct form; [congruence|reflexivity|reflexivity]).
  cbv beta iota in RES |- *. rewrite RES, (flatten_ok Z false) by (cbn [Z lmax mmax]; lia). cbn [bind]. eexists. split; [reflexivity|]. split; [reflexivity|]. split; [reflexivity|].
  change LMAX with (lmax Z) at 1. change MM with (mmax Z) at 1. apply flat_stored; [reflexivity|cbn [Z lmax mmax]; lia|].
  cbn [Z lmax mmax clm slm get]. intros l m t Hl Hm Ht. replace t with 0%nat by lia. cbn [nth_error]. apply A7; lia.
Qed.
End Main.

(** ** The properties *)
Notation lon_of := SpatialModel.slon.
Notation lat_of := SpatialModel.slat.

(** Files with dates (netCDF4, HDF5).  [order] is any sorting permutation of the dates (np.argsort): the dates of the output increase, with their month numbers, and
    the coefficients of each date are the integrals of its own field with missing cells as zero, each degree and order once.  For one field, or different numbers of rows and columns *)
Theorem C111_dates : forall grace rd rt form f n ts LMAX MMAX U h k ll order, grid_file f n -> form <> CAscii ->
  (2 <= LMAX)%nat -> (upto_order MMAX LMAX <= LMAX)%nat -> units_ok U k LMAX (lat_of f) ->
  SpatialModel.stime f = TArr ts -> List.length ts = n -> Permutation order (seq 0 n) -> StronglySorted Rle (map (fun i => nth i ts 0) order) ->
  (n = 1%nat \/ List.length (lon_of f) <> List.length (lat_of f)) ->
  exists out ts', convert_harmonics grace rd rt form true LMAX MMAX U (Some (h, k, ll)) order f = Ok (CArrays out) /\
    f_time out = TArr ts' /\ StronglySorted Rle ts' /\ Permutation ts' ts /\ f_month out = TArr (adjust_months (map grace ts')) /\
    (forall t, (t < n)%nat -> nth t ts' 0 = nth (nth t order 0%nat) ts 0) /\
    stored out LMAX (upto_order MMAX LMAX) n
      (fun l m t => coefficient U k LMAX (lon_of f) (lat_of f) cos l m (fun i j => cell f j i (nth t order 0%nat)))
      (fun l m t => coefficient U k LMAX (lon_of f) (lat_of f) sin l m (fun i j => cell f j i (nth t order 0%nat))).
Proof.
  intros grace rd rt form f n ts LMAX MMAX U h k ll order GF NF HL HM HU ET LT PO SO HN.
  destruct (convert_dated grace rd rt form f n ts LMAX MMAX U h k ll order GF NF HL HM HU ET LT PO) as (out & E & T & M & S).
  assert (LO : List.length order = n) by (rewrite (Permutation_length PO); apply seq_length).
  exists out, (map (fun i => nth i ts 0) order). split; [exact E|]. split; [exact T|]. split; [exact SO|]. split.
  - transitivity (map (fun i => nth i ts 0) (seq 0 n)); [now apply Permutation_map|].
    assert (X : map (fun i => nth i ts 0) (seq 0 n) = ts); [|rewrite X; apply Permutation_refl].
    apply (nth_ext _ _ 0 0); [rewrite map_length, seq_length; auto|]. intros i Hi. rewrite map_length, seq_length in Hi.
    rewrite (nth_indep (map _ _) 0 ((fun i => nth i ts 0) 0%nat)) by (rewrite map_length, seq_length; exact Hi). rewrite (map_nth (fun i => nth i ts 0)), seq_nth by exact Hi. reflexivity.
  - split; [rewrite map_map; exact M|]. split.
    + intros t Ht. rewrite (nth_indep (map _ _) 0 ((fun i => nth i ts 0) 0%nat)) by (rewrite map_length; lia). apply (map_nth (fun i => nth i ts 0)).
    + assert (X : forall t, seen f n t = fun i j => cell f j i t).
      { intros t. extensionality i. extensionality j. unfold seen. replace (negb (n =? 1) && (List.length (lon_of f) =? List.length (lat_of f)))%nat with false by (destruct HN; lia). reflexivity. }
      destruct S as (S1 & S2 & S3 & S4 & S5 & S6 & S7). unfold stored. repeat (split; [assumption|]). intros p l m t Hl Hm Ht. destruct (S7 p l m t Hl Hm Ht) as [-> ->]. rewrite X. auto.
Qed.
Print Assumptions C111_dates.

(** a file with one field and no date *)
Theorem C111_undated : forall grace rd rt form f LMAX MMAX U h k ll order, grid_file f 1 -> form <> CAscii ->
  (2 <= LMAX)%nat -> (upto_order MMAX LMAX <= LMAX)%nat -> units_ok U k LMAX (lat_of f) ->
  exists out, convert_harmonics grace rd rt form false LMAX MMAX U (Some (h, k, ll)) order f = Ok (CArrays out) /\ f_time out = TNone /\ f_month out = TNone /\
    stored out LMAX (upto_order MMAX LMAX) 1
      (fun l m _ => coefficient U k LMAX (lon_of f) (lat_of f) cos l m (fun i j => cell f j i 0))
      (fun l m _ => coefficient U k LMAX (lon_of f) (lat_of f) sin l m (fun i j => cell f j i 0)).
Proof. intros. now apply convert_plain. Qed.
Print Assumptions C111_undated.

(** the same field in millimeters (code 3) and in centimeters (code 1) has the same coefficients *)
Theorem C111_units : forall k LMAX lon lat trig l m (D : nat -> nat -> R),
  coefficient (GCode 3) k LMAX lon lat trig l m (fun i j => 10 * D i j) = coefficient (GCode 1) k LMAX lon lat trig l m D.
Proof.
  intros. cbn [coefficient]. assert (X : quad trig lon lat l m (fun i j => 10 * D i j) = 10 * quad trig lon lat l m D).
  { unfold quad, grid_sum. rewrite <- sumn_scal. apply sumn_ext. intros j Hj. rewrite <- sumn_scal. apply sumn_ext. intros i Hi. cbv zeta. ring. }
  rewrite X. field.
Qed.
Print Assumptions C111_units.

(** REFUTED (fields of a file are read as latitude by longitude): with two or more dates and as many rows as columns (for example steps of 1 degree of longitude
    and half a degree of latitude) the coefficients are those of the transposed fields *)
Theorem C111_square_refuted : forall grace rd rt form f n ts LMAX MMAX U h k ll order, grid_file f n -> form <> CAscii ->
  (2 <= LMAX)%nat -> (upto_order MMAX LMAX <= LMAX)%nat -> units_ok U k LMAX (lat_of f) ->
  SpatialModel.stime f = TArr ts -> List.length ts = n -> Permutation order (seq 0 n) ->
  (2 <= n)%nat -> List.length (lon_of f) = List.length (lat_of f) ->
  exists out, convert_harmonics grace rd rt form true LMAX MMAX U (Some (h, k, ll)) order f = Ok (CArrays out) /\
    stored out LMAX (upto_order MMAX LMAX) n
      (fun l m t => coefficient U k LMAX (lon_of f) (lat_of f) cos l m (fun i j => cell f i j (nth t order 0%nat)))
      (fun l m t => coefficient U k LMAX (lon_of f) (lat_of f) sin l m (fun i j => cell f i j (nth t order 0%nat))).
Proof.
  intros grace rd rt form f n ts LMAX MMAX U h k ll order GF NF HL HM HU ET LT PO HN SQ.
  destruct (convert_dated grace rd rt form f n ts LMAX MMAX U h k ll order GF NF HL HM HU ET LT PO) as (out & E & T & M & S).
  exists out. split; [exact E|]. assert (X : forall t, seen f n t = fun i j => cell f i j t).
  { intros t. extensionality i. extensionality j. unfold seen. replace (negb (n =? 1) && (List.length (lon_of f) =? List.length (lat_of f)))%nat with true by lia. reflexivity. }
  destruct S as (S1 & S2 & S3 & S4 & S5 & S6 & S7). unfold stored. repeat (split; [assumption|]). intros p l m t Hl Hm Ht. destruct (S7 p l m t Hl Hm Ht) as [-> ->]. rewrite X. auto.
Qed.
Print Assumptions C111_square_refuted.

(** REFUTED (the documented ascii format): no run with ascii files writes a file *)
Theorem C111_ascii_refuted : forall grace rd rt DATE LMAX MMAX U LOVE order s out,
  convert_fields grace rd rt CAscii DATE LMAX MMAX U LOVE order s <> Ok out.
Proof.
  intros grace rd rt DATE LMAX MMAX U LOVE order s out E. unfold convert_fields in E.
  destruct (SpatialModel.sexpand s) as [s1|]; cbn [bind] in E; [|discriminate]. destruct (SpatialModel.replace_invalid (Some 0) None s1) as [s2|]; cbn [bind] in E; [|discriminate].
  destruct (plm_holmes _ _ _) as [pd|]; cbn [bind] in E; [|discriminate]. destruct (mapM _ _) as [Ys|]; cbn [bind] in E; [|discriminate].
  assert (X : forall Y n, depth (clm Y) = Some n -> (do ls <- to_ascii rd rt DATE Y; Ok (CText ls)) = Err TypeError) by (intros Y n D; unfold to_ascii; rewrite D; reflexivity).
  destruct DATE.
  - unfold from_list in E. destruct (list_min (map lmax Ys)) as [L|]; cbn [bind] in E; [|discriminate]. destruct (list_min (map mmax Ys)) as [M|]; cbn [bind] in E; [|discriminate].
    assert (K : forall objs ord t c d ts ms r, load_list objs ord t c d ts ms = Ok r -> depth (fst (fst (fst r))) = depth c).
    { intros objs ord. induction ord as [|i q IH]; intros t c d ts ms r H; cbn [load_list] in H; [injection H as <-; reflexivity|].
      destruct (nth_error objs i) as [o|]; [|discriminate]. destruct (depth (clm o)); [discriminate|]. destruct (scalar (time o)); cbn [bind] in H; [|discriminate]. destruct (scalar (month o)); cbn [bind] in H; [|discriminate].
      apply IH in H. rewrite H. reflexivity. }
    destruct (load_list _ _ _ _ _ _ _) as [[[[c d] ts] ms]|] eqn:EL; cbn [bind] in E; [|discriminate]. apply K in EL. cbn [fst full depth] in EL. rewrite (X _ (List.length Ys)) in E by (cbn [clm]; exact EL). discriminate.
  - unfold stack in E. destruct (list_min (map lmax Ys)) as [L|]; cbn [bind] in E; [|discriminate]. destruct (list_min (map mmax Ys)) as [M|]; cbn [bind] in E; [|discriminate].
    rewrite (X _ (List.length Ys)) in E by reflexivity. discriminate.
Qed.
Print Assumptions C111_ascii_refuted.

(** REFUTED (files without dates): a file with two or more fields read without dates stops with an index error *)
Theorem C111_fields_refuted : forall grace rd rt form f n LMAX MMAX U h k ll order, grid_file f n -> (2 <= n)%nat -> 
  (2 <= LMAX)%nat -> (upto_order MMAX LMAX <= LMAX)%nat -> units_ok U k LMAX (lat_of f) -> List.length (lon_of f) <> List.length (lat_of f) ->
  convert_harmonics grace rd rt form false LMAX MMAX U (Some (h, k, ll)) order f = Err IndexError.
Proof.
  intros grace rd rt form f n LMAX MMAX U h k ll order GF HN HL HM HU SQ. unfold convert_harmonics, convert_fields.
  destruct (prepared f n GF) as (r & s1 & s & E1 & E2 & E3 & L1 & L2 & TS & R & C & D & V). rewrite E1. cbn [bind]. rewrite E2. cbn [bind]. rewrite E3. cbn [bind]. rewrite D, L2.
  destruct (holmes_exists LMAX (SpatialModel.slat f) HL) as (P & Q & EP). rewrite EP. cbn [bind fst].
  destruct n as [|[|n]]; try lia. cbn [seq mapM].
  destruct (convert_field grace false s P LMAX (upto_order MMAX LMAX) U (Some (h, k, ll)) 0) as [Y|e] eqn:F0.
  - cbn [bind]. reflexivity.
  - exfalso. revert F0. unfold convert_field. cbn [Nat.ltb Nat.leb bind]. set (d := slice (SpatialModel.sdata s) 0).
    assert (AN : all_numbers d = true).
    { unfold all_numbers, d, slice. cbn [rows cols get]. rewrite R, C. apply forallb_forall. intros j Hj. apply in_seq in Hj. apply forallb_forall. intros i Hi. apply in_seq in Hi. rewrite V by lia. reflexivity. }
    rewrite AN. cbn [negb]. rewrite L1, L2, (given_plm _ _ _ _ _ _ _ _ _ EP).
    destruct (stokes_all (transposed (amap SpatialModel.val_of d)) (lon_of f) (lat_of f) (fun i j => cell f j i 0) LMAX (Some (upto_order MMAX LMAX)) U h k ll) as (Y & EY & _); try assumption; try apply GF.
    + right. unfold transposed, amap, d, slice. cbn [rows cols get]. rewrite R, C. repeat split; auto. intros i j Hi Hj. rewrite V by lia. cbn [SpatialModel.val_of Nat.eqb andb]. reflexivity.
    + rewrite EY. cbn [bind]. discriminate.
Qed.
Print Assumptions C111_fields_refuted.

(** two dates in reverse order on a grid with poles and a missing cell (fill value -999) *)
Definition ex_file : SpatialModel.sp :=
  SpatialModel.mksp (mkarr 3 4 (Some 2%nat) (fun j i t => Some (if ((j =? 1) && (i =? 1) && (t =? 0))%nat then -999 else 1))) (mkarr 3 4 (Some 2%nat) (fun _ _ _ => false)) None
    [0; 90; 180; 270] [90; 0; -90] (TArr [2005; 2004]) TNone (Some (Some (-999))).
Example C111_nonvacuous : grid_file ex_file 2 /\ units_ok (GCustom [1; 1; 1]) [] 2 (lat_of ex_file) /\ Permutation [1; 0]%nat (seq 0 2) /\
  StronglySorted Rle (map (fun i => nth i [2005; 2004] 0) [1; 0]%nat) /\ List.length (lon_of ex_file) <> List.length (lat_of ex_file) /\
  cell ex_file 1 1 0 = 0 /\ cell ex_file 1 1 1 = 1 /\ coefficient (GCustom [1; 1; 1]) [] 2 (lon_of ex_file) (lat_of ex_file) cos 0 0 (fun i j => cell ex_file j i 1) = PI * PI.
Proof.
  split; [|split; [|split; [|split; [|split; [|split; [|split]]]]]].
  - unfold grid_file, grid_ok, ex_file. cbn [SpatialModel.slon SpatialModel.slat SpatialModel.sdata SpatialModel.sfill rows cols depth List.length]. repeat split; try lia; try discriminate. repeat constructor; lra.
  - cbn. lia.
  - cbn. constructor.
  - cbn. repeat constructor; lra.
  - cbn. lia.
  - unfold cell, ex_file. cbn. destruct (Req_EM_T (-999) (-999)); [reflexivity|congruence].
  - unfold cell, ex_file. cbn. destruct (Req_EM_T 1 (-999)); [lra|reflexivity].
  - assert (X : (fun i j => cell ex_file j i 1) = fun _ _ => 1).
    { extensionality i. extensionality j. unfold cell, ex_file. cbn [SpatialModel.sdata get SpatialModel.sfill]. rewrite andb_false_r. destruct (Req_EM_T 1 (-999)); [lra|reflexivity]. }
    rewrite X. cbn [coefficient nth]. pose proof C47_example as (_ & _ & E). cbv zeta in E. rewrite Rmult_1_l. exact E.
Qed.
