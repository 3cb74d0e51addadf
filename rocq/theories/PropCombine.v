(** C98: the maps of combine_harmonics (model: MapsModel.v, lemmas: MapsProofs.v, PropMaps.v). *)
From Coq Require Import Reals Lra Lia String Sorting.Sorted ZifyBool ZifyNat.
From Coquelicot Require Import Coquelicot.
From Verif Require Import FourierGenProofs Base UnitsModel PropUnits GaussModel PropGauss LegendreModel LegendreSpec2 DestripeModel DestripeProofs SummationModel SummationProofs PropFactors GenModel MasconModel PropLegendre PropSummation
  PropSmoothMap Parseval PropMascon PropSmooth PropSlr Arr HarmModel HarmProofs HarmProofs2 HarmProofs3 MapsModel MapsProofs PropMaps.
Close Scope Z_scope.
Close Scope string_scope.
Open Scope R_scope.

(** ** Specification *)
(** the input: n dated fields; or one field, dated or not (then n = 1).  [field_no h t] are the coefficients of field t, zero beyond its degree and order *)
Definition input_ok (h : harm) (n : nat) : Prop :=
  wf h /\ ((exists ts ms, depth (clm h) = Some n /\ time h = TArr ts /\ month h = TArr ms) \/
           (depth (clm h) = None /\ n = 1%nat /\ ((time h = TNone /\ month h = TNone) \/ exists t m, time h = TScalar t /\ month h = TScalar m))).
(** the mean and the ocean function are single fields *)
Definition single (h : harm) : Prop := wf h /\ depth (clm h) = None.
Definition crun_ok (r : crun) (n : nat) : Prop :=
  (2 <= c_lmax r)%nat /\ (c_mmax r = None \/ c_mmax r = Some (c_lmax r)) /\ input_ok (c_input r) n /\
  (forall m, c_mean r = Some m -> c_index r = false /\ single m) /\
  (forall o, c_ocean r = Some o -> single o /\ lmax o = c_lmax r /\ mmax o = c_lmax r) /\
  radius_ok (c_rad r) /\ love_ok (c_love r) (c_lmax r) /\ (exists name, unit_code (c_units r) name).
(** the field that is mapped: input less mean; its total mass goes into the ocean; filter *)
Definition less_mean (r : crun) (t : nat) : coefs := fun cs l m =>
  part (c_input r) t cs l m - match c_mean r with Some f => part f 0 cs l m | None => 0 end.
Definition conserved (r : crun) (t : nat) : coefs := fun cs l m =>
  less_mean r t cs l m - match c_ocean r with Some o => less_mean r t false 0%nat 0%nat / part o 0 false 0%nat 0%nat * part o 0 cs l m | None => 0 end.
Definition mapped (r : crun) (t : nat) : coefs := maybe_destriped (c_destripe r) (c_lmax r) (c_lmax r) (conserved r t).

(** ** Proofs *)
(** with dates: the steps *)
Lemma trunc_holds h n ts ms L M : wf h -> depth (clm h) = Some n -> time h = TArr ts -> month h = TArr ms -> (1 <= M)%nat ->
  holds L M n ts ms (part h) (truncate h (Some L) 0 (Some M)).
Proof.
  intros (W1 & W2 & (U1 & U2 & U3) & W4) D T N HM. rewrite D in W4. destruct W4 as (ts' & ms' & T' & N' & L1 & L2). rewrite T in T'. rewrite N in N'. injection T' as <-. injection N' as <-.
  unfold truncate. replace (M =? 0)%nat with false by lia.
  constructor; cbn [lmax mmax clm slm trunc_arr set_block full rows cols depth time month]; auto; try congruence.
  - repeat split; cbn [trunc_arr set_block full rows cols depth]; congruence.
  - intros t cs l m Ht Hl Hm. unfold part.
    assert (B : ((l <? (if (L <? lmax h)%nat then L + 1 else lmax h + 1)) && (m <? (if (M <? mmax h)%nat then M + 1 else mmax h + 1)))%nat = ((l <=? lmax h) && (m <=? mmax h))%nat)
      by (destruct (Nat.ltb_spec L (lmax h)), (Nat.ltb_spec M (mmax h)); lia).
    destruct cs; cbn [chan slm clm]; rewrite trunc_val by lia; rewrite B; reflexivity.
Qed.
(** the same object with made-up dates *)
Definition set_dates (h : harm) (n : nat) : harm := mkharm (lmax h) (mmax h) (clm h) (slm h) (TArr (repeat 0 n)) (TArr (repeat 0%Z n)).
Definition dates (h : harm) (n : nat) : Prop :=
  (exists ts ms, time h = TArr ts /\ month h = TArr ms /\ List.length ts = n /\ List.length ms = n) \/ (n = 1%nat /\ time h = TNone /\ month h = TNone).
Definition holdsC (L M n : nat) (Y : nat -> coefs) (h : harm) : Prop := holds L M n (repeat 0 n) (repeat 0%Z n) Y (set_dates h n) /\ dates h n.

Lemma prepared h n L M : input_ok h n -> (1 <= M)%nat -> holdsC L M n (part h) (expand_dims (truncate h (Some L) 0 (Some M))).
Proof.
  intros [W [(ts & ms & D & T & N)|(D & -> & TN)]] HM.
  - pose proof (trunc_holds h n ts ms L M W D T N HM) as K. destruct K as [K1 K2 K3 K4 K5 K6 K7 K8 K9 K10 K11]. set (y := truncate h (Some L) 0 (Some M)) in *.
    assert (E1 : aexpand (clm y) = clm y) by (unfold aexpand; rewrite K6; reflexivity).
    assert (E2 : aexpand (slm y) = slm y) by (destruct K5 as (_ & _ & K5); assert (K5' : depth (slm y) = Some n) by congruence; unfold aexpand; rewrite K5'; reflexivity).
    unfold expand_dims. rewrite E1, E2, K7, K8. cbn [atleast_1d]. split.
    + constructor; cbn [set_dates lmax mmax clm slm time month]; auto using repeat_length.
    + left. exists ts, ms. auto.
  - split.
    + destruct W as (W1 & W2 & (U1 & U2 & U3) & _). unfold truncate. replace (M =? 0)%nat with false by lia.
      assert (D2 : depth (slm h) = None) by congruence.
      constructor; cbn [set_dates expand_dims lmax mmax clm slm time month]; unfold aexpand; cbn [trunc_arr set_block full rows cols depth]; rewrite ?D, ?D2; cbn [trunc_arr set_block full rows cols depth]; auto.
      * repeat split.
      * intros t cs l m Ht Hl Hm. unfold part.
        assert (B : ((l <? (if (L <? lmax h)%nat then L + 1 else lmax h + 1)) && (m <? (if (M <? mmax h)%nat then M + 1 else mmax h + 1)))%nat = ((l <=? lmax h) && (m <=? mmax h))%nat)
          by (destruct (Nat.ltb_spec L (lmax h)), (Nat.ltb_spec M (mmax h)); lia).
        replace t with 0%nat by lia. rewrite <- B. clear B.
        destruct cs; cbn [chan slm clm set_dates expand_dims]; unfold aexpand; cbn [trunc_arr set_block full depth]; rewrite ?D, ?D2; reflexivity.
    + destruct TN as [[T N]|(t & m & T & N)]; [right|left]; cbn [expand_dims truncate time month]; rewrite T, N; [auto|]. exists [t], [m]. auto.
Qed.
Lemma n_times_ok h n : dates h n -> n_times h = n.
Proof. intros [(ts & ms & T & _ & L & _)|(-> & T & _)]; unfold n_times; rewrite T; auto. Qed.
Lemma minus_ok L M n Y h ix m : holdsC L M n Y h -> (forall f, m = Some f -> ix = false /\ single f) ->
  exists r, minus_mean ix h m = Ok r /\ holdsC L M n (fun t cs l k => Y t cs l k - match m with Some f => part f 0 cs l k | None => 0 end) r.
Proof.
  intros [H Hd] Hm. destruct m as [f|].
  - destruct (Hm f eq_refl) as [-> [Wf Df]]. unfold minus_mean. rewrite Df. destruct H as [H1 H2 H3 H4 H5 H6 H7 H8 H9 H10 H11]. cbn [set_dates lmax mmax clm slm] in *. destruct H5 as (U1 & U2 & U3).
    rewrite (n_times_ok _ _ Hd). unfold loop_op. assert (D2 : depth (slm h) = Some n) by congruence. rewrite H6, D2, Nat.leb_refl. cbn [bind]. eexists. split; [reflexivity|]. split; [|exact Hd].
    constructor; cbn [set_dates lmax mmax clm slm rows cols depth time month]; auto using repeat_length; [repeat split; cbn [rows cols depth]; congruence|].
    intros t cs l k Ht Hl Hk. rewrite <- H11 by assumption. unfold part, common. rewrite H1, H2.
    assert (B : ((l <? (if (L <? lmax f)%nat then L + 1 else lmax f + 1)) && (k <? (if (M <? mmax f)%nat then M + 1 else mmax f + 1)) && (t <? n))%nat = ((l <=? lmax f) && (k <=? mmax f))%nat)
      by (destruct (Nat.ltb_spec L (lmax f)), (Nat.ltb_spec M (mmax f)); lia).
    destruct cs; cbn [chan slm clm get set_dates]; rewrite B; destruct ((l <=? lmax f) && (k <=? mmax f))%nat; ring.
  - exists h. split; [reflexivity|]. split; [|exact Hd]. eapply holds_ext; [exact H|]. intros. ring.
Qed.
Lemma spread_dates L M o h n : spread_mass L M o (set_dates h n) = match spread_mass L M o h with Ok r => Ok (set_dates r n) | Err e => Err e end.
Proof. unfold spread_mass. cbn [set_dates clm slm lmax mmax]. destruct (depth (clm h)); reflexivity. Qed.
Lemma destripe_dates h n : destripe (set_dates h n) = match destripe h with Ok r => Ok (set_dates r n) | Err e => Err e end.
Proof.
  unfold destripe. cbn [set_dates clm slm lmax mmax]. destruct (depth (clm h)) as [k|].
  - destruct (mapM _ (seq 0 k)); reflexivity.
  - destruct (destripe_harmonics _ _ _ _ _ _); reflexivity.
Qed.
Lemma spread_time L M o h r : spread_mass L M o h = Ok r -> time r = time h /\ month r = month h.
Proof. unfold spread_mass. destruct (depth (clm h)); [|discriminate]. intros E. injection E as <-. auto. Qed.
Lemma destripe_time h r : destripe h = Ok r -> time r = time h /\ month r = month h.
Proof.
  unfold destripe. destruct (depth (clm h)) as [k|].
  - destruct (mapM _ (seq 0 k)); cbn [bind]; [|discriminate]. intros E. injection E as <-. auto.
  - destruct (destripe_harmonics _ _ _ _ _ _); cbn [bind]; [|discriminate]. intros E. injection E as <-. auto.
Qed.
Lemma dates_eq a b n : time a = time b -> month a = month b -> dates b n -> dates a n.
Proof. unfold dates. intros -> ->. auto. Qed.
Lemma spreadC L M n Y h o : holdsC L M n Y h -> (forall f, o = Some f -> single f /\ lmax f = L /\ mmax f = M) ->
  exists r, match o with Some f => spread_mass L M f h | None => Ok h end = Ok r /\
    holdsC L M n (fun t cs l m => Y t cs l m - match o with Some f => Y t false 0%nat 0%nat / part f 0 false 0%nat 0%nat * part f 0 cs l m | None => 0 end) r.
Proof.
  intros [H Hd] Ho. destruct o as [f|].
  - destruct (Ho f eq_refl) as ([Wf Df] & Lf & Mf). destruct (spread_ok _ _ _ _ _ _ _ f H Wf Df Lf Mf) as (r & E & K). rewrite spread_dates in E.
    destruct (spread_mass L M f h) as [q|] eqn:Q; [|discriminate]. injection E as <-. exists q. split; [reflexivity|]. destruct (spread_time _ _ _ _ _ Q) as [T N]. split; [exact K|]. apply (dates_eq _ h); auto.
  - exists h. split; [reflexivity|]. split; [|exact Hd]. eapply holds_ext; [exact H|]. intros. ring.
Qed.
Lemma destripeC (d : bool) L M n Y h : holdsC L M n Y h -> (1 <= L)%nat ->
  exists r, (if d then destripe h else Ok h) = Ok r /\ holdsC L M n (fun t => maybe_destriped d L M (Y t)) r.
Proof.
  intros [H Hd] HL. destruct (maybe_destripe_ok d _ _ _ _ _ _ _ H HL) as (r & E & K). destruct d.
  - rewrite destripe_dates in E. destruct (destripe h) as [q|] eqn:Q; [|discriminate]. injection E as <-. exists q. split; [reflexivity|]. destruct (destripe_time _ _ Q) as [T N]. split; [exact K|]. apply (dates_eq _ h); auto.
  - exists h. split; [reflexivity|]. injection E as <-. split; auto.
Qed.
(** one month *)
Definition set_date (h : harm) : harm := mkharm (lmax h) (mmax h) (clm h) (slm h) (TScalar 0) (TScalar 0%Z).
Lemma monthC L M n Y h t : holdsC L M n Y h -> (t < n)%nat -> exists y, month_of h t = Ok y /\ holds1 L M 0 0%Z (Y t) (set_date y).
Proof.
  intros [H Hd] Ht. destruct H as [H1 H2 H3 H4 (U1 & U2 & U3) H6 _ _ _ _ H11]. cbn [set_dates lmax mmax clm slm] in *.
  assert (K : forall a b, holds1 L M 0 0%Z (Y t) (set_date (mkharm (lmax h) (mmax h) (slice (clm h) t) (slice (slm h) t) a b))).
  { intros a b. constructor; cbn [set_date lmax mmax clm slm slice rows cols depth time month]; auto; [repeat split; assumption|].
    intros cs l m Hl Hm. rewrite <- H11 by assumption. destruct cs; reflexivity. }
  unfold month_of. destruct Hd as [(ts & ms & T & N & L1 & L2)|(-> & T & N)].
  - rewrite T. rewrite (index_spec h n ts ms t) by auto. eexists. split; [reflexivity|]. apply K.
  - rewrite T. replace (t =? 0)%nat with true by lia. eexists. split; [reflexivity|]. apply K.
Qed.
Lemma convolveC L M Y h f : holds1 L M 0 0%Z Y (set_date h) -> (L < List.length f)%nat ->
  exists r, convolve h f = Ok r /\ holds1 L M 0 0%Z (fun cs l m => nth l f 0 * Y cs l m) (set_date r).
Proof.
  intros H Hf. destruct (convolve_ok _ _ _ _ _ _ f H Hf) as (r & E & K). pose proof (s_depth _ _ _ _ _ _ H) as D. unfold convolve in *. cbn [set_date clm slm lmax mmax time month] in *. rewrite D in *.
  destruct (List.length f <? lmax h + 1)%nat; [discriminate|]. injection E as <-. eexists. split; [reflexivity|]. exact K.
Qed.

Section Combine.
Context (r : crun) (n : nat) (V : crun_ok r n).
Let L := c_lmax r.
(** everything before the grid *)
Lemma coefficients_ok : exists h, (do h <- minus_mean (c_index r) (expand_dims (truncate (c_input r) (Some L) 0 (Some L))) (c_mean r);
    do h <- match c_ocean r with Some o => spread_mass L L o h | None => Ok h end;
    (if c_destripe r then destripe h else Ok h)) = Ok h /\ holdsC L L n (mapped r) h.
Proof.
  destruct V as (HL & _ & Hi & Hm & Ho & _). fold L in HL, Ho. pose proof (prepared (c_input r) n L L Hi ltac:(lia)) as K0.
  destruct (minus_ok _ _ _ _ _ (c_index r) (c_mean r) K0 Hm) as (h1 & E1 & K1). rewrite E1. cbn [bind].
  destruct (spreadC _ _ _ _ _ (c_ocean r) K1 Ho) as (h2 & E2 & K2). rewrite E2. cbn [bind].
  destruct (destripeC (c_destripe r) _ _ _ _ _ K2 ltac:(lia)) as (h3 & E3 & K3). exists h3. split; [exact E3|]. exact K3.
Qed.
Lemma order_L : match c_mmax r with Some k => k | None => L end = L.
Proof. destruct V as (_ & [H|H] & _); rewrite H; reflexivity. Qed.
Lemma bind_assoc2 {A B C D : Type} (a : res A) (f : A -> res B) (g : B -> res C) (k : C -> res D) :
  (do x <- a; do y <- f x; do z <- g y; k z) = (do z <- (do x <- a; do y <- f x; g y); k z).
Proof. destruct a as [x|]; [|reflexivity]. cbn [bind]. destruct (f x); reflexivity. Qed.

Lemma combine_ok lon lat wt df s : smoothing (c_rad r) L = Ok wt -> List.length wt = (L + 1)%nat ->
  degree_factor L (UCode (c_units r)) (Some (c_love r)) = Ok df -> List.length df = (L + 1)%nat ->
  spacing_of (c_ddeg r) = Ok s -> (c_interval r = 1 \/ c_interval r = 2 \/ c_interval r = 3)%Z -> grid_axes 0 (c_interval r) (fst s) (snd s) (c_bounds r) = Ok (lon, lat) ->
  List.length lon <> 1%nat -> List.length lat <> 1%nat ->
  exists maps, combine_harmonics r = Ok (lon, lat, maps) /\ List.length maps = n /\
    forall t, (t < n)%nat -> exists g, nth_error maps t = Some g /\ rows g = List.length lat /\ cols g = List.length lon /\ depth g = None /\
      forall i k x y, nth_error lon i = Some x -> nth_error lat k = Some y -> -90 < y < 90 ->
        get g k i 0 = series (fun l m => nth l df 0 * nth l wt 0 * mapped r t false l m) (fun l m => nth l df 0 * nth l wt 0 * mapped r t true l m) 0 L L (colat y) (deg x).
Proof.
  intros Ew Lw Ed Ld Es Ei Eg Nlon Nlat. unfold combine_harmonics. cbv zeta. fold L. rewrite order_L. rewrite bind_assoc2.
  destruct coefficients_ok as (h & E1 & K1). rewrite E1. cbn [bind]. rewrite Ew. cbn [bind]. rewrite Es. cbn [bind].
  replace (negb ((c_interval r =? 1) || (c_interval r =? 2) || (c_interval r =? 3))%Z) with false by lia. rewrite Eg. cbn [bind]. rewrite Ed. cbn [bind].
  assert (HL : (2 <= L)%nat) by apply V.
  destruct (holmes_rows L (map (fun x => cos (colat x)) lat) HL) as (P & D & EP & _). rewrite EP. cbn [bind fst].
  destruct (mul_ok df wt (L + 1) Ld Lw) as (f & Ef & Lf & Vf).
  assert (N1 : nslice (clm h) = n). { destruct K1 as [K1 _]. pose proof (o_depth _ _ _ _ _ _ _ K1) as Q. cbn [set_dates clm] in Q. unfold nslice. rewrite Q. reflexivity. }
  rewrite N1.
  set (F := fun t => bind _ _).
  assert (G : forall t, (t < n)%nat -> exists g, F t = Ok g /\ rows g = List.length lat /\ cols g = List.length lon /\ depth g = None /\
      forall i k x y, nth_error lon i = Some x -> nth_error lat k = Some y -> -90 < y < 90 ->
        get g k i 0 = series (fun l m => nth l df 0 * nth l wt 0 * mapped r t false l m) (fun l m => nth l df 0 * nth l wt 0 * mapped r t true l m) 0 L L (colat y) (deg x)).
  { intros t Ht. unfold F. destruct (monthC _ _ _ _ _ t K1 Ht) as (y1 & A1 & B1). rewrite A1. cbn [bind]. rewrite Ef. cbn [bind].
    destruct (convolveC _ _ _ _ f B1 ltac:(lia)) as (y2 & A2 & B2). rewrite A2. cbn [bind].
    destruct (map_ok _ _ _ _ _ _ 0 lon lat P D B2 HL (le_n _) Nlon Nlat EP) as (out & A3 & B3). cbn [set_date clm slm] in A3.
    assert (A4 : harmonic_summation (clm y2) (slm y2) lon lat 0 L None (Some P) = Ok out).
    { rewrite <- A3. unfold harmonic_summation. pose proof (s_rows _ _ _ _ _ _ B2) as Q. cbn [set_date clm] in Q. unfold eff_lmax. replace (L =? 0)%nat with false by lia. cbv zeta.
      cbn [upto_order]. reflexivity. }
    rewrite A4. cbn [bind]. destruct K1 as [_ Hd]. rewrite (n_times_ok _ _ Hd). replace (t <? n)%nat with true by lia. eexists. split; [reflexivity|]. do 3 (split; [reflexivity|]).
    intros i k x y Hx Hy Hr. rewrite (B3 i k x y Hx Hy Hr). apply series_tri. intros l m Hl Hm. rewrite Vf by lia. split; ring. }
  destruct (mapM_all F (seq 0 n)) as (maps & E6). { intros i Hi. apply in_seq in Hi. destruct (G i ltac:(lia)) as (g & Eg' & _). eexists. exact Eg'. }
  rewrite E6. cbn [bind]. exists maps. split; [reflexivity|]. destruct (mapM_nth _ _ _ E6) as [Lm Vm]. rewrite seq_length in *. split; [exact Lm|].
  intros t Ht. destruct (G t Ht) as (g & Eg' & Q). exists g. split; [|exact Q].
  specialize (Vm t 0%nat g Ht). rewrite seq_nth in Vm by exact Ht. cbn [Nat.add] in Vm. rewrite Eg' in Vm. injection Vm as Vm.
  rewrite (nth_error_nth' maps (n := t) g) by lia. f_equal. symmetry. exact Vm.
Qed.
End Combine.

(** the integral of a field over the sphere is 4 pi times its coefficient of degree and order 0 *)
Definition unit00 : nat -> nat -> R := fun l m => if ((l =? 0) && (m =? 0))%nat then 1 else 0.
Lemma series_unit L M t p : series unit00 (fun _ _ => 0) 0 L M t p = 1.
Proof.
  unfold series. rewrite Nat.add_comm. cbn [Nat.add]. rewrite LegendreFourier.sumn_first. rewrite (LegendreFourier.sumn_all0 M).
  - rewrite Nat.add_comm. cbn [Nat.add]. rewrite LegendreFourier.sumn_first. rewrite (LegendreFourier.sumn_all0 L).
    + cbn [Nat.leb unit00 Nat.eqb andb INR]. rewrite Rmult_0_l, cos_0, Nlm_NU, NU_0_0. ring.
    + intros l _. unfold unit00. cbn [Nat.leb Nat.eqb andb]. ring.
  - intros m _. apply LegendreFourier.sumn_all0. intros l _. unfold unit00. cbn [Nat.leb Nat.eqb]. rewrite Bool.andb_false_r. ring.
Qed.
Lemma series_integral c s L M : sphere_integral (series c s 0 L M) (4 * PI * c 0%nat 0%nat).
Proof.
  destruct (Parseval.parseval c s unit00 (fun _ _ => 0) 0 L M) as [A B].
  assert (E : Parseval.pairing c s unit00 (fun _ _ => 0) 0 L M = c 0%nat 0%nat).
  { unfold Parseval.pairing. rewrite Nat.add_comm. cbn [Nat.add]. rewrite LegendreFourier.sumn_first. rewrite (LegendreFourier.sumn_all0 M).
    - rewrite Nat.add_comm. cbn [Nat.add]. rewrite LegendreFourier.sumn_first. rewrite (LegendreFourier.sumn_all0 L).
      + cbn [Nat.leb unit00 Nat.eqb andb]. ring.
      + intros l _. unfold unit00. cbn [Nat.leb Nat.eqb andb]. ring.
    - intros m _. apply LegendreFourier.sumn_all0. intros l _. unfold unit00. cbn [Nat.eqb]. rewrite Bool.andb_false_r. match goal with |- (if ?b then _ else _) = _ => destruct b; ring end. }
  rewrite E in B. split.
  - intros t Ht. destruct (A t Ht) as [v Iv]. exists v. eapply is_RInt_ext; [|exact Iv]. intros p _. cbv beta. rewrite series_unit. rewrite Rmult_1_r. reflexivity.
  - eapply is_RInt_ext; [|exact B]. intros t _. cbv beta. f_equal. apply RInt_ext. intros p _. rewrite series_unit. apply Rmult_1_r.
Qed.

Lemma jekeli_0 b RAD : half_weight b RAD -> jekeli b 0 = 1.
Proof.
  intros H. assert (Hb : 0 < b).
  { unfold half_weight in H. apply (f_equal ln) in H. rewrite ln_exp in H. replace (1 / 2) with (/ 2) in H by lra. rewrite ln_Rinv in H by lra.
    assert (0 < ln 2) by (rewrite <- ln_1; apply ln_increasing; lra). pose proof (COS_bound (RAD / 6371)). destruct (Rlt_or_le 0 b) as [Q|Q]; [exact Q|]. nra. }
  unfold jekeli. rewrite <- (GaussProofs.W_jekeli b 0 Hb). apply GaussProofs.W_0.
Qed.

(** ** C98 *)
(** a field F on the sphere (colatitude, longitude in radians) is the map of Y: the sum of all harmonics to degree LMAX with the factor of the unit and the weight of the smoothing *)
Definition shows (r : crun) (Y : coefs) (F : R -> R -> R) : Prop :=
  exists f w, (forall l, (l <= c_lmax r)%nat -> unit_factor (c_units r) (c_love r) l (f l) /\ gauss_weight (c_rad r) l (w l)) /\
    F = series (fun l m => f l * w l * Y false l m) (fun l m => f l * w l * Y true l m) 0 (c_lmax r) (c_lmax r).
(** one map per input field; the value at a point of the grid (away from the poles) is the value of the mapped field there *)
Theorem C98_maps : forall r n lon lat, crun_ok r n ->
  grid_of 0 (c_ddeg r) (c_interval r) (c_bounds r) lon lat -> List.length lon <> 1%nat -> List.length lat <> 1%nat ->
  exists maps, combine_harmonics r = Ok (lon, lat, maps) /\ List.length maps = n /\
    forall t, (t < n)%nat -> exists g F, nth_error maps t = Some g /\ rows g = List.length lat /\ cols g = List.length lon /\ depth g = None /\ shows r (mapped r t) F /\
      forall i k x y, nth_error lon i = Some x -> nth_error lat k = Some y -> -90 < y < 90 -> get g k i 0 = F (colat y) (deg x).
Proof.
  intros r n lon lat V (dlon & dlat & Hs & Ha) N1 N2. pose proof V as (HL & _ & _ & _ & _ & HR & HLv & name & HU).
  destruct (factors_all _ _ _ _ HU HLv) as (df & Ed & Ld & Vd). destruct (weights_all (c_rad r) (c_lmax r) ltac:(lia) HR) as (wt & Ew & Lw & Vw).
  assert (Hi : (c_interval r = 1 \/ c_interval r = 2 \/ c_interval r = 3)%Z) by (inversion Ha; auto).
  destruct (combine_ok r n V lon lat wt df _ Ew Lw Ed Ld (steps_ok _ _ _ Hs) Hi (axes_ok _ _ _ _ _ _ _ Ha) N1 N2) as (maps & E & Lm & Q). exists maps. split; [exact E|]. split; [exact Lm|].
  intros t Ht. destruct (Q t Ht) as (g & G1 & G2 & G3 & G4 & G5).
  eexists. eexists. split; [exact G1|]. do 3 (split; [assumption|]). split; [exists (fun l => nth l df 0), (fun l => nth l wt 0); split; [intros l Hl; split; auto|reflexivity]|].
  intros i k x y Hx Hy Hr. apply (G5 i k x y Hx Hy Hr).
Qed.
Print Assumptions C98_maps.

(** with redistribution every mapped field has zero total over the sphere: the mass of the input is balanced by a layer of water over the ocean, whatever the
    unit, the smoothing and the filter; without it the total is that of the input less the mean *)
Theorem C98_total : forall r n t F, crun_ok r n -> shows r (mapped r t) F ->
  (forall o, c_ocean r = Some o -> part o 0 false 0%nat 0%nat <> 0 -> sphere_integral F 0) /\
  (c_ocean r = None -> exists f, unit_factor (c_units r) (c_love r) 0 f /\ sphere_integral F (4 * PI * (f * less_mean r t false 0%nat 0%nat))).
Proof.
  intros r n t F V (f & w & Hf & ->). pose proof (series_integral (fun l m => f l * w l * mapped r t false l m) (fun l m => f l * w l * mapped r t true l m) (c_lmax r) (c_lmax r)) as I0.
  pose proof V as (HL & _).
  assert (M0 : mapped r t false 0%nat 0%nat = conserved r t false 0%nat 0%nat).
  { unfold mapped, maybe_destriped. destruct (c_destripe r); [|reflexivity]. rewrite destriped_val by lia. unfold destripe1. cbn [get matrix]. rewrite Bool.andb_comm. reflexivity. }
  cbv beta in I0. rewrite M0 in I0. unfold conserved in I0. split.
  - intros o Ho N. rewrite Ho in I0. replace (less_mean r t false 0%nat 0%nat - less_mean r t false 0%nat 0%nat / part o 0 false 0%nat 0%nat * part o 0 false 0%nat 0%nat) with 0 in I0 by (field; exact N).
    rewrite !Rmult_0_r in I0. exact I0.
  - intros Ho. rewrite Ho in I0. exists (f 0%nat). destruct (Hf 0%nat ltac:(lia)) as [U W]. split; [exact U|].
    assert (W1 : w 0%nat = 1). { destruct W as [[_ W]|(_ & b & HW & W)]; [exact W|]. rewrite W. cbn [Nat.leb]. apply (jekeli_0 _ _ HW). }
    rewrite W1, Rmult_1_r, Rminus_0_r in I0. exact I0.
Qed.
Print Assumptions C98_total.

(** smoothing is a Gaussian average of the unsmoothed field over the sphere (as long as no weight is at its floor) *)
Theorem C98_smooth : forall r Y F b, shows r Y F -> / 10 ^ 10 <= c_rad r -> cos (c_rad r / 6371) <> 1 -> half_weight b (c_rad r) ->
  (forall l, (2 <= l <= c_lmax r)%nat -> 2 * PI / 10 ^ 10 <= jekeli b l) ->
  exists f, (forall l, (l <= c_lmax r)%nat -> unit_factor (c_units r) (c_love r) l (f l)) /\
    forall th phi, 0 <= th <= PI -> sphere_average (gauss_kernel b) (series (fun l m => f l * Y false l m) (fun l m => f l * Y true l m) 0 (c_lmax r) (c_lmax r)) th phi (F th phi).
Proof.
  intros r Y F b (f & w & Hf & ->) HR HC HW HF. exists f. split; [intros l Hl; apply Hf; exact Hl|]. intros th phi Ht.
  assert (W : forall l, (l <= c_lmax r)%nat -> w l = jekeli b l).
  { intros l Hl. destruct (Hf l Hl) as [_ [[Q1 _]|(_ & b' & HW' & ->)]]; [lra|]. rewrite (half_unique _ _ HC HW'), <- (half_unique _ _ HC HW). destruct (Nat.leb_spec l 1); [reflexivity|]. apply Rmax_left. apply HF. lia. }
  rewrite (series_ext2 _ _ (fun l m => jekeli b l * (f l * Y false l m)) (fun l m => jekeli b l * (f l * Y true l m))).
  2:{ intros l m Hl Hm. rewrite W by exact Hl. split; ring. }
  apply (series_average b (fun l m => f l * Y false l m) (fun l m => f l * Y true l m)). exact Ht.
Qed.
Print Assumptions C98_smooth.

(** ** What stops a run *)
(** a maximum order below the maximum degree is accepted, but the summation is called without it: IndexError *)
Theorem C98_order_refuted : forall r k n lon lat, (2 <= c_lmax r)%nat -> c_mmax r = Some k -> (1 <= k < c_lmax r)%nat -> input_ok (c_input r) n -> (1 <= n)%nat ->
  c_mean r = None -> c_ocean r = None -> c_destripe r = false -> radius_ok (c_rad r) -> love_ok (c_love r) (c_lmax r) -> (exists name, unit_code (c_units r) name) ->
  grid_of 0 (c_ddeg r) (c_interval r) (c_bounds r) lon lat -> List.length lon <> 1%nat -> List.length lat <> 1%nat ->
  combine_harmonics r = Err IndexError.
Proof.
  intros r k n lon lat HL Ek Hk Hi Hn Em Eo Ed HR HLv (name & HU) (dlon & dlat & Hs & Ha) N1 N2.
  destruct (factors_all _ _ _ _ HU HLv) as (df & Edf & Ld & _). destruct (weights_all (c_rad r) (c_lmax r) ltac:(lia) HR) as (wt & Ew & Lw & _).
  assert (Hi' : (c_interval r = 1 \/ c_interval r = 2 \/ c_interval r = 3)%Z) by (inversion Ha; auto).
  unfold combine_harmonics. cbv zeta. rewrite Ek, Em, Eo, Ed. cbn [minus_mean bind]. rewrite Ew. cbn [bind]. rewrite (steps_ok _ _ _ Hs). cbn [bind fst snd].
  replace (negb ((c_interval r =? 1) || (c_interval r =? 2) || (c_interval r =? 3))%Z) with false by lia. rewrite (axes_ok _ _ _ _ _ _ _ Ha). cbn [bind]. rewrite Edf. cbn [bind].
  destruct (holmes_rows (c_lmax r) (map (fun x => cos (colat x)) lat) HL) as (P & D & EP & _). rewrite EP. cbn [bind fst].
  pose proof (prepared (c_input r) n (c_lmax r) k Hi ltac:(lia)) as K1. set (h := expand_dims _) in *. clearbody h.
  destruct (mul_ok df wt (c_lmax r + 1) Ld Lw) as (f & Ef & Lf & Vf).
  assert (Nn : nslice (clm h) = n). { destruct K1 as [K1 _]. pose proof (o_depth _ _ _ _ _ _ _ K1) as Q. cbn [set_dates clm] in Q. unfold nslice. rewrite Q. reflexivity. }
  rewrite Nn. destruct n as [|n]; [lia|]. cbn [seq mapM].
  destruct (monthC _ _ _ _ _ 0%nat K1 ltac:(lia)) as (y1 & A1 & B1). rewrite A1. cbn [bind]. rewrite Ef. cbn [bind].
  destruct (convolveC _ _ _ _ f B1 ltac:(lia)) as (y2 & A2 & B2). rewrite A2. cbn [bind].
  assert (A4 : harmonic_summation (clm y2) (slm y2) lon lat 0 (c_lmax r) None (Some P) = Err IndexError).
  { unfold harmonic_summation, eff_lmax. replace (c_lmax r =? 0)%nat with false by lia. cbv zeta. cbn [upto_order]. replace (List.length lon =? 1)%nat with false by lia. replace (List.length lat =? 1)%nat with false by lia. cbn [bind].
    unfold load_block at 1. pose proof (s_cols _ _ _ _ _ _ B2) as Q. cbn [set_date clm] in Q. rewrite Q. replace (k + 1 <? c_lmax r + 1)%nat with true by lia. reflexivity. }
  rewrite A4. reflexivity.
Qed.
Print Assumptions C98_order_refuted.

(** several fields without dates (an index of files without dates): the second field stops the program *)
Theorem C98_undated_refuted : forall r n lon lat, (2 <= c_lmax r)%nat -> (c_mmax r = None \/ c_mmax r = Some (c_lmax r)) ->
  (2 <= n)%nat -> rows (clm (c_input r)) = (lmax (c_input r) + 1)%nat -> cols (clm (c_input r)) = (mmax (c_input r) + 1)%nat -> same_shape (clm (c_input r)) (slm (c_input r)) ->
  depth (clm (c_input r)) = Some n -> time (c_input r) = TNone -> month (c_input r) = TNone ->
  c_mean r = None -> c_ocean r = None -> c_destripe r = false -> radius_ok (c_rad r) -> love_ok (c_love r) (c_lmax r) -> (exists name, unit_code (c_units r) name) ->
  grid_of 0 (c_ddeg r) (c_interval r) (c_bounds r) lon lat -> List.length lon <> 1%nat -> List.length lat <> 1%nat ->
  combine_harmonics r = Err IndexError.
Proof.
  intros r n lon lat HL Hmm Hn I1 I2 I3 I4 I5 I6 Em Eo Ed HR HLv (name & HU) (dlon & dlat & Hs & Ha) N1 N2.
  destruct (factors_all _ _ _ _ HU HLv) as (df & Edf & Ld & _). destruct (weights_all (c_rad r) (c_lmax r) ltac:(lia) HR) as (wt & Ew & Lw & _).
  assert (Hi' : (c_interval r = 1 \/ c_interval r = 2 \/ c_interval r = 3)%Z) by (inversion Ha; auto).
  assert (OL : match c_mmax r with Some k => k | None => c_lmax r end = c_lmax r) by (destruct Hmm as [-> | ->]; reflexivity).
  unfold combine_harmonics. cbv zeta. rewrite OL, Em, Eo, Ed. cbn [minus_mean bind]. rewrite Ew. cbn [bind]. rewrite (steps_ok _ _ _ Hs). cbn [bind fst snd].
  replace (negb ((c_interval r =? 1) || (c_interval r =? 2) || (c_interval r =? 3))%Z) with false by lia. rewrite (axes_ok _ _ _ _ _ _ _ Ha). cbn [bind]. rewrite Edf. cbn [bind].
  destruct (holmes_rows (c_lmax r) (map (fun x => cos (colat x)) lat) HL) as (P & D & EP & _). rewrite EP. cbn [bind fst].
  set (L := c_lmax r) in *.
  assert (Wd : wf (set_dates (c_input r) n)). { repeat split; cbn [set_dates lmax mmax clm slm time month]; auto; try apply I3. rewrite I4. exists (repeat 0 n), (repeat 0%Z n). rewrite !repeat_length. auto. }
  pose proof (trunc_holds (set_dates (c_input r) n) n (repeat 0 n) (repeat 0%Z n) L L Wd I4 eq_refl eq_refl ltac:(lia)) as K1.
  set (y := truncate (c_input r) (Some L) 0 (Some L)) in *.
  assert (Ty : time y = TNone /\ month y = TNone) by (subst y; cbn [truncate time month]; auto). destruct Ty as [Ty My].
  change (truncate (set_dates (c_input r) n) (Some L) 0 (Some L)) with (set_dates y n) in K1.
  assert (Ey : expand_dims y = y).
  { pose proof (o_depth _ _ _ _ _ _ _ K1) as Q1. destruct (o_shape _ _ _ _ _ _ _ K1) as (_ & _ & Q2). cbn [set_dates clm slm] in Q1, Q2. assert (Q3 : depth (slm y) = Some n) by congruence.
    unfold expand_dims, aexpand. rewrite Q1, Q3, Ty, My. cbn [atleast_1d]. rewrite <- Ty at 1. rewrite <- My. destruct y; reflexivity. }
  rewrite Ey. assert (Nn : nslice (clm y) = n) by (unfold nslice; pose proof (o_depth _ _ _ _ _ _ _ K1) as Q; cbn [set_dates clm] in Q; rewrite Q; reflexivity).
  rewrite Nn. clearbody y. clear Ey. destruct (mul_ok df wt (L + 1) Ld Lw) as (f & Ef & Lf & Vf).
  set (F := fun t => bind _ _).
  assert (F0 : exists g, F 0%nat = Ok g).
  { unfold F, month_of. rewrite Ty. cbn [Nat.eqb bind]. rewrite Ef. cbn [bind].
    destruct K1 as [H1 H2 H3 H4 (U1 & U2 & U3) H6 _ _ _ _ H11]. cbn [set_dates lmax mmax clm slm] in *.
    assert (B1 : holds1 L L 0 0%Z (part (set_dates (c_input r) n) 0) (set_date (mkharm (lmax y) (mmax y) (slice (clm y) 0) (slice (slm y) 0) TNone TNone))).
    { constructor; cbn [set_date lmax mmax clm slm slice rows cols depth time month]; auto; [repeat split; assumption|].
      intros cs l m Hl Hm. rewrite <- H11 by (auto; lia). destruct cs; reflexivity. }
    destruct (convolveC _ _ _ _ f B1 ltac:(lia)) as (y2 & A2 & B2). rewrite A2. cbn [bind].
    destruct (map_ok _ _ _ _ _ _ 0 lon lat P D B2 HL (le_n _) N1 N2 EP) as (out & A3 & B3). cbn [set_date clm slm] in A3.
    assert (A4 : harmonic_summation (clm y2) (slm y2) lon lat 0 L None (Some P) = Ok out).
    { rewrite <- A3. unfold harmonic_summation, eff_lmax. replace (L =? 0)%nat with false by lia. reflexivity. }
    rewrite A4. cbn [bind]. unfold n_times. rewrite Ty. eexists. reflexivity. }
  assert (F1 : F 1%nat = Err IndexError) by (unfold F, month_of; rewrite Ty; reflexivity).
  destruct n as [|[|n]]; [lia|lia|]. cbn [seq mapM]. destruct F0 as [g F0]. rewrite F0. cbn [bind]. rewrite F1. reflexivity.
Qed.
Print Assumptions C98_undated_refuted.

(** the format of an index is used for the mean file as well: the mean is None and cannot be subtracted *)
Theorem C98_index_mean_refuted : forall r m, c_index r = true -> c_mean r = Some m -> combine_harmonics r = Err AttributeError.
Proof. intros r m H1 H2. unfold combine_harmonics. cbv zeta. rewrite H1, H2. reflexivity. Qed.

(** the grid: a region needs bounds, and there are three intervals *)
Theorem C98_interval : forall r n dlon dlat, crun_ok r n -> steps (c_ddeg r) dlon dlat ->
  (c_interval r = 3%Z /\ c_bounds r = None -> combine_harmonics r = Err AttributeError) /\
  (c_interval r <> 1%Z -> c_interval r <> 2%Z -> c_interval r <> 3%Z -> combine_harmonics r = Err UnboundLocalError).
Proof.
  intros r n dlon dlat V Hs. pose proof V as (HL & _ & _ & _ & _ & HR & _). destruct (weights_all (c_rad r) (c_lmax r) ltac:(lia) HR) as (wt & Ew & _).
  unfold combine_harmonics. cbv zeta. rewrite (order_L r n V). rewrite bind_assoc2. destruct (coefficients_ok r n V) as (h & E1 & _). rewrite E1. cbn [bind]. rewrite Ew. cbn [bind].
  rewrite (steps_ok _ _ _ Hs). cbn [bind fst snd]. split.
  - intros [H1 H2]. rewrite H1, H2. reflexivity.
  - intros H1 H2 H3. replace (negb ((c_interval r =? 1) || (c_interval r =? 2) || (c_interval r =? 3))%Z) with true by lia. reflexivity.
Qed.
Print Assumptions C98_interval.

(** ** A concrete run: one undated field with a mean and redistribution *)
Definition ex_crun : crun := mkcrun 2 None ([0; 0; 0], [0; 1 / 2; 1 / 3], [0; 0; 0]) 0 true 1 [1] 2 None false
  (mkharm 3 3 (mkarr 4 4 None (fun l m _ => INR l + 3)) (mkarr 4 4 None (fun l m _ => INR m)) TNone TNone)
  (Some (ex_field (fun l m => 1))) (Some (ex_field (fun l m => 2 - INR l))).
Example C98_example : crun_ok ex_crun 1 /\ grid_of 0 (c_ddeg ex_crun) (c_interval ex_crun) (c_bounds ex_crun) (map (fun i => 0 + 1 / 2 + INR i * 1) (seq 0 360)) (map (fun k => 90 - 1 / 2 - INR k * 1) (seq 0 180)) /\
  (forall o, c_ocean ex_crun = Some o -> part o 0 false 0%nat 0%nat <> 0) /\ less_mean ex_crun 0 false 0%nat 0%nat = 2.
Proof.
  assert (WF : forall f, single (ex_field f)) by (intros f; repeat split).
  split; [|split; [|split]].
  - split; [cbn; lia|]. split; [left; reflexivity|]. split; [split; [repeat split|right; cbn; auto]|].
    split; [intros m H; injection H as <-; auto|]. split; [intros o H; injection H as <-; auto|]. split; [left; cbn [ex_crun c_rad]; apply Rinv_0_lt_compat; apply pow_lt; lra|].
    split; [cbn; lia|]. exists "cmwe"%string. constructor.
  - exists 1, 1. split; [left; split; reflexivity|].
    apply (cells 0 (c_bounds ex_crun) 1 1 360 180); [lra|lra| |]; (rewrite INR_IZR_INZ; replace (Z.of_nat 360) with 360%Z by reflexivity; replace (Z.of_nat 180) with 180%Z by reflexivity; lra).
  - intros o H. injection H as <-. unfold part. cbn. lra.
  - unfold less_mean, part. cbn. lra.
Qed.
