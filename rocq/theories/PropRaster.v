(** C126: the rasters of grace_raster_grids (model: RasterModel.v; the steps before the grid: PropMaps.v, MapsProofs.v). *)
From Coq Require Import Reals Lra Lia String Sorting.Sorted ZifyBool ZifyNat.
From Coquelicot Require Import Coquelicot.
From Verif Require Import FourierGenProofs Base UnitsModel PropUnits GaussModel PropGauss LegendreModel LegendreSpec2 DestripeModel DestripeProofs SummationModel SummationProofs PropFactors GenModel MasconModel PropLegendre PropSummation
  PropSmoothMap PropMascon PropSmooth PropSlr Arr HarmModel HarmProofs HarmProofs2 HarmProofs3 MapsModel MapsProofs PropMaps RasterModel.
Close Scope Z_scope.
Close Scope string_scope.
Open Scope R_scope.

(** ** Specification *)
(** all values a, a + d, a + 2 d, ... below b *)
Definition line (a b d : R) (l : list R) : Prop :=
  l = map (fun k => a + INR k * d) (seq 0 (List.length l)) /\ (forall k, (k < List.length l)%nat -> a + INR k * d < b) /\ b <= a + INR (List.length l) * d.
(** one spacing, or one for x and one for y *)
Definition spacings (S : list R) (dx dy : R) : Prop := S = [dx] /\ dy = dx \/ S = [dx; dy].
(** the grid of a run: the program starts y half of the spacing of x above the lower bound, and goes on for one spacing beyond the upper bounds *)
Definition raster_grid (S B x y : list R) : Prop :=
  exists dx dy xmin xmax ymin ymax, spacings S dx dy /\ 0 < dx /\ 0 < dy /\ B = [xmin; xmax; ymin; ymax] /\
    line (xmin + dx / 2) (xmax + dx) dx x /\ line (ymin + dx / 2) (ymax + dy) dy y.
(** the harmonics of the land mask cover all degrees and orders to the maximum degree *)
Definition land_ok (r : mrun) (land : harm) : Prop := wf land /\ depth (clm land) = None /\ lmax land = p_lmax r /\ mmax land = p_lmax r.
(** the land function, in centimeters of water equivalent, smoothed with twice the radius, at a longitude and geocentric latitude *)
Definition land_value (r : mrun) (land : harm) (x y v : R) : Prop :=
  exists f w, (forall l, (l <= p_lmax r)%nat -> unit_factor 1 (p_love r) l (f l) /\ gauss_weight (2 * p_rad r) l (w l)) /\
    v = series (fun l m => f l * w l * part land 0 false l m) (fun l m => f l * w l * part land 0 true l m) 0 (p_lmax r) (p_lmax r) (colat y) (deg x).

(** ** The axes *)
Lemma line_arange a b d : 0 < d -> line a b d (arange a b d).
Proof.
  intros Hd. unfold line, arange. rewrite map_length, seq_length. split; [reflexivity|]. unfold rceil. pose proof (base_Int_part (- ((b - a) / d))) as [H1 H2].
  assert (E : b - a = (b - a) / d * d) by (field; lra). set (q := (b - a) / d) in *. clearbody q. set (z := Int_part (- q)) in *. clearbody z.
  assert (HI : (0 <= - z)%Z -> INR (Z.to_nat (- z)) = - IZR z) by (intros Q; rewrite INR_IZR_INZ, Z2Nat.id, opp_IZR by exact Q; reflexivity).
  split.
  - intros k Hk. assert (K : INR k <= - IZR z - 1).
    { rewrite INR_IZR_INZ, <- opp_IZR. replace (IZR (- z) - 1) with (IZR (- z - 1)) by (rewrite minus_IZR; reflexivity). apply IZR_le. lia. }
    nra.
  - destruct (Z_le_gt_dec 0 (- z)) as [Q|Q]; [rewrite HI by exact Q; nra|]. replace (Z.to_nat (- z)) with 0%nat by lia. cbn [INR]. apply Z.gt_lt in Q.
    assert (- z <= -1)%Z by lia. apply IZR_le in H. rewrite opp_IZR in H. nra.
Qed.
Lemma line_unique a b d l l' : 0 < d -> line a b d l -> line a b d l' -> l = l'.
Proof.
  intros Hd (E1 & H1 & K1) (E2 & H2 & K2). assert (L : List.length l = List.length l'); [|rewrite E1, E2, L; reflexivity].
  destruct (lt_eq_lt_dec (List.length l) (List.length l')) as [[Q|Q]|Q]; [|exact Q|].
  - specialize (H2 _ Q). lra.
  - specialize (H1 _ Q). lra.
Qed.
Lemma spacings_ok S dx dy : spacings S dx dy -> raster_spacing S = Ok (dx, dy).
Proof. intros [[-> ->]| ->]; reflexivity. Qed.

(** ** The points *)
Lemma in_points ny nx k j : In (k, j) (grid_points ny nx) <-> (k < ny)%nat /\ (j < nx)%nat.
Proof.
  unfold grid_points. rewrite in_flat_map. split.
  - intros (k' & Hk & Hj). apply in_map_iff in Hj. destruct Hj as (j' & E & Hj). injection E as -> ->. apply in_seq in Hk, Hj. lia.
  - intros [Hk Hj]. exists k. split; [apply in_seq; lia|]. apply in_map_iff. exists j. split; [reflexivity|]. apply in_seq. lia.
Qed.
Lemma nodup_points ny nx : NoDup (grid_points ny nx).
Proof.
  unfold grid_points. generalize (seq_NoDup ny 0). generalize (seq 0 ny) as ks. induction ks as [|k ks IH]; intros N; [constructor|].
  inversion N as [|? ? N1 N2]; subst. cbn [flat_map]. apply NoDup_app_intro; [|apply IH; exact N2|].
  - apply FinFun.Injective_map_NoDup; [intros a b E; injection E; auto|apply seq_NoDup].
  - intros [k' j] H1 H2. apply in_map_iff in H1. destruct H1 as (j' & E & _). injection E as <- <-. apply in_flat_map in H2. destruct H2 as (k' & Hk & Hj).
    apply in_map_iff in Hj. destruct Hj as (j2 & E & _). injection E as -> _. contradiction.
Qed.
Lemma same_point_ok a b : same_point a b = true <-> a = b.
Proof.
  destruct a as [k j], b as [k' j']. unfold same_point. cbn [fst snd]. split.
  - intros H. f_equal; lia.
  - intros E. injection E as -> ->. lia.
Qed.
Lemma in_selected pts mask p : In p (selected pts mask) -> exists i v, nth_error pts i = Some p /\ nth_error mask i = Some v /\ threshold < v.
Proof.
  unfold selected. intros H. apply in_map_iff in H. destruct H as ((p' & v) & E & H). cbn [fst] in E. subst p'. apply filter_In in H. destruct H as [H A].
  cbn [snd] in A. unfold above in A. destruct (Rlt_dec threshold v) as [K|K]; [|discriminate]. clear A. revert mask H. induction pts as [|q pts IH]; intros mask H; [destruct H|].
  destruct mask as [|u mask]; [destruct H|]. cbn [combine] in H. destruct H as [E|H].
  - injection E as -> ->. exists 0%nat, v. auto.
  - destruct (IH mask H) as (i & v' & H1 & H2 & H3). exists (S i), v'. auto.
Qed.
Lemma selected_in pts mask i p v : nth_error pts i = Some p -> nth_error mask i = Some v -> threshold < v -> In p (selected pts mask).
Proof.
  intros H1 H2 K. unfold selected. apply in_map_iff. exists (p, v). split; [reflexivity|]. apply filter_In. split.
  - revert pts mask H1 H2. induction i as [|i IH]; intros [|a pts] [|b mask] H1 H2; try discriminate; cbn in *; [injection H1 as ->; injection H2 as ->; auto|right; apply IH; auto].
  - cbn [snd]. unfold above. destruct (Rlt_dec threshold v); [reflexivity|contradiction].
Qed.
Lemma nodup_selected pts mask : NoDup pts -> NoDup (selected pts mask).
Proof.
  revert mask. induction pts as [|p pts IH]; intros mask N; [constructor|]. destruct mask as [|u mask]; [constructor|]. inversion N as [|? ? N1 N2]; subst.
  unfold selected. cbn [combine filter snd]. destruct (above u); [|apply IH; exact N2]. cbn [map fst]. constructor; [|apply IH; exact N2].
  intros H. apply N1. destruct (in_selected pts mask p H) as (i & v & H1 & _). apply nth_error_In in H1. exact H1.
Qed.
Lemma find_at (sel : list (nat * nat)) (vals : list R) q p v : NoDup sel -> nth_error sel q = Some p -> nth_error vals q = Some v -> find (fun pv => same_point (fst pv) p) (combine sel vals) = Some (p, v).
Proof.
  revert vals q. induction sel as [|a sel IH]; intros vals q N Hs Hv; [destruct q; discriminate|]. destruct vals as [|b vals]; [destruct q; discriminate|].
  inversion N as [|? ? N1 N2]; subst. cbn [combine find fst]. destruct q as [|q].
  - cbn in Hs, Hv. injection Hs as ->. injection Hv as ->. replace (same_point p p) with true by (symmetry; apply same_point_ok; reflexivity). reflexivity.
  - cbn in Hs, Hv. destruct (same_point a p) eqn:E; [|apply (IH vals q N2 Hs Hv)]. apply same_point_ok in E. subst a. exfalso. apply N1. apply nth_error_In in Hs. exact Hs.
Qed.
Lemma find_none (sel : list (nat * nat)) (vals : list R) p : ~ In p sel -> find (fun pv => same_point (fst pv) p) (combine sel vals) = None.
Proof.
  revert vals. induction sel as [|a sel IH]; intros vals N; [reflexivity|]. destruct vals as [|b vals]; [reflexivity|]. cbn [combine find fst].
  destruct (same_point a p) eqn:E; [apply same_point_ok in E; subst a; exfalso; apply N; left; reflexivity|]. apply IH. intros H. apply N. right. exact H.
Qed.

(** ** One field on a list of points *)
Lemma trunc1 L M t mo Y h lmin : holds1 L M t mo Y h -> (1 <= M)%nat -> holds1 L M t mo (fun cs l m => if (lmin <=? l)%nat then Y cs l m else 0) (truncate h (Some L) lmin (Some M)).
Proof.
  intros H HM. destruct H as [Al Am Ar Ac (U1 & U2 & U3) Ad At Ao Av]. pose proof (truncate_spec h L lmin M ltac:(lia)) as P. cbv zeta in P. destruct P as (P1 & P2 & P3 & P4 & P5).
  destruct (P5 clm (or_introl eq_refl)) as (C1 & C2 & C3 & C4), (P5 slm (or_intror eq_refl)) as (S1 & S2 & S3 & S4).
  constructor; try congruence; [repeat split; congruence|]. intros cs l m Hl Hm.
  rewrite Al, Am in *. rewrite <- (Av cs l m Hl Hm). assert (B : ((l <=? L) && (m <=? M))%nat = true) by lia.
  destruct cs; cbn [chan]; [rewrite S4 by lia|rewrite C4 by lia]; (destruct (lmin <=? l)%nat; cbn [andb]; [rewrite B|]; reflexivity).
Qed.
Lemma series_from c s lmin L M th phi : series (fun l m => if (lmin <=? l)%nat then c l m else 0) (fun l m => if (lmin <=? l)%nat then s l m else 0) 0 L M th phi = series c s lmin L M th phi.
Proof. unfold series. apply sumn_ext. intros m _. apply sumn_ext. intros l _. cbn [Nat.leb]. destruct (lmin <=? l)%nat; ring. Qed.
Lemma scale_nonzero : clenshaw_scale <> 0.
Proof. unfold clenshaw_scale. apply Rinv_neq_0_compat. apply pow_nonzero. lra. Qed.
Lemma clen_ok L Y c s pts RAD U LV w df : (2 <= L)%nat -> rows c = (L + 1)%nat -> cols c = (L + 1)%nat -> same_shape c s ->
  (forall l m, (m <= l <= L)%nat -> get c l m 0 = Y false l m /\ get s l m 0 = Y true l m) ->
  smoothing RAD L = Ok w -> degree_factor L U LV = Ok df -> List.length df = (L + 1)%nat -> List.length w = (L + 1)%nat ->
  exists out, clenshaw_summation c s (map fst pts) (map snd pts) RAD U L LV clenshaw_scale = Ok out /\ List.length out = List.length pts /\
    forall i p, nth_error pts i = Some p -> -90 <= snd p <= 90 ->
      nth_error out i = Some (series (fun l m => nth l df 0 * nth l w 0 * Y false l m) (fun l m => nth l df 0 * nth l w 0 * Y true l m) 0 L L (colat (snd p)) (deg (fst p))).
Proof.
  intros HL R1 C1 (U1 & U2 & U3) V Ew Ed Ld Lw.
  destruct (C45_values c s (map fst pts) (map snd pts) RAD U L LV clenshaw_scale w df) as (out & E & Lo & Q); try assumption; try lia; [exact scale_nonzero|rewrite !map_length; reflexivity|].
  exists out. split; [exact E|]. split; [rewrite Lo, map_length; reflexivity|]. intros i p Hp Hr.
  rewrite (Q i (fst p) (snd p) (map_nth_error fst i pts Hp) (map_nth_error snd i pts Hp) Hr). f_equal. apply series_tri. intros l m Hl Hm. unfold cf. destruct (V l m Hl) as [-> ->]. split; reflexivity.
Qed.

(** ** The run *)
Lemma nth_error_points loc x y ny nx k j a b : nth_error y k = Some b -> nth_error x j = Some a -> ny = List.length y -> nx = List.length x ->
  exists i, nth_error (grid_points ny nx) i = Some (k, j) /\ nth_error (map (point_at loc x y) (grid_points ny nx)) i = Some (loc a b).
Proof.
  intros Hy Hx -> ->. assert (K : In (k, j) (grid_points (List.length y) (List.length x))).
  { apply in_points. split; apply nth_error_Some; [rewrite Hy|rewrite Hx]; discriminate. }
  apply In_nth_error in K. destruct K as [i K]. exists i. split; [exact K|]. rewrite (map_nth_error _ _ _ K). unfold point_at. cbn [fst snd].
  rewrite (nth_error_nth _ _ 0 Hx), (nth_error_nth _ _ 0 Hy). reflexivity.
Qed.
Lemma units_factor code name love L : unit_code code name -> love_ok love L -> degree_factor L (UName name) (Some love) = degree_factor L (UCode code) (Some love).
Proof.
  intros U. destruct love as [[h k] ll]. intros (H1 & H2 & H3). destruct (C45_factors L h k ll H1 H2 H3) as (_ & FC & _). symmetry. apply FC. exact U.
Qed.

Section Raster.
Context (r : mrun) (n : nat) (ts : list R) (ms : list Z) (pos : nat -> nat -> nat) (V : run_ok r n ts ms pos).
Context (land : harm) (loc : R -> R -> R * R) (x y : list R).
Let L := p_lmax r.
Context (HML : max_order r = L) (WL : land_ok r land).
Context (HLoc : forall a b, In a x -> In b y -> -90 <= snd (loc a b) <= 90).

Lemma raster_ok S B dx dy wt df wt2 df2 name :
  smoothing (p_rad r) L = Ok wt -> List.length wt = (L + 1)%nat ->
  degree_factor L (UName name) (Some (p_love r)) = Ok df -> List.length df = (L + 1)%nat -> bycode (p_units r) = Ok name ->
  smoothing (2 * p_rad r) L = Ok wt2 -> List.length wt2 = (L + 1)%nat ->
  degree_factor L (UCode 1) (Some (p_love r)) = Ok df2 -> List.length df2 = (L + 1)%nat ->
  raster_spacing S = Ok (dx, dy) -> raster_axes dx dy B = Ok (x, y) ->
  exists maps, grace_raster_grids r land S B loc = Ok (x, y, maps) /\ List.length maps = n /\
    forall t, (t < n)%nat -> exists g, nth_error maps t = Some (nth t ts 0, g) /\ rows g = List.length y /\ cols g = List.length x /\ depth g = None /\
      forall j k a b, nth_error x j = Some a -> nth_error y k = Some b ->
        let p := loc a b in
        let v := series (fun l m => nth l df2 0 * nth l wt2 0 * part land 0 false l m) (fun l m => nth l df2 0 * nth l wt2 0 * part land 0 true l m) 0 L L (colat (snd p)) (deg (fst p)) in
        (threshold < v -> get g k j 0 = series (fun l m => nth l df 0 * nth l wt 0 * anomaly r n ts pos t false l m) (fun l m => nth l df 0 * nth l wt 0 * anomaly r n ts pos t true l m)
          (p_lmin r) L L (colat (snd p)) (deg (fst p))) /\
        (v <= threshold -> get g k j 0 = fill).
Proof.
  intros Ew Lw Ed Ld Eu Ew2 Lw2 Ed2 Ld2 Es Ea. unfold grace_raster_grids. cbv zeta. rewrite max_order_of. fold L.
  destruct (centred_ok _ _ _ _ _ V) as (h & E1 & K1). rewrite E1. cbn [bind]. pose proof (g_degree _ _ _ _ _ V) as HL. pose proof (g_order _ _ _ _ _ V) as HM. pose proof (g_months _ _ _ _ _ V) as Hn. fold L in HL, HM, K1.
  destruct (maybe_destripe_ok (p_destripe r) L (max_order r) n ts ms _ _ K1 ltac:(lia)) as (h2 & E2 & K2). rewrite E2. cbn [bind]. rewrite (o_ts _ _ _ _ _ _ _ K2), (o_ms _ _ _ _ _ _ _ K2). cbn [list_of bind].
  destruct (drift_ok _ _ _ _ _ V) as (gia & E3 & K3). rewrite E3. cbn [bind]. destruct (months_len _ _ _ _ _ V) as [L1 L2]. rewrite L1. replace (n =? 1)%nat with false by lia.
  rewrite (o_l _ _ _ _ _ _ _ K2), (o_m _ _ _ _ _ _ _ K2). destruct (g_forms _ _ _ _ _ V) as [F1 F2]. rewrite (all_forms _ _ F1 F2).
  destruct (all_removed _ _ _ _ _ V (repeat 0 n) (repeat 0%Z n) (p_remove r) _ _ 0 (zeros_ok r n)) as (rem & E4 & K4); [intros k f Hk; exact Hk|]. fold L in E4, K4.
  rewrite E4. cbn [bind]. rewrite Eu. cbn [bind]. rewrite Es. cbn [bind fst snd]. rewrite Ea. cbn [bind].
  assert (K5 : holds L (max_order r) n ts ms (fun t cs l m => sumn (List.length (p_remove r)) (fun k => removed_field r (nth k (p_remove r) (p_gia r)) (pos k t) cs l m))
     (mkharm (lmax rem) (mmax rem) (clm rem) (slm rem) (TArr ts) (TArr ms))).
  { destruct K4 as [Q1 Q2 Q3 Q4 Q5 Q6 Q7 Q8 Q9 Q10 Q11]. constructor; cbn [lmax mmax clm slm time month]; auto. intros t cs l m Ht Hl Hm. specialize (Q11 t cs l m Ht Hl Hm). cbn [Nat.add] in Q11. rewrite Rplus_0_l in Q11. rewrite <- Q11. destruct cs; reflexivity. }
  set (rem' := mkharm _ _ _ _ _ _) in K5 |- *. clearbody rem'. clear K4 E4 rem.
  set (pts := grid_points (List.length y) (List.length x)).
  destruct WL as (W1 & W2 & W3 & W4). fold L in W3, W4. destruct W1 as (R1 & C1 & S1 & _). rewrite W3 in R1. rewrite W4 in C1.
  destruct (clen_ok L (part land 0) (clm land) (slm land) (map (point_at loc x y) pts) (2 * p_rad r) (UCode 1) (@Some love3 (p_love r)) wt2 df2 HL R1 C1 S1) as (mask & Em & Lm & Qm); try assumption.
  { intros l m Hl. unfold part. rewrite W3, W4. replace ((l <=? L) && (m <=? L))%nat with true by lia. split; reflexivity. }
  rewrite Em. cbn [bind]. rewrite L2. set (sel := selected pts mask). rewrite map_length in Lm.
  assert (InSel : forall p, In p sel -> exists a b, nth_error x (snd p) = Some a /\ nth_error y (fst p) = Some b /\ point_at loc x y p = loc a b).
  { intros [k j] Hp. destruct (in_selected _ _ _ Hp) as (i & v & Hi & _). apply nth_error_In in Hi. apply in_points in Hi. destruct Hi as [Hk Hj]. cbn [fst snd].
    exists (nth j x 0), (nth k y 0). split; [apply nth_error_nth'; exact Hj|]. split; [apply nth_error_nth'; exact Hk|]. reflexivity. }
  assert (G : forall t, (t < n)%nat -> exists g, one_raster (p_lmin r) L (max_order r) (p_rad r) name (p_love r) loc x y sel h2 gia rem' t = Ok (nth t ts 0, g) /\ rows g = List.length y /\ cols g = List.length x /\ depth g = None /\
      forall j k a b, nth_error x j = Some a -> nth_error y k = Some b ->
        let p := loc a b in
        let v := series (fun l m => nth l df2 0 * nth l wt2 0 * part land 0 false l m) (fun l m => nth l df2 0 * nth l wt2 0 * part land 0 true l m) 0 L L (colat (snd p)) (deg (fst p)) in
        (threshold < v -> get g k j 0 = series (fun l m => nth l df 0 * nth l wt 0 * anomaly r n ts pos t false l m) (fun l m => nth l df 0 * nth l wt 0 * anomaly r n ts pos t true l m)
          (p_lmin r) L L (colat (snd p)) (deg (fst p))) /\
        (v <= threshold -> get g k j 0 = fill)).
  { intros t Ht. unfold one_raster.
    destruct (index_ok _ _ _ _ _ _ _ t K2 Ht) as (a1 & A1 & B1). rewrite A1. cbn [bind].
    destruct (index_ok _ _ _ _ _ _ _ t K3 Ht) as (a2 & A2 & B2). rewrite A2. cbn [bind].
    destruct (sub_single _ _ _ _ _ _ _ _ _ _ _ _ B1 B2) as (a3 & A3 & B3). rewrite A3. cbn [bind].
    destruct (index_ok _ _ _ _ _ _ _ t K5 Ht) as (a4 & A4 & B4). rewrite A4. cbn [bind].
    destruct (sub_single _ _ _ _ _ _ _ _ _ _ _ _ B3 B4) as (a5 & A5 & B5). rewrite A5. cbn [bind].
    pose proof (trunc1 _ _ _ _ _ _ (p_lmin r) B5 ltac:(lia)) as B6. set (a6 := truncate a5 (Some L) (p_lmin r) (Some (max_order r))) in *. clearbody a6.
    destruct (clen_ok L _ (clm a6) (slm a6) (map (point_at loc x y) sel) (p_rad r) (UName name) (@Some love3 (p_love r)) wt df HL (s_rows _ _ _ _ _ _ B6) ltac:(rewrite (s_cols _ _ _ _ _ _ B6); lia) (s_shape _ _ _ _ _ _ B6)
      (fun l m Hl => conj (s_val _ _ _ _ _ _ B6 false l m Hl ltac:(lia)) (s_val _ _ _ _ _ _ B6 true l m Hl ltac:(lia))) Ew Ed Ld Lw) as (vals & A7 & Lv & Q7).
    rewrite A7. cbn [bind]. rewrite (s_ts _ _ _ _ _ _ B6). cbn [scalar bind]. eexists. split; [reflexivity|]. split; [reflexivity|]. split; [reflexivity|]. split; [reflexivity|].
    intros j k a b Hj Hk. set (p := loc a b).
    set (v := series (fun l m => nth l df2 0 * nth l wt2 0 * part land 0 false l m) (fun l m => nth l df2 0 * nth l wt2 0 * part land 0 true l m) 0 L L (colat (snd p)) (deg (fst p))).
    destruct (nth_error_points loc x y _ _ k j a b Hk Hj eq_refl eq_refl) as (i & Hi & Hp). fold pts in Hi, Hp.
    assert (Hr : -90 <= snd (loc a b) <= 90). { apply HLoc; [exact (nth_error_In _ _ Hj)|exact (nth_error_In _ _ Hk)]. }
    assert (Mv : nth_error mask i = Some v). { rewrite (Qm i _ Hp Hr). reflexivity. }
    cbn [scatter get]. split; intros Hv.
    - pose proof (selected_in _ _ _ _ _ Hi Mv Hv) as Hs. fold sel in Hs. apply In_nth_error in Hs. destruct Hs as [q Hs].
      assert (Hq : nth_error (map (point_at loc x y) sel) q = Some p).
      { rewrite (map_nth_error _ _ _ Hs). unfold point_at. cbn [fst snd]. rewrite (nth_error_nth _ _ 0 Hj), (nth_error_nth _ _ 0 Hk). reflexivity. }
      rewrite (find_at sel vals q (k, j) _ (nodup_selected _ _ (nodup_points _ _)) Hs (Q7 q p Hq Hr)). cbn [snd].
      etransitivity; [|apply series_from]. apply series_tri.
      assert (G : forall cs l m, (m <= l <= L)%nat -> nth l df 0 * nth l wt 0 * (if (p_lmin r <=? l)%nat then maybe_destriped (p_destripe r) L (max_order r) (fun cs l m => part (p_grace r) t cs l m - reference r n cs l m) cs l m
        - (if ((l <=? lmax (p_gia r)) && (m <=? mmax (p_gia r)))%nat then part (p_gia r) 0 cs l m * (nth t ts 0 - 20033 / 10) else 0)
        - (if ((l <=? L) && (m <=? max_order r))%nat then sumn (List.length (p_remove r)) (fun k => removed_field r (nth k (p_remove r) (p_gia r)) (pos k t) cs l m) else 0) else 0)
        = if (p_lmin r <=? l)%nat then nth l df 0 * nth l wt 0 * anomaly r n ts pos t cs l m else 0).
      { intros cs l m Hl. destruct (p_lmin r <=? l)%nat; [|ring]. f_equal. unfold anomaly. replace ((l <=? L) && (m <=? max_order r))%nat with true by lia. f_equal. f_equal.
        unfold part. destruct ((l <=? lmax (p_gia r)) && (m <=? mmax (p_gia r)))%nat; ring. }
      intros l m Hl _. split; apply G; exact Hl.
    - rewrite find_none; [reflexivity|]. intros Hs. destruct (in_selected _ _ _ Hs) as (i' & v' & Hi' & Hv' & K).
      assert (i = i'). { apply (proj1 (NoDup_nth_error pts) (nodup_points _ _)); [apply nth_error_Some; rewrite Hi; discriminate|]. congruence. }
      subst i'. assert (v = v') by congruence. subst v'. clear -Hv K. lra. }
  destruct (mapM_all (one_raster (p_lmin r) L (max_order r) (p_rad r) name (p_love r) loc x y sel h2 gia rem') (seq 0 n)) as (maps & E6).
  { intros i Hi. apply in_seq in Hi. destruct (G i ltac:(lia)) as (g & Eg' & _). eexists. exact Eg'. }
  rewrite E6. cbn [bind]. exists maps. split; [reflexivity|]. destruct (mapM_nth _ _ _ E6) as [Lmm Vm]. rewrite seq_length in *. split; [exact Lmm|].
  intros t Ht. destruct (G t Ht) as (g & Eg' & Q). exists g. split; [|exact Q].
  specialize (Vm t 0%nat (0, g) Ht). rewrite seq_nth in Vm by exact Ht. cbn [Nat.add] in Vm. rewrite Eg' in Vm. injection Vm as Vm.
  rewrite (nth_error_nth' maps (n := t) (0, g)) by lia. f_equal. symmetry. exact Vm.
Qed.
End Raster.

(** ** C126 *)
Lemma settings_steps r : (2 <= p_lmax r)%nat -> settings_ok r -> radius_ok (2 * p_rad r) ->
  exists wt df wt2 df2 name, smoothing (p_rad r) (p_lmax r) = Ok wt /\ List.length wt = (p_lmax r + 1)%nat /\ (forall l, (l <= p_lmax r)%nat -> gauss_weight (p_rad r) l (nth l wt 0)) /\
    degree_factor (p_lmax r) (UCode (p_units r)) (Some (p_love r)) = Ok df /\ degree_factor (p_lmax r) (UName name) (Some (p_love r)) = Ok df /\ List.length df = (p_lmax r + 1)%nat /\
    (forall l, (l <= p_lmax r)%nat -> unit_factor (p_units r) (p_love r) l (nth l df 0)) /\ bycode (p_units r) = Ok name /\
    smoothing (2 * p_rad r) (p_lmax r) = Ok wt2 /\ List.length wt2 = (p_lmax r + 1)%nat /\ (forall l, (l <= p_lmax r)%nat -> gauss_weight (2 * p_rad r) l (nth l wt2 0)) /\
    degree_factor (p_lmax r) (UCode 1) (Some (p_love r)) = Ok df2 /\ List.length df2 = (p_lmax r + 1)%nat /\ (forall l, (l <= p_lmax r)%nat -> unit_factor 1 (p_love r) l (nth l df2 0)).
Proof.
  intros HL (HR & HLv & name & HU) HR2.
  destruct (factors_all _ _ _ _ HU HLv) as (df & Ed & Ld & Vd). destruct (weights_all (p_rad r) (p_lmax r) ltac:(lia) HR) as (wt & Ew & Lw & Vw).
  destruct (factors_all _ _ _ _ PropUnits.uc1 HLv) as (df2 & Ed2 & Ld2 & Vd2). destruct (weights_all (2 * p_rad r) (p_lmax r) ltac:(lia) HR2) as (wt2 & Ew2 & Lw2 & Vw2).
  exists wt, df, wt2, df2, name. pose proof (units_factor _ _ _ _ HU HLv) as E. rewrite Ed in E. pose proof (C40_documented_codes _ _ HU). tauto.
Qed.
Lemma grid_axes_ok S B x y : raster_grid S B x y -> exists dx dy, raster_spacing S = Ok (dx, dy) /\ raster_axes dx dy B = Ok (x, y).
Proof.
  intros (dx & dy & xmin & xmax & ymin & ymax & HS & Hx & Hy & -> & Lx & Ly). exists dx, dy. split; [apply spacings_ok; exact HS|]. cbn [raster_axes].
  rewrite (line_unique _ _ _ _ _ Hx Lx (line_arange _ _ _ Hx)), (line_unique _ _ _ _ _ Hy Ly (line_arange _ _ _ Hy)). reflexivity.
Qed.

(** a complete run gives one raster per month with the time of GRACE.  Where the land function smoothed with twice the radius is above
    0.025 a cell holds the map of the anomaly of its month (C97) at the longitude and geocentric latitude of the cell; all other cells hold -9999 *)
Theorem C126_rasters : forall r n ts ms pos land S B loc x y, run_ok r n ts ms pos -> settings_ok r -> radius_ok (2 * p_rad r) ->
  max_order r = p_lmax r -> land_ok r land -> raster_grid S B x y -> (forall a b, In a x -> In b y -> -90 <= snd (loc a b) <= 90) ->
  exists maps, grace_raster_grids r land S B loc = Ok (x, y, maps) /\ List.length maps = n /\
    forall t, (t < n)%nat -> exists g, nth_error maps t = Some (nth t ts 0, g) /\ rows g = List.length y /\ cols g = List.length x /\ depth g = None /\
      forall j k a b, nth_error x j = Some a -> nth_error y k = Some b ->
        exists v, land_value r land (fst (loc a b)) (snd (loc a b)) v /\
          (25 / 1000 < v -> map_of r (anomaly r n ts pos t) (fst (loc a b)) (snd (loc a b)) (get g k j 0)) /\ (v <= 25 / 1000 -> get g k j 0 = -9999).
Proof.
  intros r n ts ms pos land S B loc x y V HS HR2 HM WL HG HLoc. destruct (grid_axes_ok _ _ _ _ HG) as (dx & dy & Es & Ea).
  destruct (settings_steps r (g_degree _ _ _ _ _ V) HS HR2) as (wt & df & wt2 & df2 & name & Ew & Lw & Vw & Ec & Ed & Ld & Vd & Eu & Ew2 & Lw2 & Vw2 & Ed2 & Ld2 & Vd2).
  destruct (raster_ok r n ts ms pos V land loc x y HM WL HLoc S B dx dy wt df wt2 df2 name Ew Lw Ed Ld Eu Ew2 Lw2 Ed2 Ld2 Es Ea) as (maps & E & Lm & Q).
  exists maps. split; [exact E|]. split; [exact Lm|]. intros t Ht. destruct (Q t Ht) as (g & G1 & G2 & G3 & G4 & G5). exists g. do 4 (split; [assumption|]). intros j k a b Hj Hk.
  destruct (G5 j k a b Hj Hk) as [P1 P2]. eexists. split; [exists (fun l => nth l df2 0), (fun l => nth l wt2 0); split; [intros l Hl; split; auto|reflexivity]|]. split; [|exact P2].
  intros Hv. exists (fun l => nth l df 0), (fun l => nth l wt 0). split; [intros l Hl; split; auto|]. rewrite HM. exact (P1 Hv).
Qed.
Print Assumptions C126_rasters.

(** a cell that is not masked holds the value that grace_spatial_maps gives for its longitude and geocentric latitude *)
Theorem C126_same_as_maps : forall r n ts ms pos land S B loc x y lon lat, run_ok r n ts ms pos -> settings_ok r -> radius_ok (2 * p_rad r) ->
  max_order r = p_lmax r -> land_ok r land -> raster_grid S B x y -> (forall a b, In a x -> In b y -> -90 <= snd (loc a b) <= 90) ->
  grid_of (-180) (p_ddeg r) (p_interval r) (p_bounds r) lon lat -> List.length lon <> 1%nat -> List.length lat <> 1%nat ->
  exists maps rasters, grace_spatial_maps r = Ok (lon, lat, maps) /\ grace_raster_grids r land S B loc = Ok (x, y, rasters) /\ List.length maps = n /\ List.length rasters = n /\
    forall t, (t < n)%nat -> exists g g', nth_error maps t = Some (nth t ts 0, nth t ms 0%Z, g) /\ nth_error rasters t = Some (nth t ts 0, g') /\
      forall j k a b i q, nth_error x j = Some a -> nth_error y k = Some b -> nth_error lon i = Some (fst (loc a b)) -> nth_error lat q = Some (snd (loc a b)) -> -90 < snd (loc a b) < 90 ->
        exists v, land_value r land (fst (loc a b)) (snd (loc a b)) v /\ (25 / 1000 < v -> get g' k j 0 = get g q i 0).
Proof.
  intros r n ts ms pos land S B loc x y lon lat V HS HR2 HM WL HG HLoc (dlon & dlat & Hs & Ha) N1 N2. destruct (grid_axes_ok _ _ _ _ HG) as (dx & dy & Es & Ea).
  destruct (settings_steps r (g_degree _ _ _ _ _ V) HS HR2) as (wt & df & wt2 & df2 & name & Ew & Lw & Vw & Ec & Ed & Ld & Vd & Eu & Ew2 & Lw2 & Vw2 & Ed2 & Ld2 & Vd2).
  destruct (raster_ok r n ts ms pos V land loc x y HM WL HLoc S B dx dy wt df wt2 df2 name Ew Lw Ed Ld Eu Ew2 Lw2 Ed2 Ld2 Es Ea) as (rs & E & Lm & Q).
  destruct (maps_ok r n ts ms pos V lon lat wt df _ Ew Lw Ec Ld (steps_ok _ _ _ Hs) (axes_ok _ _ _ _ _ _ _ Ha) N1 N2) as (maps & E' & Lm' & Q').
  exists maps, rs. do 4 (split; [assumption|]). intros t Ht. destruct (Q t Ht) as (g' & G1 & _ & _ & _ & G5). destruct (Q' t Ht) as (g & G1' & _ & _ & _ & G5').
  exists g, g'. do 2 (split; [assumption|]). intros j k a b i q Hj Hk Hi Hq Hr. destruct (G5 j k a b Hj Hk) as [P1 _].
  eexists. split; [exists (fun l => nth l df2 0), (fun l => nth l wt2 0); split; [intros l Hl; split; auto|reflexivity]|]. intros Hv.
  rewrite (P1 Hv), (G5' i q _ _ Hi Hq Hr), HM. reflexivity.
Qed.
Print Assumptions C126_same_as_maps.

(** the axes: there is always one, and when the spacing of x divides the range there is one column more than the range has cells, with its center outside of the bounds;
    the same holds for the rows when both spacings are equal *)
Theorem C126_grid : forall S dx dy xmin xmax ymin ymax, spacings S dx dy -> 0 < dx -> 0 < dy ->
  (exists x y, raster_grid S [xmin; xmax; ymin; ymax] x y) /\
  forall x y, raster_grid S [xmin; xmax; ymin; ymax] x y ->
    (forall nx, INR nx * dx = xmax - xmin -> x = map (fun j => xmin + (INR j + / 2) * dx) (seq 0 (nx + 1)) /\ xmax < nth nx x 0) /\
    (forall ny, dy = dx -> INR ny * dy = ymax - ymin -> y = map (fun k => ymin + (INR k + / 2) * dy) (seq 0 (ny + 1)) /\ ymax < nth ny y 0) /\
    (forall k b, nth_error y k = Some b -> b = ymin + dx / 2 + INR k * dy).
Proof.
  intros S dx dy xmin xmax ymin ymax HS Hx Hy. split.
  - exists (arange (xmin + dx / 2) (xmax + dx) dx), (arange (ymin + dx / 2) (ymax + dy) dy). exists dx, dy, xmin, xmax, ymin, ymax. do 4 (split; [auto|]). split; apply line_arange; assumption.
  - intros x y (dx' & dy' & x0 & x1 & y0 & y1 & HS' & Hx' & Hy' & EB & Lx & Ly). injection EB as <- <- <- <-.
    assert (K : dx' = dx /\ dy' = dy). { pose proof (spacings_ok _ _ _ HS) as E1. pose proof (spacings_ok _ _ _ HS') as E2. rewrite E1 in E2. injection E2. auto. }
    destruct K as [-> ->].
    assert (G : forall a b d m l, 0 < d -> INR m * d = b - a -> line (a + d / 2) (b + d) d l -> l = map (fun j => a + (INR j + / 2) * d) (seq 0 (m + 1)) /\ b < nth m l 0).
    { intros a b d m l Hd E HL. assert (El : l = map (fun j => a + (INR j + / 2) * d) (seq 0 (m + 1))).
      { apply (line_unique _ _ _ _ _ Hd HL). split; [rewrite map_length, seq_length; apply map_ext; intros j; field|]. rewrite map_length, seq_length. split.
        - intros k Hk. assert (INR k <= INR m) by (apply le_INR; lia). nra.
        - rewrite plus_INR. change (INR 1) with 1. nra. }
      split; [exact El|]. assert (Hn : nth_error l m = Some (a + (INR m + / 2) * d)).
      { rewrite El. apply (map_nth_error (fun j => a + (INR j + / 2) * d)). rewrite (nth_error_nth' _ 0%nat) by (rewrite seq_length; lia). rewrite seq_nth by lia. reflexivity. }
      rewrite (nth_error_nth _ _ 0 Hn). nra. }
    split; [|split].
    + intros nx E. apply (G _ _ _ _ _ Hx E Lx).
    + intros ny -> E. apply (G _ _ _ _ _ Hx E Ly).
    + intros k b Hb. destruct Ly as (El & _ & _). rewrite El in Hb. assert (Hk : (k < List.length y)%nat).
      { assert (nth_error (map (fun k => ymin + dx / 2 + INR k * dy) (seq 0 (List.length y))) k <> None) by (rewrite Hb; discriminate). apply nth_error_Some in H. rewrite map_length, seq_length in H. exact H. }
      rewrite (map_nth_error (fun k => ymin + dx / 2 + INR k * dy) k (seq 0 (List.length y)) (d := k)) in Hb; [injection Hb as <-; reflexivity|].
      rewrite (nth_error_nth' _ 0%nat) by (rewrite seq_length; exact Hk). rewrite seq_nth by exact Hk. reflexivity.
Qed.
Print Assumptions C126_grid.

(** with different spacings the rows are not the centers of the cells between the bounds: they are off by half the difference of the spacings *)
Theorem C126_rows_refuted : forall S dx dy xmin xmax ymin ymax x y, spacings S dx dy -> raster_grid S [xmin; xmax; ymin; ymax] x y -> dx <> dy ->
  forall k b, nth_error y k = Some b -> b <> ymin + (INR k + / 2) * dy /\ b - (ymin + (INR k + / 2) * dy) = (dx - dy) / 2.
Proof.
  intros S dx dy xmin xmax ymin ymax x y HS HG N k b Hb.
  assert (P : 0 < dx /\ 0 < dy). { destruct HG as (dx' & dy' & x0 & x1 & y0 & y1 & HS' & Hx' & Hy' & _). pose proof (spacings_ok _ _ _ HS) as E1. pose proof (spacings_ok _ _ _ HS') as E2. rewrite E1 in E2. injection E2 as -> ->. auto. }
  destruct (C126_grid S dx dy xmin xmax ymin ymax HS (proj1 P) (proj2 P)) as [_ Q]. destruct (Q x y HG) as (_ & _ & R0). rewrite (R0 k b Hb). split; [intros E; apply N; lra|field].
Qed.

(** a signal with everything that the program takes out added to it gives the rasters of the signal *)
Theorem C126_recover : forall r n ts ms pos land S B loc x y mean X, run_ok r n ts ms pos -> settings_ok r -> radius_ok (2 * p_rad r) ->
  max_order r = p_lmax r -> land_ok r land -> raster_grid S B x y -> (forall a b, In a x -> In b y -> -90 <= snd (loc a b) <= 90) ->
  p_destripe r = false -> p_redistribute r = false -> p_mean r = Some mean ->
  (forall t cs l m, (t < n)%nat -> (m <= l <= p_lmax r)%nat -> (m <= max_order r)%nat ->
     part (p_grace r) t cs l m = X t cs l m + part mean 0 cs l m + part (p_gia r) 0 cs l m * (nth t ts 0 - 20033 / 10)
       + sumn (List.length (p_remove r)) (fun k => part (nth k (p_remove r) (p_gia r)) (pos k t) cs l m)) ->
  exists maps, grace_raster_grids r land S B loc = Ok (x, y, maps) /\ List.length maps = n /\
    forall t, (t < n)%nat -> exists g, nth_error maps t = Some (nth t ts 0, g) /\
      forall j k a b, nth_error x j = Some a -> nth_error y k = Some b ->
        exists v, land_value r land (fst (loc a b)) (snd (loc a b)) v /\ (25 / 1000 < v -> map_of r (X t) (fst (loc a b)) (snd (loc a b)) (get g k j 0)).
Proof.
  intros r n ts ms pos land S B loc x y mean X V HS HR2 HM WL HG HLoc HD HR Hme HX. destruct (C126_rasters r n ts ms pos land S B loc x y V HS HR2 HM WL HG HLoc) as (maps & E & Lm & Q). exists maps. split; [exact E|]. split; [exact Lm|].
  intros t Ht. destruct (Q t Ht) as (g & G1 & _ & _ & _ & G5). exists g. split; [exact G1|]. intros j k a b Hj Hk. destruct (G5 j k a b Hj Hk) as (v & Hv & P1 & _). exists v. split; [exact Hv|]. intros Hl.
  eapply map_of_ext; [|apply (P1 Hl)].
  intros cs l m Ll Lmm. unfold anomaly, removed_field, filtered, maybe_destriped, reference. rewrite HD, Hme, HR. rewrite HX by assumption.
  rewrite (sumn_ext _ (fun k0 => part (nth k0 (p_remove r) (p_gia r)) (pos k0 t) cs l m - 0) (fun k0 => part (nth k0 (p_remove r) (p_gia r)) (pos k0 t) cs l m)) by (intros; ring). ring.
Qed.
Print Assumptions C126_recover.

(** ** What stops a run *)
(** all steps before the grid *)
Lemma before_grid r n ts ms pos land S B loc : run_ok r n ts ms pos ->
  exists h gia removed, grace_raster_grids r land S B loc =
    (do units <- bycode (p_units r); do s <- raster_spacing S; do ax <- raster_axes (fst s) (snd s) B;
     let at_ := map (point_at loc (fst ax) (snd ax)) (grid_points (List.length (snd ax)) (List.length (fst ax))) in
     do mask <- clenshaw_summation (clm land) (slm land) (map fst at_) (map snd at_) (2 * p_rad r) (UCode 1) (p_lmax r) (Some (p_love r)) clenshaw_scale;
     do maps <- mapM (one_raster (p_lmin r) (p_lmax r) (max_order r) (p_rad r) units (p_love r) loc (fst ax) (snd ax)
       (selected (grid_points (List.length (snd ax)) (List.length (fst ax))) mask) h gia removed) (seq 0 (List.length ms));
     Ok (fst ax, snd ax, maps)).
Proof.
  intros V. unfold grace_raster_grids. cbv zeta. rewrite max_order_of. pose proof (g_degree _ _ _ _ _ V) as HL.
  destruct (centred_ok _ _ _ _ _ V) as (h & E1 & K1). rewrite E1. cbn [bind].
  destruct (maybe_destripe_ok (p_destripe r) (p_lmax r) (max_order r) n ts ms _ _ K1 ltac:(lia)) as (h2 & E2 & K2). rewrite E2. cbn [bind]. rewrite (o_ts _ _ _ _ _ _ _ K2), (o_ms _ _ _ _ _ _ _ K2). cbn [list_of bind].
  destruct (drift_ok _ _ _ _ _ V) as (gia & E3 & _). rewrite E3. cbn [bind]. rewrite (o_lt _ _ _ _ _ _ _ K2). pose proof (g_months _ _ _ _ _ V) as Hn. replace (n =? 1)%nat with false by lia.
  rewrite (o_l _ _ _ _ _ _ _ K2), (o_m _ _ _ _ _ _ _ K2). destruct (g_forms _ _ _ _ _ V) as [F1 F2]. rewrite (all_forms _ _ F1 F2).
  destruct (all_removed r n ts ms pos V (repeat 0 n) (repeat 0%Z n) (p_remove r) _ _ 0 (zeros_ok r n)) as (rem & E4 & K4); [intros k f Hk; exact Hk|].
  rewrite E4. cbn [bind]. eexists. eexists. eexists.
  destruct (bycode (p_units r)); [|reflexivity]. cbn [bind]. destruct (raster_spacing S) as [[dx dy]|]; [|reflexivity]. cbn [bind fst snd].
  destruct (raster_axes dx dy B) as [[x y]|]; [|reflexivity]. cbn [bind fst snd]. reflexivity.
Qed.

(** REFUTED: a maximum order below the maximum degree stops the program: the summation takes orders up to the maximum degree *)
Theorem C126_order_refuted : forall r n ts ms pos land S B loc x y, run_ok r n ts ms pos -> settings_ok r -> radius_ok (2 * p_rad r) ->
  (max_order r < p_lmax r)%nat -> wf land -> lmax land = p_lmax r -> mmax land = max_order r -> raster_grid S B x y ->
  grace_raster_grids r land S B loc = Err IndexError.
Proof.
  intros r n ts ms pos land S B loc x y V HS HR2 HM (W1 & W2 & _) W3 W4 HG. destruct (before_grid r n ts ms pos land S B loc V) as (h & gia & rem & E). rewrite E. clear E.
  destruct (grid_axes_ok _ _ _ _ HG) as (dx & dy & Es & Ea).
  destruct (settings_steps r (g_degree _ _ _ _ _ V) HS HR2) as (wt & df & wt2 & df2 & name & _ & _ & _ & _ & _ & _ & _ & Eu & Ew2 & Lw2 & _ & Ed2 & Ld2 & _).
  rewrite Eu. cbn [bind]. rewrite Es. cbn [bind fst snd]. rewrite Ea. cbn [bind fst snd]. cbv zeta.
  match goal with |- (do m <- ?c; _) = _ => assert (Em : c = Err IndexError) end; [|rewrite Em; reflexivity].
  unfold clenshaw_summation. rewrite !map_length, Nat.eqb_refl. cbn [negb]. rewrite Ew2. cbn [bind].
  etransitivity; [apply (f_equal (fun d => bind d _) Ed2)|]. cbn [bind].
  destruct (mul_ok df2 wt2 _ Ld2 Lw2) as (f & Ef & Lf & _). rewrite Ef. cbn [bind]. rewrite Lf. replace (p_lmax r + 1 <? p_lmax r + 1)%nat with false by lia.
  rewrite W2, W4. replace (max_order r + 1 <? p_lmax r + 1)%nat with true by lia. rewrite orb_true_r. reflexivity.
Qed.
Print Assumptions C126_order_refuted.

(** a spacing needs one or two values, the bounds four *)
Theorem C126_bounds : forall r n ts ms pos land S B loc, run_ok r n ts ms pos -> (exists name, unit_code (p_units r) name) ->
  (List.length S <> 1%nat -> List.length S <> 2%nat -> grace_raster_grids r land S B loc = Err ValueError) /\
  (forall dx dy, spacings S dx dy -> List.length B <> 4%nat -> grace_raster_grids r land S B loc = Err ValueError).
Proof.
  intros r n ts ms pos land S B loc V (name & HU). destruct (before_grid r n ts ms pos land S B loc V) as (h & gia & rem & E). rewrite E. clear E.
  rewrite (C40_documented_codes _ _ HU). cbn [bind]. split.
  - intros N1 N2. destruct S as [|a [|b [|c S]]]; cbn [List.length] in N1, N2; try lia; reflexivity.
  - intros dx dy HS N. rewrite (spacings_ok _ _ _ HS). cbn [bind fst snd]. destruct B as [|a [|b [|c [|d [|e B]]]]]; cbn [List.length] in N; try lia; reflexivity.
Qed.
Print Assumptions C126_bounds.

(** a field to be removed that is given as one data file stops the program *)
Theorem C126_one_file_refuted : forall r n ts ms pos f files fs land Sp B loc, run_ok (with_forms r [IndexFile]) n ts ms pos ->
  p_remove r = f :: files -> p_forms r = OneFile :: fs -> grace_raster_grids r land Sp B loc = Err AttributeError.
Proof.
  intros r n ts ms pos f files fs land Sp B loc V Ef Eform. pose proof (g_degree _ _ _ _ _ V) as HL. cbn [with_forms p_lmax] in HL. unfold grace_raster_grids. cbv zeta.
  destruct (centred_ok _ _ _ _ _ V) as (h & E1 & K1). cbn [with_forms p_grace p_mean p_lmax] in E1, K1. change (max_order (with_forms r [IndexFile])) with (max_order r) in K1. rewrite E1. cbn [bind].
  destruct (maybe_destripe_ok (p_destripe r) (p_lmax r) (max_order r) n ts ms _ _ K1 ltac:(lia)) as (h2 & E2 & K2). rewrite E2. cbn [bind]. rewrite (o_ts _ _ _ _ _ _ _ K2), (o_ms _ _ _ _ _ _ _ K2). cbn [list_of bind].
  destruct (drift_ok _ _ _ _ _ V) as (gia & E3 & _). cbn [with_forms p_gia] in E3. rewrite E3. cbn [bind]. rewrite (o_lt _ _ _ _ _ _ _ K2). pose proof (g_months _ _ _ _ _ V) as Hn. replace (n =? 1)%nat with false by lia.
  rewrite Ef, Eform. unfold with_form. cbn [List.length]. destruct (S (List.length fs) <? S (List.length files))%nat; cbn [repeat List.concat combine app remove_all remove_one snd bind]; reflexivity.
Qed.
Print Assumptions C126_one_file_refuted.

(** ** A concrete run: the run of C97_example on the whole globe in longitude and latitude, 90 degrees by 45 degrees, with land everywhere:
    five columns, the last beyond the bounds, and four rows at the edges of the cells *)
Definition ex_loc (a b : R) : R * R := (a, b).
Example C126_example : run_ok ex_run 2 [2005; 2006] [37; 49]%Z (fun k t => S t) /\ settings_ok ex_run /\ radius_ok (2 * p_rad ex_run) /\ max_order ex_run = p_lmax ex_run /\
  land_ok ex_run (ex_field (fun l m => 1)) /\
  raster_grid [90; 45] [-180; 180; -90; 90] [-135; -45; 45; 135; 225] [-45; 0; 45; 90] /\
  (forall a b, In a [-135; -45; 45; 135; 225] -> In b [-45; 0; 45; 90] -> -90 <= snd (ex_loc a b) <= 90).
Proof.
  destruct C97_example as (H1 & H2 & _). split; [exact H1|]. split; [exact H2|].
  split; [left; cbn [ex_run p_rad]; rewrite Rmult_0_r; apply Rinv_0_lt_compat; apply pow_lt; lra|]. split; [reflexivity|]. split; [repeat split|]. split.
  - exists 90, 45, (-180), 180, (-90), 90. split; [right; reflexivity|]. do 2 (split; [lra|]). split; [reflexivity|]. split.
    + split; [cbn [List.length seq map INR]; repeat f_equal; lra|]. cbn [List.length]. split; [|cbn [INR]; lra]. intros k Hk. assert (INR k <= INR 4) by (apply le_INR; lia). cbn [INR] in H. lra.
    + split; [cbn [List.length seq map INR]; repeat f_equal; lra|]. cbn [List.length]. split; [|cbn [INR]; lra]. intros k Hk. assert (INR k <= INR 3) by (apply le_INR; lia). cbn [INR] in H. lra.
  - intros a b _ Hb. unfold ex_loc. cbn [snd]. cbn [In] in Hb. lra.
Qed.
