(** C97, C98: the maps of grace_spatial_maps and combine_harmonics, end to end (model: MapsModel.v, lemmas: MapsProofs.v). *)
From Coq Require Import Reals Lra Lia String Sorting.Sorted ZifyBool ZifyNat.
From Coquelicot Require Import Coquelicot.
From Verif Require Import FourierGenProofs Base UnitsModel PropUnits GaussModel PropGauss LegendreModel LegendreSpec2 DestripeModel DestripeProofs SummationModel SummationProofs PropFactors GenModel MasconModel PropLegendre PropSummation
  PropSmoothMap PropMascon PropSmooth PropSlr Arr HarmModel HarmProofs HarmProofs2 HarmProofs3 MapsModel MapsProofs.
Close Scope Z_scope.
Close Scope string_scope.
Open Scope R_scope.

(** ** Specification: one month *)
(** the maximum order of a run: the given one; the maximum degree if none or zero is given *)
Definition max_order (r : mrun) : nat := match p_mmax r with Some (S k) => S k | _ => p_lmax r end.
(** the inputs a complete run needs; [pos k t] is the place of month t in file number k of the files to be removed *)
Record run_ok (r : mrun) (n : nat) (ts : list R) (ms : list Z) (pos : nat -> nat -> nat) : Prop := mkrun_ok {
  g_degree : (2 <= p_lmax r)%nat; g_order : (max_order r <= p_lmax r)%nat; g_months : (2 <= n)%nat;
  g_grace : wf (p_grace r) /\ lmax (p_grace r) = p_lmax r /\ mmax (p_grace r) = max_order r /\ depth (clm (p_grace r)) = Some n /\ time (p_grace r) = TArr ts /\ month (p_grace r) = TArr ms;
  g_sorted : StronglySorted Z.lt ms;
  g_mean : forall m, p_mean r = Some m -> wf m /\ depth (clm m) = None;
  g_gia : wf (p_gia r) /\ depth (clm (p_gia r)) = None;
  g_remove : forall k f, nth_error (p_remove r) k = Some f ->
    exists n' fts fms, wf f /\ depth (clm f) = Some n' /\ time f = TArr fts /\ month f = TArr fms /\ StronglySorted Z.lt fms /\
      forall t, (t < n)%nat -> nth_error fms (pos k t) = Some (nth t ms 0%Z);
  g_forms : p_forms r <> [] /\ Forall (fun f => f = IndexFile) (p_forms r);
  g_ocean : wf (p_ocean r) /\ depth (clm (p_ocean r)) = None /\ lmax (p_ocean r) = p_lmax r /\ mmax (p_ocean r) = max_order r }.
(** the mean field: the given one, or the average of all months *)
Definition reference (r : mrun) (n : nat) : coefs := fun cs l m =>
  match p_mean r with Some f => part f 0 cs l m | None => sumn n (fun u => part (p_grace r) u cs l m) / INR n end.
(** a field passes the decorrelation filter of destripe_harmonics (C42) only if this was asked for *)
Definition filtered (r : mrun) : coefs -> coefs := maybe_destriped (p_destripe r) (p_lmax r) (max_order r).
(** a removed field: with redistribution, its total mass is taken out as a layer of water over the ocean *)
Definition removed_field (r : mrun) (f : harm) (t : nat) : coefs :=
  filtered r (fun cs l m => part f t cs l m - (if p_redistribute r then part f t false 0%nat 0%nat / part (p_ocean r) 0 false 0%nat 0%nat * part (p_ocean r) 0 cs l m else 0)).
(** the anomaly of month t: GRACE less the mean, less the glacial isostatic adjustment since 2003.3, less the removed fields *)
Definition anomaly (r : mrun) (n : nat) (ts : list R) (pos : nat -> nat -> nat) (t : nat) : coefs := fun cs l m =>
  filtered r (fun cs l m => part (p_grace r) t cs l m - reference r n cs l m) cs l m
  - part (p_gia r) 0 cs l m * (nth t ts 0 - 20033 / 10)
  - sumn (List.length (p_remove r)) (fun k => removed_field r (nth k (p_remove r) (p_gia r)) (pos k t) cs l m).

(** ** Proofs *)
Lemma max_order_of r : order_of (p_lmax r) (p_mmax r) = max_order r.
Proof. reflexivity. Qed.
Lemma mo_pos r : (2 <= p_lmax r)%nat -> (1 <= max_order r)%nat.
Proof. unfold max_order. destruct (p_mmax r) as [[|k]|]; lia. Qed.
Lemma spread_spec r f t : forall cs l m,
  mass_spread (if p_redistribute r then Some (part (p_ocean r) 0) else None) (part f t) cs l m =
  part f t cs l m - (if p_redistribute r then part f t false 0%nat 0%nat / part (p_ocean r) 0 false 0%nat 0%nat * part (p_ocean r) 0 cs l m else 0).
Proof. intros. unfold mass_spread. destruct (p_redistribute r); ring. Qed.
Lemma filtered_ext r Y Z cs l m : (2 <= p_lmax r)%nat -> (m <= l <= p_lmax r)%nat -> (m <= max_order r)%nat ->
  (forall j, (m <= j <= p_lmax r)%nat -> Y cs j m = Z cs j m) -> filtered r Y cs l m = filtered r Z cs l m.
Proof. intros HL Hl Hm H. unfold filtered, maybe_destriped. destruct (p_destripe r); [apply destriped_ext; auto; lia|auto]. Qed.

Lemma all_forms files forms : forms <> [] -> Forall (fun f => f = IndexFile) forms -> with_form files forms = map (fun f => (f, IndexFile)) files.
Proof.
  intros N F. unfold with_form.
  assert (G : forall fs, Forall (fun f => f = IndexFile) fs -> (List.length files <= List.length fs)%nat -> combine files fs = map (fun f => (f, IndexFile)) files).
  { clear. induction files as [|a files IH]; intros fs F Hl; [reflexivity|]. destruct fs as [|x fs]; [cbn in Hl; lia|]. inversion F; subst. cbn [combine map]. rewrite IH; auto. cbn in Hl. lia. }
  apply G.
  - destruct (_ <? _)%nat; [|exact F]. apply Forall_concat. apply Forall_forall. intros x Hx. apply repeat_spec in Hx. subst x. exact F.
  - destruct (Nat.ltb_spec (List.length forms) (List.length files)) as [H|H]; [|lia].
    assert (C : forall k, (k <= List.length (List.concat (repeat forms k)))%nat).
    { induction k; [cbn; lia|]. cbn [repeat List.concat]. rewrite app_length. destruct forms; [congruence|]. cbn [List.length]. lia. }
    apply C.
Qed.

Section Run.
Context (r : mrun) (n : nat) (ts : list R) (ms : list Z) (pos : nat -> nat -> nat) (V : run_ok r n ts ms pos).
Let L := p_lmax r.
Let M := max_order r.

Lemma centred_ok : exists h, centred (p_grace r) (p_mean r) = Ok h /\
  holds L M n ts ms (fun t cs l m => part (p_grace r) t cs l m - reference r n cs l m) h.
Proof.
  destruct V as [HL HM Hn (Wg & G1 & G2 & G3 & G4 & G5) HS Hmean _ _ _ _].
  pose proof (holds_of_wf _ _ _ _ Wg G3 G4 G5) as H. rewrite G1, G2 in H. fold L M in H. unfold centred, reference. destruct (p_mean r) as [mf|].
  - destruct (Hmean mf eq_refl) as [Wm Dm]. destruct (sub_flat _ _ _ _ _ _ _ mf H Wm Dm) as (h & E & K). exists h. auto.
  - destruct (mean_removed _ _ _ _ _ _ _ H ltac:(lia)) as (h & x & E & K). exists h. rewrite E. cbn [bind fst]. auto.
Qed.

Lemma one_removed t0 m0 total Y k f : holds L M n t0 m0 Y total -> nth_error (p_remove r) k = Some f ->
  exists t', remove_one r ms total (f, IndexFile) = Ok t' /\ holds L M n t0 m0 (fun t cs l m => Y t cs l m + removed_field r f (pos k t) cs l m) t'.
Proof.
  intros H Hk. destruct V as [HL HM Hn (Wg & G1 & G2 & G3 & G4 & G5) HS _ _ Hrem _ (Wo & Do & Lo & Mo)].
  destruct (Hrem k f Hk) as (n' & fts & fms & Wf & Df & Tf & Mf & Sf & Pf).
  assert (Lm : List.length ms = n). { destruct Wg as (_ & _ & _ & X). rewrite G3 in X. destruct X as (a & b & _ & B & _ & <-). rewrite G5 in B. injection B as <-. reflexivity. }
  destruct (subset_trunc f n' fts fms L M n ms (pos k) Wf Df Tf Mf Sf HS Lm Hn (mo_pos r HL) Pf) as (y & ts' & E1 & K1).
  unfold remove_one. cbn [snd fst]. rewrite E1. cbn [bind]. rewrite max_order_of. fold L M.
  destruct (maybe_spread_ok L M n ts' ms _ _ (p_redistribute r) (p_ocean r) K1 Wo Do Lo Mo) as (y2 & E2 & K2). rewrite E2. cbn [bind].
  destruct (maybe_destripe_ok (p_destripe r) L M n ts' ms _ _ K2 ltac:(subst L; lia)) as (y3 & E3 & K3). rewrite E3. cbn [bind].
  destruct (add_series L M n t0 m0 ts' ms _ _ total y3 H K3 Hn) as (t' & E4 & K4). exists t'. split; [exact E4|].
  eapply holds_ext; [exact K4|]. intros t cs l m Ht Hl Hm. cbv beta. f_equal. unfold removed_field. apply filtered_ext; auto. intros j Hj. apply spread_spec.
Qed.
Lemma all_removed t0 m0 : forall fs total Y k0, holds L M n t0 m0 Y total ->
  (forall k f, nth_error fs k = Some f -> nth_error (p_remove r) (k0 + k) = Some f) ->
  exists t', remove_all r ms total (map (fun f => (f, IndexFile)) fs) = Ok t' /\
    holds L M n t0 m0 (fun t cs l m => Y t cs l m + sumn (List.length fs) (fun k => removed_field r (nth k fs (p_gia r)) (pos (k0 + k) t) cs l m)) t'.
Proof.
  induction fs as [|f fs IH]; intros total Y k0 H Hf.
  - exists total. split; [reflexivity|]. eapply holds_ext; [exact H|]. intros. cbn [List.length sumn]. ring.
  - cbn [map remove_all]. pose proof (Hf 0%nat f eq_refl) as H0. rewrite Nat.add_0_r in H0. destruct (one_removed t0 m0 total Y k0 f H H0) as (t1 & E1 & K1). rewrite E1. cbn [bind].
    destruct (IH t1 _ (S k0) K1) as (t2 & E2 & K2). { intros k g Hg. replace (S k0 + k)%nat with (k0 + S k)%nat by lia. apply Hf. exact Hg. }
    exists t2. split; [exact E2|]. eapply holds_ext; [exact K2|]. intros t cs l m Ht Hl Hm. cbv beta. cbn [List.length]. rewrite LegendreFourier.sumn_first. cbn [nth]. rewrite Nat.add_0_r.
    rewrite Rplus_assoc. do 2 f_equal. apply sumn_ext. intros k Hk. replace (k0 + S k)%nat with (S k0 + k)%nat by lia. reflexivity.
Qed.

Lemma zeros_ok : holds L M n (repeat 0 n) (repeat 0%Z n) (fun _ _ _ _ => 0) (zeros L M (Some n) TNone TNone).
Proof.
  constructor; cbn; auto using repeat_length; [repeat split|]. intros t [] l m; reflexivity.
Qed.
Lemma months_len : List.length ts = n /\ List.length ms = n.
Proof.
  destruct V as [_ _ _ (Wg & _ & _ & G3 & G4 & G5) _ _ _ _ _ _]. destruct Wg as (_ & _ & _ & X). rewrite G3 in X. destruct X as (a & b & T & B & L1 & L2). rewrite G4 in T. rewrite G5 in B. injection T as <-. injection B as <-. auto.
Qed.
Lemma drift_ok : exists g, HarmModel.drift (p_gia r) ts (20033 / 10) ms = Ok g /\
  holds (lmax (p_gia r)) (mmax (p_gia r)) n ts ms (fun t cs l m => part (p_gia r) 0 cs l m * (nth t ts 0 - 20033 / 10)) g.
Proof.
  destruct months_len as [L1 L2]. destruct V as [_ _ _ _ _ _ (Wi & Di) _ _ _]. unfold HarmModel.drift. rewrite Di, L1. eexists. split; [reflexivity|].
  constructor; cbn [lmax mmax clm slm rows cols depth time month]; auto; [repeat split|].
  intros t cs l m Ht Hl Hm. unfold part. replace ((l <=? lmax (p_gia r)) && (m <=? mmax (p_gia r)))%nat with true by lia. destruct cs; reflexivity.
Qed.
(** everything before the grid *)
Lemma maps_ok lon lat wt df s : smoothing (p_rad r) L = Ok wt -> List.length wt = (L + 1)%nat ->
  degree_factor L (UCode (p_units r)) (Some (p_love r)) = Ok df -> List.length df = (L + 1)%nat ->
  spacing_of (p_ddeg r) = Ok s -> grid_axes (-180) (p_interval r) (fst s) (snd s) (p_bounds r) = Ok (lon, lat) ->
  List.length lon <> 1%nat -> List.length lat <> 1%nat ->
  exists maps, grace_spatial_maps r = Ok (lon, lat, maps) /\ List.length maps = n /\
    forall t, (t < n)%nat -> exists g, nth_error maps t = Some (nth t ts 0, nth t ms 0%Z, g) /\ rows g = List.length lat /\ cols g = List.length lon /\ depth g = None /\
      forall i k x y, nth_error lon i = Some x -> nth_error lat k = Some y -> -90 < y < 90 ->
        get g k i 0 = series (fun l m => nth l df 0 * nth l wt 0 * anomaly r n ts pos t false l m) (fun l m => nth l df 0 * nth l wt 0 * anomaly r n ts pos t true l m)
          (p_lmin r) L M (colat y) (deg x).
Proof.
  intros Ew Lw Ed Ld Es Eg Nlon Nlat. unfold grace_spatial_maps. cbv zeta. rewrite max_order_of. fold L M. rewrite Ew. cbn [bind].
  destruct centred_ok as (h & E1 & K1). rewrite E1. cbn [bind]. pose proof (g_degree _ _ _ _ _ V) as HL. pose proof (g_order _ _ _ _ _ V) as HM. pose proof (g_months _ _ _ _ _ V) as Hn. fold L M in HL, HM.
  destruct (maybe_destripe_ok (p_destripe r) L M n ts ms _ _ K1 ltac:(lia)) as (h2 & E2 & K2). rewrite E2. cbn [bind]. rewrite (o_ts _ _ _ _ _ _ _ K2), (o_ms _ _ _ _ _ _ _ K2). cbn [list_of bind].
  destruct drift_ok as (gia & E3 & K3). rewrite E3. cbn [bind]. destruct months_len as [L1 L2]. rewrite L1. replace (n =? 1)%nat with false by lia.
  rewrite (o_l _ _ _ _ _ _ _ K2), (o_m _ _ _ _ _ _ _ K2). destruct (g_forms _ _ _ _ _ V) as [F1 F2]. rewrite (all_forms _ _ F1 F2).
  destruct (all_removed (repeat 0 n) (repeat 0%Z n) (p_remove r) _ _ 0 zeros_ok) as (rem & E4 & K4); [intros k f Hk; exact Hk|].
  rewrite E4. cbn [bind]. rewrite Es. cbn [bind]. rewrite Eg. cbn [bind].
  assert (K5 : holds L M n ts ms (fun t cs l m => sumn (List.length (p_remove r)) (fun k => removed_field r (nth k (p_remove r) (p_gia r)) (pos k t) cs l m))
     (mkharm (lmax rem) (mmax rem) (clm rem) (slm rem) (TArr ts) (TArr ms))).
  { destruct K4 as [Q1 Q2 Q3 Q4 Q5 Q6 Q7 Q8 Q9 Q10 Q11]. constructor; cbn [lmax mmax clm slm time month]; auto. intros t cs l m Ht Hl Hm. specialize (Q11 t cs l m Ht Hl Hm). cbn [Nat.add] in Q11. rewrite Rplus_0_l in Q11. rewrite <- Q11. destruct cs; reflexivity. }
  set (rem' := mkharm _ _ _ _ _ _) in K5 |- *. clearbody rem'. clear K4 E4 rem.
  destruct (holmes_rows L (map (fun x => cos (colat x)) lat) HL) as (P & D & EP & _). rewrite EP. cbn [bind fst]. rewrite Ed. cbn [bind].
  destruct (mul_ok df wt (L + 1) Ld Lw) as (f & Ef & Lf & Vf). rewrite Ef. cbn [bind]. rewrite L2.
  assert (G : forall t, (t < n)%nat -> exists g, one_map (p_lmin r) L M f lon lat P h2 gia rem' t = Ok (nth t ts 0, nth t ms 0%Z, g) /\ rows g = List.length lat /\ cols g = List.length lon /\ depth g = None /\
      forall i k x y, nth_error lon i = Some x -> nth_error lat k = Some y -> -90 < y < 90 ->
        get g k i 0 = series (fun l m => nth l df 0 * nth l wt 0 * anomaly r n ts pos t false l m) (fun l m => nth l df 0 * nth l wt 0 * anomaly r n ts pos t true l m)
          (p_lmin r) L M (colat y) (deg x)).
  { intros t Ht. unfold one_map.
    destruct (index_ok _ _ _ _ _ _ _ t K2 Ht) as (a1 & A1 & B1). rewrite A1. cbn [bind].
    destruct (index_ok _ _ _ _ _ _ _ t K3 Ht) as (a2 & A2 & B2). rewrite A2. cbn [bind].
    destruct (sub_single _ _ _ _ _ _ _ _ _ _ _ _ B1 B2) as (a3 & A3 & B3). rewrite A3. cbn [bind].
    destruct (index_ok _ _ _ _ _ _ _ t K5 Ht) as (a4 & A4 & B4). rewrite A4. cbn [bind].
    destruct (sub_single _ _ _ _ _ _ _ _ _ _ _ _ B3 B4) as (a5 & A5 & B5). rewrite A5. cbn [bind].
    destruct (convolve_ok _ _ _ _ _ _ f B5 ltac:(lia)) as (a6 & A6 & B6). rewrite A6. cbn [bind].
    destruct (map_ok _ _ _ _ _ _ (p_lmin r) lon lat P D B6 HL HM Nlon Nlat EP) as (out & A7 & B7). rewrite A7. cbn [bind].
    rewrite (s_ts _ _ _ _ _ _ B6), (s_ms _ _ _ _ _ _ B6). cbn [scalar bind]. eexists. split; [reflexivity|]. split; [reflexivity|]. split; [reflexivity|]. split; [reflexivity|].
    intros i k x y Hx Hy Hr. rewrite (B7 i k x y Hx Hy Hr). apply series_tri.
    assert (G : forall cs l m, (m <= l <= L)%nat -> (m <= M)%nat -> nth l f 0 * (maybe_destriped (p_destripe r) L M (fun cs l m => part (p_grace r) t cs l m - reference r n cs l m) cs l m
        - (if ((l <=? lmax (p_gia r)) && (m <=? mmax (p_gia r)))%nat then part (p_gia r) 0 cs l m * (nth t ts 0 - 20033 / 10) else 0)
        - (if ((l <=? L) && (m <=? M))%nat then sumn (List.length (p_remove r)) (fun k => removed_field r (nth k (p_remove r) (p_gia r)) (pos k t) cs l m) else 0))
        = nth l df 0 * nth l wt 0 * anomaly r n ts pos t cs l m).
    { intros cs l m Hl Hm. rewrite Vf by lia. f_equal. unfold anomaly. replace ((l <=? L) && (m <=? M))%nat with true by lia. f_equal. f_equal.
      unfold part. destruct ((l <=? lmax (p_gia r)) && (m <=? mmax (p_gia r)))%nat; ring. }
    intros l m Hl Hm. split; apply G; auto. }
  destruct (mapM_all (one_map (p_lmin r) L M f lon lat P h2 gia rem') (seq 0 n)) as (maps & E6).
  { intros i Hi. apply in_seq in Hi. destruct (G i ltac:(lia)) as (g & Eg' & _). eexists. exact Eg'. }
  rewrite E6. cbn [bind]. exists maps. split; [reflexivity|]. destruct (mapM_nth _ _ _ E6) as [Lm Vm]. rewrite seq_length in *. split; [exact Lm|].
  intros t Ht. destruct (G t Ht) as (g & Eg' & Q). exists g. split; [|exact Q].
  specialize (Vm t 0%nat (0, 0%Z, g) Ht). rewrite seq_nth in Vm by exact Ht. cbn [Nat.add] in Vm. rewrite Eg' in Vm. injection Vm as Vm.
  rewrite (nth_error_nth' maps (n := t) (0, 0%Z, g)) by lia. f_equal. symmetry. exact Vm.
Qed.
End Run.

(** ** Specification: units, smoothing and grid *)
(** the weight of degree l for a Gaussian filter of half-width RAD (kilometres): 1 below a tenth of a micrometre; otherwise the
    coefficient of Jekeli (1981) for the kernel that halves at the distance RAD, from degree 2 on not below 2 pi 1e-10 *)
Definition gauss_weight (RAD : R) (l : nat) (w : R) : Prop :=
  (RAD < / 10 ^ 10 /\ w = 1) \/
  (/ 10 ^ 10 <= RAD /\ exists b, half_weight b RAD /\ w = if (l <=? 1)%nat then jekeli b l else Rmax (jekeli b l) (2 * PI / 10 ^ 10)).
(** the kernel of the half-width exists: RAD is no multiple of the circumference of the Earth *)
Definition radius_ok (RAD : R) : Prop := RAD < / 10 ^ 10 \/ cos (RAD / 6371) <> 1.
Definition love_ok (love : love3) (L : nat) : Prop :=
  let '(h, k, ll) := love in (L < List.length h)%nat /\ (L < List.length k)%nat /\ (L < List.length ll)%nat.
(** the factor of degree l of Wahr et al. (1998) for the unit with this code and these load Love numbers *)
Definition unit_factor (code : Z) (love : love3) (l : nat) (v : R) : Prop :=
  let '(h, k, ll) := love in exists name, unit_code code name /\ wahr l (nth l h 0) (nth l k 0) (nth l ll 0) name v.
(** the spacing of longitudes and latitudes *)
Definition steps (DDEG : list R) (dlon dlat : R) : Prop := DDEG = [dlon] /\ dlat = dlon \/ exists rest, DDEG = dlon :: dlat :: rest.
(** INTERVAL 1: points from edge to edge of the globe; INTERVAL 2: cell centers of the globe; INTERVAL 3: cell centers of a region.
    Longitudes go up, latitudes go down; the steps divide the ranges *)
Inductive axes (lon0 : R) (bounds : option (R * R * R * R)) (dlon dlat : R) : Z -> list R -> list R -> Prop :=
| points n m : 0 < dlon -> 0 < dlat -> INR n * dlon = 360 -> INR m * dlat = 180 ->
    axes lon0 bounds dlon dlat 1 (map (fun i => lon0 + INR i * dlon) (seq 0 (n + 1))) (map (fun k => 90 - INR k * dlat) (seq 0 (m + 1)))
| cells n m : 0 < dlon -> 0 < dlat -> INR n * dlon = 360 -> INR m * dlat = 180 ->
    axes lon0 bounds dlon dlat 2 (map (fun i => lon0 + dlon / 2 + INR i * dlon) (seq 0 n)) (map (fun k => 90 - dlat / 2 - INR k * dlat) (seq 0 m))
| region minlon maxlon minlat maxlat n m : bounds = Some (minlon, maxlon, minlat, maxlat) ->
    0 < dlon -> 0 < dlat -> INR n * dlon = maxlon - minlon -> INR m * dlat = maxlat - minlat ->
    axes lon0 bounds dlon dlat 3 (map (fun i => minlon + dlon / 2 + INR i * dlon) (seq 0 n)) (map (fun k => maxlat - dlat / 2 - INR k * dlat) (seq 0 m)).
Definition grid_of (lon0 : R) (DDEG : list R) (INTERVAL : Z) (bounds : option (R * R * R * R)) (lon lat : list R) : Prop :=
  exists dlon dlat, steps DDEG dlon dlat /\ axes lon0 bounds dlon dlat INTERVAL lon lat.

(** ** Proofs *)
Lemma wahr_fun code name : unit_code code name -> exists F, forall l h k ll, wahr l h k ll name (F l h k ll).
Proof.
  destruct 1.
  - exists (fun _ _ _ _ => 1). intros. constructor.
  - exists (fun l h k ll => rho_e PropFactors.earth * rad_e PropFactors.earth * (2 * INR l + 1) / (3 * (1 + k))). intros. constructor.
  - exists (fun l h k ll => 10 * rad_e PropFactors.earth). intros. constructor.
  - exists (fun l h k ll => 10 * rad_e PropFactors.earth * h / (1 + k)). intros. constructor.
  - exists (fun l h k ll => 10 ^ 6 * GM * (INR l + 1) / rad_e PropFactors.earth ^ 2). intros. constructor.
  - exists (fun l h k ll => g_wmo / 1000 * (rho_e PropFactors.earth * rad_e PropFactors.earth * (2 * INR l + 1) / (3 * (1 + k)))). intros. constructor.
  - exists (fun l h k ll => rad_e PropFactors.earth * (2 * INR l + 1) / 2). intros. constructor.
Qed.
Lemma factors_all code name love L : unit_code code name -> love_ok love L ->
  exists df, degree_factor L (UCode code) (Some love) = Ok df /\ List.length df = (L + 1)%nat /\ forall l, (l <= L)%nat -> unit_factor code love l (nth l df 0).
Proof.
  intros U. destruct love as [[h k] ll]. intros (H1 & H2 & H3). destruct (C45_factors L h k ll H1 H2 H3) as (_ & FC & FN & _). destruct (wahr_fun _ _ U) as [F HF].
  assert (Q : forall l, (l <= L)%nat -> exists df, degree_factor L (UCode code) (Some (h, k, ll)) = Ok df /\ nth_error df l = Some (F l (nth l h 0) (nth l k 0) (nth l ll 0))).
  { intros l Hl. rewrite (FC _ _ U). apply (FN name l _ (nth l h 0) (nth l k 0) (nth l ll 0) Hl); [apply nth_error_nth'; lia|apply nth_error_nth'; lia|apply nth_error_nth'; lia|apply HF]. }
  destruct (Q 0%nat ltac:(lia)) as (df & E & _). exists df. split; [exact E|]. split.
  - unfold degree_factor in E. destruct (UnitsProofs.harmonic_ok h k ll true false (units_init (Some L) a_default flat_default) L eq_refl H1 ltac:(auto) H3) as (u & Eu & _ & _ & _ & n1 & cw & mw & gh & cu & ch & cv & mv & ug & mb & pa & D1 & D2 & D3 & D4 & D5 & D6 & D7 & D8 & D9 & D10 & D11 & N1 & N2 & N3 & N4 & N5 & N6 & N7 & N8 & N9 & N10 & N11 & _).
    rewrite Eu in E. cbn [bind] in E. rewrite (C40_documented_codes _ _ U) in E. cbn [bind] in E. destruct U; unfold UnitsModel.get in E; cbn [String.eqb Ascii.eqb Bool.eqb] in E;
      rewrite ?D1, ?D2, ?D3, ?D4, ?D5, ?D6, ?D7, ?D8, ?D9, ?D10, ?D11 in E; cbn [bind] in E; injection E as <-; lia.
  - intros l Hl. cbn [unit_factor]. exists name. split; [exact U|]. destruct (Q l Hl) as (df' & E' & V). assert (df' = df) by congruence. subst df'. rewrite (nth_error_nth _ _ 0 V). apply HF.
Qed.
Lemma weights_all RAD L : (1 <= L)%nat -> radius_ok RAD ->
  exists wt, smoothing RAD L = Ok wt /\ List.length wt = (L + 1)%nat /\ forall l, (l <= L)%nat -> gauss_weight RAD l (nth l wt 0).
Proof.
  intros HL HR. destruct (C45_smoothing RAD L HL) as [S0 S1]. assert (C0 : 0 < / 10 ^ 10) by (apply Rinv_0_lt_compat; apply pow_lt; lra).
  destruct (Rlt_or_le RAD (/ 10 ^ 10)) as [Hs|Hs].
  - destruct (Req_dec RAD 0) as [Z0|NZ].
    + exists (repeat 1 (L + 1)). split; [apply S0; exact Z0|]. rewrite repeat_length. split; [reflexivity|]. intros l Hl. left. split; [exact Hs|].
      rewrite (nth_indep _ 0 1) by (rewrite repeat_length; lia). apply nth_repeat.
    + unfold smoothing. destruct (Req_EM_T RAD 0) as [Q|_]; [contradiction|].
      assert (Hc : RAD < cut_default) by (unfold cut_default in *; lra).
      destruct (C41_no_smoothing RAD L cut_default Hc) as (wl & E & Ln & W). rewrite E. cbn [bind]. eexists. split; [reflexivity|]. rewrite map_length. split; [lia|].
      intros l Hl. left. split; [exact Hs|]. rewrite (nth_indep _ 0 (2 * PI * 0)) by (rewrite map_length; lia). rewrite (map_nth (fun x => 2 * PI * x)).
      rewrite (nth_error_nth _ _ 0 (W l Hl)). pose proof PI_RGT_0. field. lra.
  - destruct HR as [HR|HC]; [lra|]. destruct (S1 (gauss_b RAD) Hs HC (gauss_b_half RAD HC)) as (wt & E & Ln & W1 & W2). exists wt. split; [exact E|]. split; [exact Ln|].
    intros l Hl. right. split; [exact Hs|]. exists (gauss_b RAD). split; [apply gauss_b_half; exact HC|]. destruct (Nat.leb_spec l 1) as [Q|Q].
    + apply nth_error_nth. apply W1. exact Q.
    + apply nth_error_nth. apply W2. lia.
Qed.

Lemma floor_points x n d : 0 < d -> INR n * d = x -> rfloor (x / d + 1) = (n + 1)%nat.
Proof.
  intros Hd E. unfold rfloor. replace (x / d + 1) with (INR (n + 1)) by (rewrite plus_INR, <- E; change (INR 1) with 1; field; lra). rewrite Int_part_INR. apply Nat2Z.id.
Qed.
Lemma arange_map a b s n : s <> 0 -> b - a = INR n * s -> arange a b s = map (fun k => a + INR k * s) (seq 0 n).
Proof. intros N E. unfold arange. rewrite E. replace (INR n * s / s) with (INR n) by (field; auto). rewrite rceil_INR. reflexivity. Qed.
Lemma steps_ok D a b : steps D a b -> spacing_of D = Ok (a, b).
Proof.
  intros [[-> ->]|[rest ->]]; [reflexivity|]. unfold spacing_of, py_get. cbn [List.length]. set (n := Z.of_nat (S (S (List.length rest)))). assert (Hn : (2 <= n)%Z) by (subst n; lia). clearbody n.
  change (0 <? 0)%Z with false. change (1 <? 0)%Z with false. cbv iota. replace ((0 <=? 0) && (0 <? n))%Z with true by lia. replace ((0 <=? 1) && (1 <? n))%Z with true by lia.
  change (Z.to_nat 0) with 0%nat. change (Z.to_nat 1) with 1%nat. cbn [nth_error bind Nat.eqb]. reflexivity.
Qed.
Lemma axes_ok lon0 bd dlon dlat z lon lat : axes lon0 bd dlon dlat z lon lat -> grid_axes lon0 z dlon dlat bd = Ok (lon, lat).
Proof.
  destruct 1 as [n m H1 H2 H3 H4|n m H1 H2 H3 H4|minlon maxlon minlat maxlat n m Hb H1 H2 H3 H4]; unfold grid_axes; cbn [Z.eqb Pos.eqb].
  - rewrite (floor_points 360 n dlon H1 H3), (floor_points 180 m dlat H2 H4). do 2 f_equal; apply map_ext; intros; ring.
  - rewrite (arange_map _ _ dlon n) by lra. rewrite (arange_map _ _ (- dlat) m) by lra. do 2 f_equal; apply map_ext; intros; ring.
  - rewrite Hb. rewrite (arange_map _ _ dlon n) by lra. rewrite (arange_map _ _ (- dlat) m) by lra. do 2 f_equal; apply map_ext; intros; ring.
Qed.
Lemma series_ext2 c s c' s' lmin L M th phi : (forall l m, (l <= L)%nat -> (m <= M)%nat -> c l m = c' l m /\ s l m = s' l m) -> series c s lmin L M th phi = series c' s' lmin L M th phi.
Proof. intros H. apply series_tri. intros l m Hl Hm. apply H; lia. Qed.
Lemma series_lin c s c' s' a b lmin L M th phi :
  series (fun l m => a * c l m + b * c' l m) (fun l m => a * s l m + b * s' l m) lmin L M th phi = a * series c s lmin L M th phi + b * series c' s' lmin L M th phi.
Proof.
  unfold series. rewrite <- !sumn_scal, <- sumn_plus. apply sumn_ext. intros m _. rewrite <- !sumn_scal, <- sumn_plus. apply sumn_ext. intros l _. destruct (lmin <=? l)%nat; ring.
Qed.
Lemma series_zero lmin L M th phi : series (fun _ _ => 0) (fun _ _ => 0) lmin L M th phi = 0.
Proof. unfold series. rewrite (sumn_ext _ _ (fun _ => 0)); [apply sumn_zero|]. intros m _. rewrite (sumn_ext _ _ (fun _ => 0)); [apply sumn_zero|]. intros l _. destruct (lmin <=? l)%nat; ring. Qed.
Lemma series_sumn n (c s : nat -> nat -> nat -> R) lmin L M th phi :
  series (fun l m => sumn n (fun t => c t l m)) (fun l m => sumn n (fun t => s t l m)) lmin L M th phi = sumn n (fun t => series (c t) (s t) lmin L M th phi).
Proof.
  induction n as [|n IH]; [cbn [sumn]; apply series_zero|]. rewrite sumn_S, <- IH.
  transitivity (series (fun l m => 1 * sumn n (fun t => c t l m) + 1 * c n l m) (fun l m => 1 * sumn n (fun t => s t l m) + 1 * s n l m) lmin L M th phi);
    [apply series_ext2; intros; rewrite !sumn_S; split; ring|]. rewrite series_lin. ring.
Qed.

(** ** C97 *)
Definition settings_ok (r : mrun) : Prop := radius_ok (p_rad r) /\ love_ok (p_love r) (p_lmax r) /\ (exists name, unit_code (p_units r) name).
(** the map of an anomaly: the sum of its harmonics of degree LMIN to LMAX, each multiplied by the weight of its degree and the factor of its unit *)
Definition map_of (r : mrun) (Y : coefs) (x y v : R) : Prop :=
  exists f w, (forall l, (l <= p_lmax r)%nat -> unit_factor (p_units r) (p_love r) l (f l) /\ gauss_weight (p_rad r) l (w l)) /\
    v = series (fun l m => f l * w l * Y false l m) (fun l m => f l * w l * Y true l m) (p_lmin r) (p_lmax r) (max_order r) (colat y) (deg x).

(** a complete run gives one map per month, with the time and month of GRACE, on the documented grid; away from the poles the values are the
    map of the anomaly of that month *)
Theorem C97_maps : forall r n ts ms pos lon lat, run_ok r n ts ms pos -> settings_ok r ->
  grid_of (-180) (p_ddeg r) (p_interval r) (p_bounds r) lon lat -> List.length lon <> 1%nat -> List.length lat <> 1%nat ->
  exists maps, grace_spatial_maps r = Ok (lon, lat, maps) /\ List.length maps = n /\
    forall t, (t < n)%nat -> exists g, nth_error maps t = Some (nth t ts 0, nth t ms 0%Z, g) /\ rows g = List.length lat /\ cols g = List.length lon /\ depth g = None /\
      forall i k x y, nth_error lon i = Some x -> nth_error lat k = Some y -> -90 < y < 90 -> map_of r (anomaly r n ts pos t) x y (get g k i 0).
Proof.
  intros r n ts ms pos lon lat V (HR & HLv & name & HU) (dlon & dlat & Hs & Ha) N1 N2. pose proof (g_degree _ _ _ _ _ V) as HL.
  destruct (factors_all _ _ _ _ HU HLv) as (df & Ed & Ld & Vd). destruct (weights_all (p_rad r) (p_lmax r) ltac:(lia) HR) as (wt & Ew & Lw & Vw).
  destruct (maps_ok r n ts ms pos V lon lat wt df _ Ew Lw Ed Ld (steps_ok _ _ _ Hs) (axes_ok _ _ _ _ _ _ _ Ha) N1 N2) as (maps & E & Lm & Q). exists maps. split; [exact E|]. split; [exact Lm|].
  intros t Ht. destruct (Q t Ht) as (g & G1 & G2 & G3 & G4 & G5). exists g. do 4 (split; [assumption|]). intros i k x y Hx Hy Hr.
  exists (fun l => nth l df 0), (fun l => nth l wt 0). split; [intros l Hl; split; auto|]. apply (G5 i k x y Hx Hy Hr).
Qed.
Print Assumptions C97_maps.

(** linearity of the filter *)
Lemma filtered_lin r Y Z a b cs l m : (2 <= p_lmax r)%nat -> (m <= l <= p_lmax r)%nat -> (m <= max_order r)%nat ->
  filtered r (fun cs l m => a * Y cs l m + b * Z cs l m) cs l m = a * filtered r Y cs l m + b * filtered r Z cs l m.
Proof.
  intros HL Hl Hm. unfold filtered, maybe_destriped. destruct (p_destripe r); [|ring]. rewrite !destriped_val by (auto; lia). unfold destripe1. cbn [get matrix].
  destruct ((m <=? max_order r) && (m <=? l) && (l <=? p_lmax r) && (5 <=? m))%nat; [|ring].
  rewrite DestripeProofs2.smoothed_linear by lia. ring.
Qed.
Lemma filtered_sum r n Y cs l m : (2 <= p_lmax r)%nat -> (m <= l <= p_lmax r)%nat -> (m <= max_order r)%nat ->
  sumn n (fun t => filtered r (Y t) cs l m) = filtered r (fun cs l m => sumn n (fun t => Y t cs l m)) cs l m.
Proof.
  intros HL Hl Hm. induction n as [|n IH].
  - cbn [sumn]. pose proof (filtered_lin r (fun _ _ _ => 0) (fun _ _ _ => 0) 0 0 cs l m HL Hl Hm) as Q. rewrite (filtered_ext r _ (fun _ _ _ => 0) cs l m HL Hl Hm) in Q by (intros; ring). rewrite Q. ring.
  - rewrite sumn_S, IH. rewrite (filtered_ext r (fun cs l m => sumn (S n) (fun t => Y t cs l m)) (fun cs l m => 1 * sumn n (fun t => Y t cs l m) + 1 * Y n cs l m)) by (auto; intros; rewrite sumn_S; ring).
    rewrite filtered_lin by assumption. ring.
Qed.
Lemma filtered_zero r Y cs l m : (2 <= p_lmax r)%nat -> (m <= l <= p_lmax r)%nat -> (m <= max_order r)%nat -> (forall j, (m <= j <= p_lmax r)%nat -> Y cs j m = 0) -> filtered r Y cs l m = 0.
Proof.
  intros HL Hl Hm H. rewrite (filtered_ext r Y (fun cs l m => 0 * Y cs l m + 0 * Y cs l m)) by (auto; intros; rewrite H by assumption; ring). rewrite filtered_lin by assumption. ring.
Qed.
Lemma map_of_ext r Y Z x y v : (forall cs l m, (m <= l <= p_lmax r)%nat -> (m <= max_order r)%nat -> Y cs l m = Z cs l m) -> map_of r Y x y v -> map_of r Z x y v.
Proof.
  intros H (f & w & Hf & E). exists f, w. split; [exact Hf|]. rewrite E. apply series_tri. intros l m Hl Hm. rewrite !H by assumption. split; reflexivity.
Qed.

(** signal plus everything the program takes out gives the maps of the signal: the mean file, the glacial isostatic adjustment and the removed fields leave no trace *)
Theorem C97_recover : forall r n ts ms pos lon lat mean X, run_ok r n ts ms pos -> settings_ok r ->
  grid_of (-180) (p_ddeg r) (p_interval r) (p_bounds r) lon lat -> List.length lon <> 1%nat -> List.length lat <> 1%nat ->
  p_destripe r = false -> p_redistribute r = false -> p_mean r = Some mean ->
  (forall t cs l m, (t < n)%nat -> (m <= l <= p_lmax r)%nat -> (m <= max_order r)%nat ->
     part (p_grace r) t cs l m = X t cs l m + part mean 0 cs l m + part (p_gia r) 0 cs l m * (nth t ts 0 - 20033 / 10)
       + sumn (List.length (p_remove r)) (fun k => part (nth k (p_remove r) (p_gia r)) (pos k t) cs l m)) ->
  exists maps, grace_spatial_maps r = Ok (lon, lat, maps) /\ List.length maps = n /\
    forall t, (t < n)%nat -> exists g, nth_error maps t = Some (nth t ts 0, nth t ms 0%Z, g) /\
      forall i k x y, nth_error lon i = Some x -> nth_error lat k = Some y -> -90 < y < 90 -> map_of r (X t) x y (get g k i 0).
Proof.
  intros r n ts ms pos lon lat mean X V HS HG N1 N2 HD HR HM HX. destruct (C97_maps r n ts ms pos lon lat V HS HG N1 N2) as (maps & E & Lm & Q). exists maps. split; [exact E|]. split; [exact Lm|].
  intros t Ht. destruct (Q t Ht) as (g & G1 & _ & _ & _ & G5). exists g. split; [exact G1|]. intros i k x y Hx Hy Hr. eapply map_of_ext; [|apply (G5 i k x y Hx Hy Hr)].
  intros cs l m Hl Hm. unfold anomaly, removed_field, filtered, maybe_destriped, reference. rewrite HD, HM, HR. rewrite HX by assumption.
  rewrite (sumn_ext _ (fun k0 => part (nth k0 (p_remove r) (p_gia r)) (pos k0 t) cs l m - 0) (fun k0 => part (nth k0 (p_remove r) (p_gia r)) (pos k0 t) cs l m)) by (intros; ring). ring.
Qed.
Print Assumptions C97_recover.

(** without a mean file the average of the monthly maps is not the zero map: it is minus the map of the average of what is taken out afterwards
    (the glacial isostatic adjustment counts from 2003.3, the removed fields from their own zero) *)
Theorem C97_average : forall r n ts ms pos lon lat, run_ok r n ts ms pos -> settings_ok r ->
  grid_of (-180) (p_ddeg r) (p_interval r) (p_bounds r) lon lat -> List.length lon <> 1%nat -> List.length lat <> 1%nat -> p_mean r = None ->
  exists maps, grace_spatial_maps r = Ok (lon, lat, maps) /\ List.length maps = n /\
    forall i k x y, nth_error lon i = Some x -> nth_error lat k = Some y -> -90 < y < 90 ->
      map_of r (fun cs l m => - (part (p_gia r) 0 cs l m * (sumn n (fun t => nth t ts 0) / INR n - 20033 / 10)
                                 + sumn n (fun t => sumn (List.length (p_remove r)) (fun j => removed_field r (nth j (p_remove r) (p_gia r)) (pos j t) cs l m)) / INR n)) x y
        (sumn n (fun t => match nth_error maps t with Some (_, _, g) => get g k i 0 | None => 0 end) / INR n).
Proof.
  intros r n ts ms pos lon lat V (HR & HLv & name & HU) (dlon & dlat & Hs & Ha) N1 N2 HM. pose proof (g_degree _ _ _ _ _ V) as HL. pose proof (g_months _ _ _ _ _ V) as Hn.
  destruct (factors_all _ _ _ _ HU HLv) as (df & Ed & Ld & Vd). destruct (weights_all (p_rad r) (p_lmax r) ltac:(lia) HR) as (wt & Ew & Lw & Vw).
  destruct (maps_ok r n ts ms pos V lon lat wt df _ Ew Lw Ed Ld (steps_ok _ _ _ Hs) (axes_ok _ _ _ _ _ _ _ Ha) N1 N2) as (maps & E & Lm & Q). exists maps. split; [exact E|]. split; [exact Lm|].
  intros i k x y Hx Hy Hr. exists (fun l => nth l df 0), (fun l => nth l wt 0). split; [intros l Hl; split; auto|].
  assert (Nn : INR n <> 0) by (apply not_0_INR; lia).
  rewrite (sumn_ext n _ (fun t => series (fun l m => nth l df 0 * nth l wt 0 * anomaly r n ts pos t false l m) (fun l m => nth l df 0 * nth l wt 0 * anomaly r n ts pos t true l m) (p_lmin r) (p_lmax r) (max_order r) (colat y) (deg x))).
  2:{ intros t Ht. destruct (Q t Ht) as (g & G1 & _ & _ & _ & G5). rewrite G1. apply (G5 i k x y Hx Hy Hr). }
  rewrite <- (series_sumn n (fun t l m => nth l df 0 * nth l wt 0 * anomaly r n ts pos t false l m) (fun t l m => nth l df 0 * nth l wt 0 * anomaly r n ts pos t true l m)).
  match goal with |- series ?c ?s _ _ _ _ _ / _ = _ => transitivity (/ INR n * series c s (p_lmin r) (p_lmax r) (max_order r) (colat y) (deg x) + 0 * series c s (p_lmin r) (p_lmax r) (max_order r) (colat y) (deg x)); [field; exact Nn|]; rewrite <- series_lin end.
  assert (G : forall cs l m, (m <= l <= p_lmax r)%nat -> (m <= max_order r)%nat -> sumn n (fun t => anomaly r n ts pos t cs l m) =
     - (part (p_gia r) 0 cs l m * (sumn n (fun t => nth t ts 0) - INR n * (20033 / 10)) + sumn n (fun t => sumn (List.length (p_remove r)) (fun j => removed_field r (nth j (p_remove r) (p_gia r)) (pos j t) cs l m)))).
  { intros cs l m Hl Hm. unfold anomaly.
    set (A := fun t => filtered r (fun cs0 l0 m0 => part (p_grace r) t cs0 l0 m0 - reference r n cs0 l0 m0) cs l m).
    set (B := fun t => sumn (List.length (p_remove r)) (fun j => removed_field r (nth j (p_remove r) (p_gia r)) (pos j t) cs l m)).
    assert (ZA : sumn n A = 0).
    { unfold A. rewrite (filtered_sum r n (fun t cs0 l0 m0 => part (p_grace r) t cs0 l0 m0 - reference r n cs0 l0 m0)) by assumption. apply filtered_zero; auto. intros j Hj.
      rewrite (sumn_ext _ _ (fun t => part (p_grace r) t cs j m + (-1) * reference r n cs j m)) by (intros; ring). rewrite sumn_plus, (FourierGenProofs.sumn_const n). unfold reference. rewrite HM. field. exact Nn. }
    rewrite (sumn_ext n _ (fun t => A t + ((- part (p_gia r) 0 cs l m) * (nth t ts 0 + - (20033 / 10)) + (-1) * B t))) by (intros; unfold A, B; ring).
    rewrite sumn_plus, ZA, sumn_plus, !sumn_scal, sumn_plus. fold B. rewrite (FourierGenProofs.sumn_const n). ring. }
  apply series_tri. intros l m Hl Hm. split.
  - rewrite (sumn_scal n (nth l df 0 * nth l wt 0)). rewrite G by assumption. field. exact Nn.
  - rewrite (sumn_scal n (nth l df 0 * nth l wt 0)). rewrite G by assumption. field. exact Nn.
Qed.
Print Assumptions C97_average.

(** with all degrees from 0 and all orders, a smoothed map is the Gaussian average over the sphere of the field that the run without smoothing maps
    (as long as no weight is at its floor) *)
Theorem C97_smooth : forall r n ts ms pos lon lat b, run_ok r n ts ms pos -> settings_ok r ->
  grid_of (-180) (p_ddeg r) (p_interval r) (p_bounds r) lon lat -> List.length lon <> 1%nat -> List.length lat <> 1%nat ->
  p_lmin r = 0%nat -> max_order r = p_lmax r -> / 10 ^ 10 <= p_rad r -> cos (p_rad r / 6371) <> 1 -> half_weight b (p_rad r) ->
  (forall l, (2 <= l <= p_lmax r)%nat -> 2 * PI / 10 ^ 10 <= jekeli b l) ->
  exists maps, grace_spatial_maps r = Ok (lon, lat, maps) /\
    forall t, (t < n)%nat -> exists g f, nth_error maps t = Some (nth t ts 0, nth t ms 0%Z, g) /\ (forall l, (l <= p_lmax r)%nat -> unit_factor (p_units r) (p_love r) l (f l)) /\
      forall i k x y, nth_error lon i = Some x -> nth_error lat k = Some y -> -90 < y < 90 ->
        sphere_average (gauss_kernel b)
          (series (fun l m => f l * anomaly r n ts pos t false l m) (fun l m => f l * anomaly r n ts pos t true l m) 0 (p_lmax r) (p_lmax r)) (colat y) (deg x) (get g k i 0).
Proof.
  intros r n ts ms pos lon lat b V (HR & HLv & name & HU) (dlon & dlat & Hs & Ha) N1 N2 H0 HM HR1 HC HW HF. pose proof (g_degree _ _ _ _ _ V) as HL.
  destruct (factors_all _ _ _ _ HU HLv) as (df & Ed & Ld & Vd). destruct (weights_all (p_rad r) (p_lmax r) ltac:(lia) HR) as (wt & Ew & Lw & Vw).
  destruct (maps_ok r n ts ms pos V lon lat wt df _ Ew Lw Ed Ld (steps_ok _ _ _ Hs) (axes_ok _ _ _ _ _ _ _ Ha) N1 N2) as (maps & E & Lm & Q). exists maps. split; [exact E|].
  intros t Ht. destruct (Q t Ht) as (g & G1 & _ & _ & _ & G5). exists g, (fun l => nth l df 0). split; [exact G1|]. split; [exact Vd|]. intros i k x y Hx Hy Hr.
  rewrite (G5 i k x y Hx Hy Hr). rewrite H0, HM.
  assert (W : forall l, (l <= p_lmax r)%nat -> nth l wt 0 = jekeli b l).
  { intros l Hl. destruct (Vw l Hl) as [[Q1 _]|(_ & b' & HW' & ->)]; [lra|]. rewrite (half_unique _ _ HC HW'), <- (half_unique _ _ HC HW). destruct (Nat.leb_spec l 1); [reflexivity|]. apply Rmax_left. apply HF. lia. }
  rewrite (series_ext2 _ _ (fun l m => jekeli b l * (nth l df 0 * anomaly r n ts pos t false l m)) (fun l m => jekeli b l * (nth l df 0 * anomaly r n ts pos t true l m))).
  2:{ intros l m Hl Hm. rewrite W by exact Hl. split; ring. }
  apply (series_average b (fun l m => nth l df 0 * anomaly r n ts pos t false l m) (fun l m => nth l df 0 * anomaly r n ts pos t true l m)).
  unfold colat, deg. pose proof PI_RGT_0. split; nra.
Qed.
Print Assumptions C97_smooth.

(** ** What stops a run *)
Definition with_forms (r : mrun) (fs : list remove_form) : mrun :=
  mkmrun (p_lmin r) (p_lmax r) (p_mmax r) (p_love r) (p_rad r) (p_destripe r) (p_units r) (p_ddeg r) (p_interval r) (p_bounds r) (p_grace r) (p_mean r) (p_gia r) (p_remove r) fs (p_redistribute r) (p_ocean r).
Lemma forms_same r fs : p_forms r = fs -> with_forms r fs = r.
Proof. destruct r. cbn. intros ->. reflexivity. Qed.

(** a field to be removed that is given as one data file stops the program before any map is written *)
Theorem C97_one_file_refuted : forall r n ts ms pos f files fs, run_ok (with_forms r [IndexFile]) n ts ms pos -> radius_ok (p_rad r) ->
  p_remove r = f :: files -> p_forms r = OneFile :: fs -> grace_spatial_maps r = Err AttributeError.
Proof.
  intros r n ts ms pos f files fs V HR Ef Eform. pose proof (g_degree _ _ _ _ _ V) as HL. cbn [with_forms p_lmax] in HL.
  destruct (weights_all (p_rad r) (p_lmax r) ltac:(lia) HR) as (wt & Ew & _). unfold grace_spatial_maps. cbv zeta. rewrite Ew. cbn [bind].
  destruct (centred_ok _ _ _ _ _ V) as (h & E1 & K1). cbn [with_forms p_grace p_mean p_lmax] in E1, K1. change (max_order (with_forms r [IndexFile])) with (max_order r) in K1. rewrite E1. cbn [bind].
  destruct (maybe_destripe_ok (p_destripe r) (p_lmax r) (max_order r) n ts ms _ _ K1 ltac:(lia)) as (h2 & E2 & K2). rewrite E2. cbn [bind]. rewrite (o_ts _ _ _ _ _ _ _ K2), (o_ms _ _ _ _ _ _ _ K2). cbn [list_of bind].
  destruct (drift_ok _ _ _ _ _ V) as (gia & E3 & _). cbn [with_forms p_gia] in E3. rewrite E3. cbn [bind]. rewrite (o_lt _ _ _ _ _ _ _ K2). pose proof (g_months _ _ _ _ _ V) as Hn. replace (n =? 1)%nat with false by lia.
  rewrite Ef, Eform. unfold with_form. cbn [List.length]. destruct (S (List.length fs) <? S (List.length files))%nat; cbn [repeat List.concat combine app remove_all remove_one snd bind]; reflexivity.
Qed.
Print Assumptions C97_one_file_refuted.

(** a run with a single month stops when the months of GRACE are copied into the drift *)
Theorem C97_single_month_refuted : forall r t0 m0, (2 <= p_lmax r)%nat -> (max_order r <= p_lmax r)%nat -> radius_ok (p_rad r) ->
  wf (p_grace r) -> lmax (p_grace r) = p_lmax r -> mmax (p_grace r) = max_order r -> depth (clm (p_grace r)) = Some 1%nat -> time (p_grace r) = TArr [t0] -> month (p_grace r) = TArr [m0] ->
  (forall m, p_mean r = Some m -> wf m /\ depth (clm m) = None) -> wf (p_gia r) -> depth (clm (p_gia r)) = None ->
  grace_spatial_maps r = Err IndexError.
Proof.
  intros r t0 m0 HL HM HR Wg G1 G2 G3 G4 G5 Hmean Wi Di.
  destruct (weights_all (p_rad r) (p_lmax r) ltac:(lia) HR) as (wt & Ew & _). unfold grace_spatial_maps. cbv zeta. rewrite Ew. cbn [bind].
  pose proof (holds_of_wf _ _ _ _ Wg G3 G4 G5) as H. rewrite G1, G2 in H.
  assert (C : exists h Y, centred (p_grace r) (p_mean r) = Ok h /\ holds (p_lmax r) (max_order r) 1 [t0] [m0] Y h).
  { unfold centred. destruct (p_mean r) as [mf|].
    - destruct (Hmean mf eq_refl) as [Wm Dm]. destruct (sub_flat _ _ _ _ _ _ _ mf H Wm Dm) as (h & E & K). eexists. eexists. split; [exact E|exact K].
    - destruct (mean_removed _ _ _ _ _ _ _ H ltac:(lia)) as (h & x & E & K). rewrite E. eexists. eexists. split; [reflexivity|exact K]. }
  destruct C as (h & Y & E1 & K1). rewrite E1. cbn [bind].
  destruct (maybe_destripe_ok (p_destripe r) (p_lmax r) (max_order r) 1 [t0] [m0] _ _ K1 ltac:(lia)) as (h2 & E2 & K2). rewrite E2. cbn [bind]. rewrite (o_ts _ _ _ _ _ _ _ K2), (o_ms _ _ _ _ _ _ _ K2). cbn [list_of bind].
  unfold HarmModel.drift. rewrite Di. reflexivity.
Qed.
Print Assumptions C97_single_month_refuted.

(** the grid: a region needs bounds, and there are three intervals *)
Theorem C97_interval : forall r n ts ms pos dlon dlat, run_ok r n ts ms pos -> radius_ok (p_rad r) -> steps (p_ddeg r) dlon dlat ->
  (p_interval r = 3%Z /\ p_bounds r = None -> grace_spatial_maps r = Err AttributeError) /\
  (p_interval r <> 1%Z -> p_interval r <> 2%Z -> p_interval r <> 3%Z -> grace_spatial_maps r = Err TypeError).
Proof.
  intros r n ts ms pos dlon dlat V HR Hs.
  assert (B : forall e, grid_axes (-180) (p_interval r) dlon dlat (p_bounds r) = Err e -> grace_spatial_maps r = Err e).
  { intros e He. pose proof (g_degree _ _ _ _ _ V) as HL. destruct (weights_all (p_rad r) (p_lmax r) ltac:(lia) HR) as (wt & Ew & _). unfold grace_spatial_maps. cbv zeta. rewrite Ew. cbn [bind].
    destruct (centred_ok _ _ _ _ _ V) as (h & E1 & K1). rewrite E1. cbn [bind].
    destruct (maybe_destripe_ok (p_destripe r) (p_lmax r) (max_order r) n ts ms _ _ K1 ltac:(lia)) as (h2 & E2 & K2). rewrite E2. cbn [bind]. rewrite (o_ts _ _ _ _ _ _ _ K2), (o_ms _ _ _ _ _ _ _ K2). cbn [list_of bind].
    destruct (drift_ok _ _ _ _ _ V) as (gia & E3 & _). rewrite E3. cbn [bind]. rewrite (o_lt _ _ _ _ _ _ _ K2). pose proof (g_months _ _ _ _ _ V) as Hn. replace (n =? 1)%nat with false by lia.
    rewrite (o_l _ _ _ _ _ _ _ K2), (o_m _ _ _ _ _ _ _ K2). destruct (g_forms _ _ _ _ _ V) as [F1 F2]. rewrite (all_forms _ _ F1 F2).
    destruct (all_removed r n ts ms pos V (repeat 0 n) (repeat 0%Z n) (p_remove r) _ _ 0 (zeros_ok r n)) as (rem & E4 & K4); [intros k f Hk; exact Hk|].
    rewrite E4. cbn [bind]. rewrite (steps_ok _ _ _ Hs). cbn [bind fst snd]. rewrite He. reflexivity. }
  split.
  - intros [H1 H2]. apply B. rewrite H1, H2. reflexivity.
  - intros H1 H2 H3. apply B. unfold grid_axes. apply Z.eqb_neq in H1, H2, H3. rewrite H1, H2, H3. reflexivity.
Qed.
Print Assumptions C97_interval.

(** ** A concrete run: two months, one removed file with three months, redistribution and filter on, half a degree by one degree cells *)
Definition ex_series (n : nat) (ts : list R) (ms : list Z) (f : nat -> nat -> nat -> R) : harm :=
  mkharm 2 2 (mkarr 3 3 (Some n) f) (mkarr 3 3 (Some n) (fun l m t => 2 * f l m t)) (TArr ts) (TArr ms).
Definition ex_field (f : nat -> nat -> R) : harm := mkharm 2 2 (mkarr 3 3 None (fun l m _ => f l m)) (mkarr 3 3 None (fun l m _ => f l m)) (TScalar 0) (TScalar 0%Z).
Definition ex_run : mrun := mkmrun 0 2 None ([0; 0; 0], [0; 1 / 2; 1 / 3], [0; 0; 0]) 0 true 1 [1 / 2; 1] 2 None
  (ex_series 2 [2005; 2006] [37; 49]%Z (fun l m t => INR l + INR m + INR t)) None (ex_field (fun l m => INR l - INR m))
  [ex_series 3 [2004; 2005; 2006] [25; 37; 49]%Z (fun l m t => INR t)] [IndexFile] true (ex_field (fun l m => 1)).
Lemma sorted2 (a b : Z) l : (a < b)%Z -> StronglySorted Z.lt (b :: l) -> StronglySorted Z.lt (a :: b :: l).
Proof.
  intros H S. constructor; [exact S|]. constructor; [exact H|]. inversion S as [|? ? ? F]; subst. rewrite Forall_forall in *. intros x Hx. specialize (F x Hx). lia.
Qed.
Example C97_example : run_ok ex_run 2 [2005; 2006] [37; 49]%Z (fun k t => S t) /\ settings_ok ex_run /\
  grid_of (-180) (p_ddeg ex_run) (p_interval ex_run) (p_bounds ex_run)
    (map (fun i => -180 + (1 / 2) / 2 + INR i * (1 / 2)) (seq 0 720)) (map (fun k => 90 - 1 / 2 - INR k * 1) (seq 0 180)).
Proof.
  assert (WS : forall n ts ms f, List.length ts = n -> List.length ms = n -> wf (ex_series n ts ms f)).
  { intros n ts ms f H1 H2. repeat split. cbn. exists ts, ms. auto. }
  assert (WF : forall f, wf (ex_field f)) by (intros f; repeat split).
  assert (S1 : StronglySorted Z.lt [37; 49]%Z) by (apply sorted2; [lia|]; repeat constructor).
  split; [|split].
  - constructor; cbn [ex_run p_lmax p_mmax max_order p_grace p_mean p_gia p_remove p_forms p_ocean]; auto; try lia.
    + split; [apply WS; reflexivity|]. repeat split.
    + discriminate.
    + intros k f Hk. destruct k as [|k]; [|destruct k; discriminate]. cbn [nth_error] in Hk. injection Hk as <-. exists 3%nat, [2004; 2005; 2006], [25; 37; 49]%Z.
      split; [apply WS; reflexivity|]. do 3 (split; [reflexivity|]). split; [apply sorted2; [lia|exact S1]|]. intros t Ht. destruct t as [|[|t]]; [reflexivity|reflexivity|lia].
    + split; [discriminate|]. repeat constructor.
  - split; [left; cbn [ex_run p_rad]; apply Rinv_0_lt_compat; apply pow_lt; lra|]. split; [cbn; lia|]. exists "cmwe"%string. constructor.
  - exists (1 / 2), 1. split; [right; exists []; reflexivity|].
    apply (cells (-180) (p_bounds ex_run) (1 / 2) 1 720 180); [lra|lra| |]; (rewrite INR_IZR_INZ; replace (Z.of_nat 720) with 720%Z by reflexivity; replace (Z.of_nat 180) with 180%Z by reflexivity; lra).
Qed.
