(** C127 mask_oceans, C128 calc_harmonic_resolution (model: MaskModel.v). *)
From Coq Require Import Reals Lra Lia String ZifyBool ZifyNat.
From Verif Require Import Base RegressModel TsModel ToolsModel PropTs PropTools PropSlr PropSmooth MaskModel.
Close Scope Z_scope.
Close Scope string_scope.
Open Scope R_scope.

(** ** Specification *)
Definition cell {A} (rows : list (list A)) (a b : nat) : option A := match nth_error rows a with Some r => nth_error r b | None => None end.
Definition same_shape {A B} (x : list (list A)) (y : list (list B)) : Prop := List.length x = List.length y /\ forall a r s, nth_error x a = Some r -> nth_error y a = Some s -> List.length r = List.length s.
(** place k of an axis is nearest to a coordinate *)
Definition nearest (axis : list R) (k : nat) (x : R) : Prop := (k < List.length axis)%nat /\ forall i, (i < List.length axis)%nat -> Rabs (nth k axis 0 - x) <= Rabs (nth i axis 0 - x).
(** evenly spaced axes and a code for every node *)
Definition mask_ok (ls : landsea) (x0 hx y0 hy : R) : Prop :=
  even_axis (ls_lon ls) x0 hx /\ even_axis (ls_lat ls) y0 hy /\ List.length (ls_code ls) = List.length (ls_lat ls) /\ Forall (fun r => List.length r = List.length (ls_lon ls)) (ls_code ls).
(** the codes that the program masks: land and small islands; lakes and ice shelves when asked for *)
Definition is_land (lakes shelves : bool) (c : Z) : Prop := (c = 1 \/ c = 3 \/ (c = 2 /\ lakes = true) \/ (c = 4 /\ shelves = true))%Z.
(** the point p gets the code c of the node nearest to it in longitude and in latitude *)
Definition code_at (ls : landsea) (p : R * R) (c : Z) : Prop := exists i j, nearest (ls_lon ls) i (fst p) /\ nearest (ls_lat ls) j (snd p) /\ cell (ls_code ls) j i = Some c.

(** ** Proofs *)
Lemma land_ok lakes shelves c : land_function lakes shelves c = true <-> is_land lakes shelves c.
Proof. unfold land_function, is_land. destruct lakes, shelves; cbv zeta iota; split; intros H; try lia; intuition (try discriminate; lia). Qed.
Lemma cell_map {A B} (f : A -> B) rows a b : cell (map (map f) rows) a b = option_map f (cell rows a b).
Proof.
  unfold cell. destruct (nth_error rows a) as [r|] eqn:E; [rewrite (map_nth_error _ _ _ E)|].
  - destruct (nth_error r b) as [v|] eqn:E2; [rewrite (map_nth_error _ _ _ E2); reflexivity|]. cbn [option_map]. apply nth_error_None. rewrite map_length. apply nth_error_None. exact E2.
  - cbn [option_map]. assert (Q : nth_error (map (map f) rows) a = None) by (apply nth_error_None; rewrite map_length; apply nth_error_None; exact E). rewrite Q. reflexivity.
Qed.
Lemma cell_ok ls x0 hx y0 hy i j : mask_ok ls x0 hx y0 hy -> (i < List.length (ls_lon ls))%nat -> (j < List.length (ls_lat ls))%nat -> exists c, cell (ls_code ls) j i = Some c.
Proof.
  intros (_ & _ & Ly & F) Hi Hj. unfold cell. destruct (nth_error (ls_code ls) j) as [r|] eqn:E; [|apply nth_error_None in E; lia].
  rewrite Forall_forall in F. specialize (F r (nth_error_In _ _ E)). destruct (nth_error r i) as [c|] eqn:E2; [eauto|]. apply nth_error_None in E2. lia.
Qed.
Lemma at_ok ls x0 hx y0 hy lakes shelves p : mask_ok ls x0 hx y0 hy -> exists c, code_at ls p c /\ mask_at ls lakes shelves p = Ok (land_function lakes shelves c).
Proof.
  intros V. pose proof V as (HX & HY & _). destruct (C73_nearest _ _ _ (fst p) HX) as [Li Ni]. destruct (C73_nearest _ _ _ (snd p) HY) as [Lj Nj].
  destruct (cell_ok ls x0 hx y0 hy _ _ V Li Lj) as (c & Hc). exists c. split.
  - exists (axis_index (ls_lon ls) (fst p)), (axis_index (ls_lat ls) (snd p)). split; [split; [exact Li|exact Ni]|]. split; [split; [exact Lj|exact Nj]|exact Hc].
  - unfold mask_at, interp_nearest. pose proof (cell_map (land_function lakes shelves) (ls_code ls) (axis_index (ls_lat ls) (snd p)) (axis_index (ls_lon ls) (fst p))) as M. rewrite Hc in M. unfold cell in M. cbn [option_map] in M.
    rewrite M. reflexivity.
Qed.
Lemma grid_total ls x0 hx y0 hy lakes shelves pts : mask_ok ls x0 hx y0 hy -> exists m, mask_grid ls lakes shelves pts = Ok m /\ same_shape pts m /\
  forall a b p, cell pts a b = Some p -> exists v, cell m a b = Some v /\ mask_at ls lakes shelves p = Ok v.
Proof.
  intros V. assert (Row : forall row, exists r, mapM (mask_at ls lakes shelves) row = Ok r /\ List.length row = List.length r /\ forall b p, nth_error row b = Some p -> exists v, nth_error r b = Some v /\ mask_at ls lakes shelves p = Ok v).
  { induction row as [|p row IH]; [exists []; repeat split; intros [|b] p H; discriminate|]. destruct IH as (r & E & L & Q). destruct (at_ok ls x0 hx y0 hy lakes shelves p V) as (c & _ & Hc).
    cbn [mapM]. rewrite Hc. cbn [bind]. rewrite E. cbn [bind]. eexists. split; [reflexivity|]. split; [cbn [List.length]; congruence|]. intros [|b] q H; cbn in H.
    - injection H as <-. exists (land_function lakes shelves c). split; [reflexivity|exact Hc].
    - apply Q. exact H. }
  induction pts as [|row pts IH]; [exists []; split; [reflexivity|]; split; [split; [reflexivity|]; intros [|a] r s H; discriminate|]; intros [|a] b p H; discriminate|].
  destruct IH as (m & E & (L & S) & Q). destruct (Row row) as (r & Er & Lr & Qr). unfold mask_grid in *. cbn [mapM]. rewrite Er. cbn [bind]. rewrite E. cbn [bind]. eexists. split; [reflexivity|]. split; [split|].
  - cbn [List.length]. congruence.
  - intros [|a] r1 s1 H1 H2; cbn in H1, H2; [injection H1 as <-; injection H2 as <-; exact Lr|apply (S a); assumption].
  - intros [|a] b p H; unfold cell in *; cbn [nth_error] in *; [apply Qr; exact H|apply Q; exact H].
Qed.

(** ** C127 *)
(** without data: a mask of the shape of the points; a point is masked exactly when the node nearest to it is land (or a lake or an ice shelf, when asked for) *)
Theorem C127_mask : forall files resolution ls x0 hx y0 hy lakes shelves pts, files resolution = Some ls -> mask_ok ls x0 hx y0 hy ->
  exists m, mask_oceans files resolution lakes shelves pts None = Ok (MaskOnly m) /\ same_shape pts m /\
    forall a b p, cell pts a b = Some p -> exists c v, code_at ls p c /\ cell m a b = Some v /\ (v = true <-> is_land lakes shelves c).
Proof.
  intros files resolution ls x0 hx y0 hy lakes shelves pts Hf V. destruct (grid_total ls x0 hx y0 hy lakes shelves pts V) as (m & E & S & Q). exists m.
  split; [unfold mask_oceans; rewrite Hf, E; reflexivity|]. split; [exact S|]. intros a b p Hp. destruct (Q a b p Hp) as (v & Hv & Ev).
  destruct (at_ok ls x0 hx y0 hy lakes shelves p V) as (c & Hc & Ec). rewrite Ec in Ev. injection Ev as Ev. exists c, v. split; [exact Hc|]. split; [exact Hv|]. rewrite <- Ev. apply land_ok.
Qed.
Print Assumptions C127_mask.

Lemma or_ok (x : list (list bool)) : forall y, same_shape x y -> exists z, or_rows x y = Ok z /\ same_shape x z /\ forall a b, cell z a b = match cell x a b, cell y a b with Some u, Some v => Some (u || v)%bool | _, _ => None end.
Proof.
  assert (Row : forall (r s : list bool), List.length r = List.length s -> let t := map (fun '(u, v) => (u || v)%bool) (combine r s) in List.length r = List.length t /\ forall b, nth_error t b = match nth_error r b, nth_error s b with Some u, Some v => Some (u || v)%bool | _, _ => None end).
  { induction r as [|u r IH]; intros [|v s] L; try discriminate; cbn [List.length] in L; [split; [reflexivity|]; intros [|b]; reflexivity|]. destruct (IH s ltac:(congruence)) as [L1 Q]. cbn [combine map List.length]. split; [congruence|]. intros [|b]; [reflexivity|]. cbn [nth_error]. apply Q. }
  unfold or_rows. induction x as [|r x IH]; intros [|s y] (L & S); cbn [List.length] in L; try discriminate.
  - exists []. split; [reflexivity|]. split; [split; [reflexivity|]; intros [|a] r s H; discriminate|]. intros [|a] b; reflexivity.
  - destruct (IH y) as (z & E & (Lz & Sz) & Q). { split; [congruence|]. intros a r1 s1 H1 H2. apply (S (Datatypes.S a)); assumption. }
    replace (List.length x =? List.length y)%nat with true in E by lia. cbn [List.length]. replace (Datatypes.S (List.length x) =? Datatypes.S (List.length y))%nat with true by lia.
    pose proof (S 0%nat r s eq_refl eq_refl) as Lr. destruct (Row r s Lr) as [L1 Q1]. cbn [combine mapM]. rewrite Lr, Nat.eqb_refl. cbn [bind]. rewrite E. cbn [bind]. eexists. split; [reflexivity|]. split; [split|].
    + cbn [List.length]. congruence.
    + intros [|a] r1 s1 H1 H2; cbn in H1, H2; [injection H1 as <-; injection H2 as <-; exact L1|apply (Sz a); assumption].
    + intros [|a] b; unfold cell in *; cbn [nth_error]; [apply Q1|apply Q].
Qed.
Lemma fill_ok v : forall (d : list (list R)) (m : list (list bool)), same_shape d m -> same_shape d (fill_rows v d m) /\
  forall a b, cell (fill_rows v d m) a b = match cell d a b, cell m a b with Some u, Some k => Some (if (k : bool) then v else u) | _, _ => None end.
Proof.
  assert (Row : forall (r : list R) (s : list bool), List.length r = List.length s -> let t := map (fun '(u, b) => if (b : bool) then v else u) (combine r s) in List.length r = List.length t /\ forall b, nth_error t b = match nth_error r b, nth_error s b with Some u, Some k => Some (if (k : bool) then v else u) | _, _ => None end).
  { induction r as [|u r IH]; intros [|k s] L; try discriminate; cbn [List.length] in L; [split; [reflexivity|]; intros [|b]; reflexivity|]. destruct (IH s ltac:(congruence)) as [L1 Q]. cbn [combine map List.length]. split; [congruence|]. intros [|b]; [reflexivity|]. cbn [nth_error]. apply Q. }
  unfold fill_rows. induction d as [|r d IH]; intros [|s m] (L & S); cbn [List.length] in L; try discriminate.
  - split; [split; [reflexivity|]; intros [|a] r s H; discriminate|]. intros [|a] b; reflexivity.
  - destruct (IH m) as ((Lz & Sz) & Q). { split; [congruence|]. intros a r1 s1 H1 H2. apply (S (Datatypes.S a)); assumption. }
    destruct (Row r s (S 0%nat r s eq_refl eq_refl)) as [L1 Q1]. cbn [combine map]. split; [split|].
    + cbn [List.length]. congruence.
    + intros [|a] r1 s1 H1 H2; cbn in H1, H2; [injection H1 as <-; injection H2 as <-; exact L1|apply (Sz a); assumption].
    + intros [|a] b; unfold cell in *; cbn [nth_error]; [apply Q1|apply Q].
Qed.
Lemma shape_cell {A B} (x : list (list A)) (y : list (list B)) a b u : same_shape x y -> cell x a b = Some u -> exists v, cell y a b = Some v.
Proof.
  intros (L & S) H. unfold cell in *. destruct (nth_error x a) as [r|] eqn:E; [|discriminate]. destruct (nth_error y a) as [s|] eqn:E2.
  - pose proof (S a r s E E2) as Ls. destruct (nth_error s b) as [v|] eqn:E3; [eauto|]. apply nth_error_None in E3. assert (nth_error r b <> None) by congruence. apply nth_error_Some in H0. lia.
  - apply nth_error_None in E2. assert (nth_error x a <> None) by congruence. apply nth_error_Some in H0. lia.
Qed.
Lemma shape_sym {A B} (x : list (list A)) (y : list (list B)) : same_shape x y -> same_shape y x.
Proof. intros (L & S). split; [congruence|]. intros a r s H1 H2. symmetry. exact (S a s r H2 H1). Qed.
Lemma shape_trans {A B C} (x : list (list A)) (y : list (list B)) (z : list (list C)) : same_shape x y -> same_shape y z -> same_shape x z.
Proof.
  intros (L & S) (L' & S'). split; [congruence|]. intros a r s H1 H2. destruct (nth_error y a) as [t|] eqn:E; [transitivity (List.length t); [apply (S a)|apply (S' a)]; assumption|].
  apply nth_error_None in E. assert (nth_error x a <> None) by congruence. apply nth_error_Some in H. lia.
Qed.

(** with data: what was masked stays masked, land joins it; masked values are the fill value, the others are not touched *)
Theorem C127_data : forall files resolution ls x0 hx y0 hy lakes shelves pts data mask fill, files resolution = Some ls -> mask_ok ls x0 hx y0 hy -> same_shape pts data -> same_shape pts mask ->
  exists data' mask', mask_oceans files resolution lakes shelves pts (Some (mkgrid data (Some mask) fill)) = Ok (Masked (mkgrid data' (Some mask') fill)) /\ same_shape pts data' /\ same_shape pts mask' /\
    forall a b p u k, cell pts a b = Some p -> cell data a b = Some u -> cell mask a b = Some k ->
      exists c k', code_at ls p c /\ cell mask' a b = Some k' /\ (k' = true <-> k = true \/ is_land lakes shelves c) /\ cell data' a b = Some (if k' then fill else u).
Proof.
  intros files resolution ls x0 hx y0 hy lakes shelves pts data mask fill Hf V Sd Sm. destruct (grid_total ls x0 hx y0 hy lakes shelves pts V) as (m & E & S & Q).
  destruct (or_ok mask m (shape_trans _ _ _ (shape_sym _ _ Sm) S)) as (new & En & Sn & Qn).
  destruct (fill_ok fill data new (shape_trans _ _ _ (shape_sym _ _ Sd) (shape_trans _ _ _ Sm Sn))) as (Sf & Qf).
  exists (fill_rows fill data new), new. split; [unfold mask_oceans; rewrite Hf, E; cbn [bind g_mask g_fill g_data]; rewrite En; reflexivity|].
  split; [apply (shape_trans _ _ _ Sd Sf)|]. split; [apply (shape_trans _ _ _ Sm Sn)|]. intros a b p u k Hp Hu Hk.
  destruct (Q a b p Hp) as (v & Hv & Ev). destruct (at_ok ls x0 hx y0 hy lakes shelves p V) as (c & Hc & Ec). rewrite Ec in Ev. injection Ev as Ev.
  exists c, (k || v)%bool. split; [exact Hc|]. rewrite Qf, Qn, Hu, Hk, Hv. split; [reflexivity|]. split; [|reflexivity].
  rewrite orb_true_iff, <- Ev, land_ok. reflexivity.
Qed.
Print Assumptions C127_data.

(** REFUTED: the documentation says that ocean and water points are masked: a point of the ocean (code 0) stays, a point on land is masked *)
Theorem C127_ocean_refuted : forall files resolution ls x0 hx y0 hy lakes shelves pts, files resolution = Some ls -> mask_ok ls x0 hx y0 hy ->
  exists m, mask_oceans files resolution lakes shelves pts None = Ok (MaskOnly m) /\
    forall a b i j c, (i < List.length (ls_lon ls))%nat -> (j < List.length (ls_lat ls))%nat -> cell (ls_code ls) j i = Some c -> cell pts a b = Some (nth i (ls_lon ls) 0, nth j (ls_lat ls) 0) ->
      (c = 0%Z -> cell m a b = Some false) /\ (c = 1%Z -> cell m a b = Some true).
Proof.
  intros files resolution ls x0 hx y0 hy lakes shelves pts Hf V. destruct (grid_total ls x0 hx y0 hy lakes shelves pts V) as (m & E & S & Q). exists m.
  split; [unfold mask_oceans; rewrite Hf, E; reflexivity|]. intros a b i j c Hi Hj Hc Hp. destruct (Q a b _ Hp) as (v & Hv & Ev).
  pose proof V as (HX & HY & _). pose proof (cell_map (land_function lakes shelves) (ls_code ls) j i) as M. rewrite Hc in M. cbn [option_map] in M. unfold cell in M.
  destruct (nth_error (map (map (land_function lakes shelves)) (ls_code ls)) j) as [row|] eqn:Er; [|discriminate].
  pose proof (C73_node _ _ _ _ _ _ _ _ i j row _ HX HY Hi Hj Er M) as N. unfold mask_at in Ev. cbn [fst snd] in Ev. unfold val, at_ in N. rewrite N in Ev. injection Ev as <-. rewrite Hv.
  split; intros ->; unfold land_function; destruct lakes, shelves; reflexivity.
Qed.

(** REFUTED: longitudes are not brought into the range of the file: everything west of its first longitude gets the mask of that longitude *)
Theorem C127_west_refuted : forall ls x0 hx y0 hy lakes shelves x y, mask_ok ls x0 hx y0 hy -> 0 < hx -> x <= x0 -> mask_at ls lakes shelves (x, y) = mask_at ls lakes shelves (x0, y).
Proof.
  intros ls x0 hx y0 hy lakes shelves x y (HX & HY & _) Hh Hx.
  assert (K : forall z, z <= x0 -> axis_index (ls_lon ls) z = 0%nat).
  { intros z Hz. destruct (C73_nearest _ _ _ z HX) as [L N]. destruct HX as (L2 & _ & E). specialize (N 0%nat ltac:(lia)). rewrite (E _ L), (E 0%nat ltac:(lia)) in N. cbn [INR] in N.
    set (k := axis_index (ls_lon ls) z) in *. clearbody k. destruct k as [|k]; [reflexivity|]. exfalso. assert (0 < INR (S k) * hx) by (apply Rmult_lt_0_compat; [apply lt_0_INR; lia|exact Hh]).
    rewrite !Rabs_pos_eq in N by lra. lra. }
  unfold mask_at, interp_nearest. cbn [fst snd]. rewrite (K x Hx), (K x0 ltac:(lra)). reflexivity.
Qed.

Theorem C127_errors : forall files resolution lakes shelves pts data,
  (files resolution = None -> mask_oceans files resolution lakes shelves pts data = Err FileNotFound) /\
  (forall ls x0 hx y0 hy g, files resolution = Some ls -> mask_ok ls x0 hx y0 hy -> data = Some g -> g_mask g = None -> mask_oceans files resolution lakes shelves pts data = Err TypeError).
Proof.
  intros files resolution lakes shelves pts data. split; [intros H; unfold mask_oceans; rewrite H; reflexivity|]. intros ls x0 hx y0 hy g Hf V -> Hm.
  destruct (grid_total ls x0 hx y0 hy lakes shelves pts V) as (m & E & _). unfold mask_oceans. rewrite Hf, E. cbn [bind]. rewrite Hm. reflexivity.
Qed.

(** a concrete mask: two by two nodes, ocean and land in the first row *)
Example C127_example : mask_ok (mklandsea [0; 180] [-45; 45] [[0; 1]; [2; 4]]%Z) 0 180 (-45) 90 /\
  exists m, mask_oceans (fun _ => Some (mklandsea [0; 180] [-45; 45] [[0; 1]; [2; 4]]%Z)) "qd" false true [[(0, -45); (180, -45)]] None = Ok (MaskOnly m) /\ cell m 0 0 = Some false /\ cell m 0 1 = Some true.
Proof.
  assert (V : mask_ok (mklandsea [0; 180] [-45; 45] [[0; 1]; [2; 4]]%Z) 0 180 (-45) 90).
  { split; [|split; [|split; [reflexivity|repeat constructor]]]; (split; [cbn; lia|]; split; [lra|]; intros i Hi; cbn in Hi; destruct i as [|[|i]]; [unfold val; cbn; lra|unfold val; cbn; lra|lia]). }
  split; [exact V|]. destruct (C127_ocean_refuted (fun _ => Some (mklandsea [0; 180] [-45; 45] [[0; 1]; [2; 4]]%Z)) "qd"%string _ _ _ _ _ false true [[(0, -45); (180, -45)]] eq_refl V) as (m & E & Q).
  exists m. split; [exact E|]. split.
  - destruct (Q 0%nat 0%nat 0%nat 0%nat 0%Z) as [R _]; cbn; auto.
  - destruct (Q 0%nat 1%nat 1%nat 0%nat 1%Z) as [_ R]; cbn; auto.
Qed.

(** ** C128 *)
(** the area of a spherical cap of angular radius theta on a sphere of radius RADIUS *)
Definition cap_area (RADIUS theta : R) : R := 2 * PI * RADIUS ^ 2 * (1 - cos theta).
(** neighbouring zeros of a function *)
Definition next_zero (f : R -> R) (a b : R) : Prop := f a = 0 /\ f b = 0 /\ a < b /\ forall x, a < x < b -> f x <> 0.

(** half wavelength: the distance along the equator between neighbouring zeros of a harmonic of degree and order LMAX; there are 2 LMAX of them *)
Theorem C128_half_wavelength : forall LMAX RADIUS, (1 <= LMAX)%Z -> exists psi, calc_harmonic_resolution LMAX RADIUS false = Ok psi /\
  (forall C S a b, (C <> 0 \/ S <> 0) -> next_zero (fun x => C * cos (IZR LMAX * x) + S * sin (IZR LMAX * x)) a b -> RADIUS * (b - a) = psi) /\
  2 * IZR LMAX * psi = 2 * PI * RADIUS.
Proof.
  intros L Rd HL. exists (PI * Rd / IZR L). unfold calc_harmonic_resolution. replace (L =? 0)%Z with false by lia. split; [reflexivity|].
  assert (PL : 0 < IZR L) by (apply IZR_lt; lia). split; [|field; lra]. intros C S a b HN (Ha & Hb & Hab & Hz). pose proof PI_RGT_0 as HP.
  assert (D : b = a + PI / IZR L); [|rewrite D; field; lra].
  set (w := IZR L) in *.
  assert (Za : C * cos (w * (a + PI / w)) + S * sin (w * (a + PI / w)) = 0).
  { replace (w * (a + PI / w)) with (w * a + PI) by (field; lra). rewrite neg_cos, neg_sin. lra. }
  destruct (Rtotal_order b (a + PI / w)) as [Hl|[He|Hg]]; [exfalso|exact He|exfalso; apply (Hz (a + PI / w)); [split; [|exact Hg]|exact Za]; assert (0 < PI / w) by (apply Rdiv_lt_0_compat; lra); lra].
  (* two zeros closer than PI: the determinant is sin(w b - w a), which is positive *)
  assert (Dt : sin (w * b - w * a) > 0).
  { apply sin_gt_0; [nra|]. assert (w * b < w * (a + PI / w)) by (apply Rmult_lt_compat_l; assumption). replace (w * (a + PI / w)) with (w * a + PI) in H by (field; lra). lra. }
  rewrite sin_minus in Dt. set (ca := cos (w * a)) in *. set (sa := sin (w * a)) in *. set (cb := cos (w * b)) in *. set (sb := sin (w * b)) in *.
  assert (E1 : C * (sb * ca - cb * sa) = sb * (C * ca + S * sa) - sa * (C * cb + S * sb)) by ring.
  assert (E2 : S * (sb * ca - cb * sa) = ca * (C * cb + S * sb) - cb * (C * ca + S * sa)) by ring.
  rewrite Ha, Hb in E1, E2. replace (sb * 0 - sa * 0) with 0 in E1 by ring. replace (ca * 0 - cb * 0) with 0 in E2 by ring.
  apply Rmult_integral in E1, E2. lra.
Qed.
Print Assumptions C128_half_wavelength.

Lemma asin_mono s t : -1 <= s <= 1 -> -1 <= t <= 1 -> s < t -> asin s < asin t.
Proof.
  intros Hs Ht H. destruct (Rlt_or_le (asin s) (asin t)) as [|K]; [assumption|exfalso]. pose proof (asin_bound s) as [A1 A2]. pose proof (asin_bound t) as [B1 B2].
  assert (sin (asin t) <= sin (asin s)) by (apply sin_incr_1; lra). rewrite !sin_asin in H0 by assumption. lra.
Qed.
Lemma inverse_range L : (0 <= L)%Z -> 0 < 1 / (IZR L + 1) <= 1.
Proof. intros H. apply IZR_le in H. split; [apply Rdiv_lt_0_compat; lra|]. apply (Rmult_le_reg_r (IZR L + 1)); [lra|]. unfold Rdiv. rewrite Rmult_assoc, Rinv_l by lra. lra. Qed.
(** caps: (LMAX+1)^2 caps of this diameter, one for every coefficient to degree LMAX, have together the area of the sphere *)
Theorem C128_cap : forall LMAX RADIUS, (0 <= LMAX)%Z -> RADIUS <> 0 -> exists psi, calc_harmonic_resolution LMAX RADIUS true = Ok psi /\
  IZR ((LMAX + 1) ^ 2) * cap_area RADIUS (psi / (2 * RADIUS)) = 4 * PI * RADIUS ^ 2 /\ 0 < psi / (2 * RADIUS) <= PI.
Proof.
  intros L Rd HL HR. pose proof (inverse_range L HL) as HI. pose proof (IZR_le _ _ HL) as HL'. exists (4 * Rd * asin (1 / (IZR L + 1))). unfold calc_harmonic_resolution. replace (L =? -1)%Z with false by lia.
  cbv zeta. destruct (Rle_dec (Rabs (1 / (IZR L + 1))) 1) as [_|N]; [|exfalso; apply N; rewrite Rabs_pos_eq; lra]. split; [reflexivity|].
  set (s := 1 / (IZR L + 1)) in *. replace (4 * Rd * asin s / (2 * Rd)) with (2 * asin s) by (field; exact HR). split.
  - unfold cap_area. rewrite cos_2a_sin, sin_asin by lra. rewrite Z.pow_2_r, mult_IZR, plus_IZR. change (IZR 1) with 1. unfold s. field. lra.
  - pose proof (asin_bound s) as [_ B]. assert (0 < asin s). { rewrite <- asin_0. apply asin_mono; lra. } lra.
Qed.
Print Assumptions C128_cap.

(** more degrees resolve smaller features *)
Theorem C128_decreasing : forall cap L L' RADIUS psi psi', 0 < RADIUS -> (1 <= L < L')%Z -> calc_harmonic_resolution L RADIUS cap = Ok psi -> calc_harmonic_resolution L' RADIUS cap = Ok psi' -> 0 < psi' < psi.
Proof.
  intros cap L L' Rd psi psi' HR [HL HLL] E E'. pose proof PI_RGT_0 as HP. assert (P1 : 1 <= IZR L) by (apply IZR_le; lia). assert (P2 : IZR L < IZR L') by (apply IZR_lt; lia). unfold calc_harmonic_resolution in *. destruct cap.
  - replace (L =? -1)%Z with false in E by lia. replace (L' =? -1)%Z with false in E' by lia. cbv zeta in E, E'.
    destruct (Rle_dec (Rabs (1 / (IZR L + 1))) 1); [|discriminate]. destruct (Rle_dec (Rabs (1 / (IZR L' + 1))) 1); [|discriminate]. injection E as <-. injection E' as <-.
    pose proof (inverse_range L ltac:(lia)) as I1. pose proof (inverse_range L' ltac:(lia)) as I2.
    assert (K : 1 / (IZR L' + 1) < 1 / (IZR L + 1)). { apply Rmult_lt_compat_l; [lra|]. apply Rinv_lt_contravar; [apply Rmult_lt_0_compat; lra|lra]. }
    assert (0 < asin (1 / (IZR L' + 1))). { rewrite <- asin_0. apply asin_mono; lra. }
    assert (asin (1 / (IZR L' + 1)) < asin (1 / (IZR L + 1))) by (apply asin_mono; lra). split; [repeat apply Rmult_lt_0_compat; lra|]. apply Rmult_lt_compat_l; lra.
  - replace (L =? 0)%Z with false in E by lia. replace (L' =? 0)%Z with false in E' by lia. injection E as <-. injection E' as <-. split; [apply Rdiv_lt_0_compat; [nra|lra]|].
    apply Rmult_lt_compat_l; [nra|]. apply Rinv_lt_contravar; [apply Rmult_lt_0_compat; lra|exact P2].
Qed.
Theorem C128_errors : forall RADIUS, calc_harmonic_resolution 0 RADIUS false = Err ZeroDivision /\ calc_harmonic_resolution (-1) RADIUS true = Err ZeroDivision /\
  calc_harmonic_resolution 0 RADIUS true = Ok (2 * PI * RADIUS).
Proof.
  intros Rd. split; [reflexivity|]. split; [reflexivity|]. unfold calc_harmonic_resolution. cbn [Z.eqb]. replace (1 / (0 + 1)) with 1 by field. cbv zeta.
  destruct (Rle_dec (Rabs 1) 1) as [_|N]; [|exfalso; apply N; rewrite Rabs_R1; lra]. f_equal. rewrite asin_1. field.
Qed.
Example C128_example : exists psi, calc_harmonic_resolution 60 6371 false = Ok psi /\ next_zero (fun x => 1 * cos (IZR 60 * x) + 0 * sin (IZR 60 * x)) (PI / 120) (3 * PI / 120).
Proof.
  eexists. split; [reflexivity|]. pose proof PI_RGT_0. split; [|split; [|split; [lra|]]].
  - replace (60 * (PI / 120)) with (PI / 2) by field. rewrite cos_PI2. ring.
  - replace (60 * (3 * PI / 120)) with (3 * (PI / 2)) by field. rewrite cos_3PI2. ring.
  - intros x [H1 H2] E. assert (cos (60 * x) = 0) by lra. assert (cos (60 * x) < 0); [|lra]. apply cos_lt_0; lra.
Qed.
