(** C58 shift_grid, C72 wrap_longitudes, C73 nearest neighbour interpolation. *)
From Coq Require Import Reals Lra Sorted Permutation.
From Verif Require Import Base RegressModel RegressProofs TsModel ToolsModel PropTs.
Close Scope Z_scope.
Open Scope R_scope.

(** ** C72 *)
Definition same_meridian (a b : R) : Prop := exists k : Z, b = a + 360 * IZR k.
Lemma same_angle a b : sin a = sin b -> cos a = cos b -> exists k : Z, b = a + 2 * PI * IZR k.
Proof.
  intros Es Ec. assert (D : cos (b - a) = 1). { rewrite cos_minus, Es, Ec. pose proof (sin2_cos2 b) as T. unfold Rsqr in T. lra. }
  assert (Z : sin ((b - a) / 2) = 0).
  { pose proof (cos_2a_sin ((b - a) / 2)) as T. replace (2 * ((b - a) / 2)) with (b - a) in T by field. rewrite D in T. nra. }
  apply sin_eq_0_0 in Z. destruct Z as [k Hk]. exists k. lra.
Qed.
Theorem C72_wrap : forall lon, let w := wrap_longitudes lon in -180 < w <= 180 /\ same_meridian lon w /\
  (forall w', -180 < w' <= 180 -> same_meridian lon w' -> w' = w).
Proof.
  intros lon w. pose proof PI_RGT_0 as P. set (a := lon * PI / 180).
  destruct (atan2_ok (sin a) (cos a)) as (E1 & E2 & [L U]). set (t := atan2 (sin a) (cos a)) in *.
  assert (N : sqrt (cos a ^ 2 + sin a ^ 2) = 1). { pose proof (sin2_cos2 a) as T. rewrite <- !Rsqr_pow2, Rplus_comm, T. apply sqrt_1. }
  rewrite N, Rmult_1_l in E1, E2.
  assert (W : w = t * 180 / PI) by reflexivity.
  assert (B : -180 < w <= 180). { rewrite W. split.
    - apply (Rmult_lt_reg_r PI); auto. unfold Rdiv. rewrite Rmult_assoc, Rinv_l by lra. nra.
    - apply (Rmult_le_reg_r PI); auto. unfold Rdiv. rewrite Rmult_assoc, Rinv_l by lra. nra. }
  assert (M : same_meridian lon w).
  { destruct (same_angle a t (eq_sym E2) (eq_sym E1)) as [k Hk]. exists k. rewrite W, Hk. unfold a. field. lra. }
  split; [exact B|]. split; [exact M|].
  intros w' B' [k' Hk']. destruct M as [k Hk]. assert (D : w' - w = 360 * IZR (k' - k)) by (rewrite minus_IZR; lra).
  assert (Z : (k' - k = 0)%Z). { assert (-1 < k' - k < 1)%Z; [|lia]. split; apply lt_IZR; lra. }
  rewrite Z in D. lra.
Qed.
Theorem C72_idempotent : forall lon, wrap_longitudes (wrap_longitudes lon) = wrap_longitudes lon /\
  (-180 < lon <= 180 -> wrap_longitudes lon = lon) /\ forall k : Z, wrap_longitudes (lon + 360 * IZR k) = wrap_longitudes lon.
Proof.
  assert (ID : forall lon, -180 < lon <= 180 -> wrap_longitudes lon = lon).
  { intros lon B. destruct (C72_wrap lon) as (_ & _ & U). symmetry. apply U; auto. exists 0%Z. ring. }
  intros lon. destruct (C72_wrap lon) as (B & [j Hj] & U). split; [apply ID, B|]. split; [apply ID|].
  intros k. destruct (C72_wrap (lon + 360 * IZR k)) as (B' & [j' Hj'] & _). apply U; auto. exists (k + j')%Z. rewrite plus_IZR. lra.
Qed.

(** ** C73 *)
(** coordinates equally spaced from x0 with step h *)
Definition even_axis (xin : list R) (x0 h : R) : Prop := (2 <= length xin)%nat /\ h <> 0 /\ forall i, (i < length xin)%nat -> val xin i = x0 + INR i * h.
Lemma around_ok x : Rabs (x - IZR (around x)) <= 1 / 2.
Proof.
  unfold around. destruct (base_fp x) as [F0 F1]. assert (E : x = IZR (Int_part x) + frac_part x) by (unfold frac_part; ring).
  set (f := Int_part x) in *. set (r := frac_part x) in *.
  destruct (Rlt_dec r (1 / 2)). { rewrite E. replace (IZR f + r - IZR f) with r by ring. rewrite Rabs_right; lra. }
  destruct (Rlt_dec (1 / 2) r). { rewrite plus_IZR, E. replace (IZR f + r - (IZR f + 1)) with (r - 1) by ring. rewrite Rabs_left; lra. }
  destruct (Z.even f); [|rewrite plus_IZR]; rewrite E.
  - replace (IZR f + r - IZR f) with r by ring. rewrite Rabs_right; lra.
  - replace (IZR f + r - (IZR f + 1)) with (r - 1) by ring. rewrite Rabs_left; lra.
Qed.
Lemma around_range x n : 0 <= x <= INR n -> (0 <= around x <= Z.of_nat n)%Z.
Proof.
  intros [L U]. pose proof (around_ok x) as A. apply Rabs_le_between in A || apply Rabs_def2 in A || idtac.
  assert (A' : - (1 / 2) <= x - IZR (around x) <= 1 / 2). { pose proof (around_ok x) as Q. unfold Rabs in Q. destruct (Rcase_abs _); lra. }
  split.
  - assert (-1 < around x)%Z; [apply lt_IZR; lra|lia].
  - assert (around x < Z.of_nat n + 1)%Z; [|lia]. apply lt_IZR. rewrite plus_IZR, <- INR_IZR_INZ. lra.
Qed.
(** the node chosen for an output coordinate is a nearest node of the axis *)
Theorem C73_nearest : forall xin x0 h x, even_axis xin x0 h ->
  (axis_index xin x < length xin)%nat /\
  forall i, (i < length xin)%nat -> Rabs (val xin (axis_index xin x) - x) <= Rabs (val xin i - x).
Proof.
  intros xin x0 h x (L2 & Hh & E). set (n := (length xin - 1)%nat).
  assert (NP : 0 < INR n) by (apply lt_0_INR; unfold n; lia).
  assert (A0 : at_ xin 0 = x0). { unfold at_. fold (val xin 0). rewrite E by lia. cbn [INR]. ring. }
  assert (AN : at_ xin n = x0 + INR n * h). { unfold at_. fold (val xin n). apply E. unfold n; lia. }
  set (u := (x - x0) / h). assert (XU : x = x0 + u * h) by (unfold u; field; auto).
  assert (AR : INR n * (x - at_ xin 0) / (at_ xin n - at_ xin 0) = u). { rewrite A0, AN, XU. assert (INR n * h <> 0) by (apply Rmult_integral_contrapositive_currified; lra). field. lra. }
  unfold axis_index. fold n. rewrite AR. set (c := clip u 0 (INR n)).
  assert (C : 0 <= c <= INR n). { unfold c, clip. split; [apply Rmin_glb; [apply Rmax_r|lra]|apply Rmin_r]. }
  pose proof (around_range c n C) as RG. pose proof (around_ok c) as RO. set (a := around c) in *.
  set (k := Z.to_nat a). assert (KA : INR k = IZR a). { unfold k. rewrite INR_IZR_INZ, Z2Nat.id by lia. reflexivity. }
  assert (KL : (k < length xin)%nat) by (unfold k, n in *; lia).
  split; [exact KL|]. intros i Li. rewrite (E k KL), (E i Li), XU.
  replace (x0 + INR k * h - (x0 + u * h)) with ((INR k - u) * h) by ring. replace (x0 + INR i * h - (x0 + u * h)) with ((INR i - u) * h) by ring.
  rewrite !Rabs_mult. apply Rmult_le_compat_r; [apply Rabs_pos|]. rewrite KA.
  assert (IN : 0 <= INR i <= INR n). { split; [apply pos_INR|apply le_INR; unfold n; lia]. }
  assert (RO' : - (1 / 2) <= c - IZR a <= 1 / 2) by (unfold Rabs in RO; destruct (Rcase_abs _); lra).
  destruct (Rle_dec u 0) as [U0|U0].
  - assert (c0 : c = 0). { unfold c, clip. rewrite Rmax_right by lra. apply Rmin_left. lra. }
    assert (a = 0)%Z. { assert (-1 < a < 1)%Z; [|lia]. rewrite c0 in RO'. split; apply lt_IZR; lra. }
    rewrite H. unfold Rabs. destruct (Rcase_abs _), (Rcase_abs _); lra.
  - destruct (Rle_dec (INR n) u) as [UN|UN].
    + assert (cn : c = INR n). { unfold c, clip. rewrite Rmax_left by lra. apply Rmin_right. lra. }
      assert (a = Z.of_nat n)%Z. { rewrite cn, INR_IZR_INZ in RO'. assert (-1 < a - Z.of_nat n < 1)%Z; [|lia]. split; apply lt_IZR; rewrite minus_IZR; lra. }
      rewrite H, <- INR_IZR_INZ. unfold Rabs. destruct (Rcase_abs _), (Rcase_abs _); lra.
    + assert (cu : c = u). { unfold c, clip. rewrite Rmax_left by lra. apply Rmin_left. lra. }
      rewrite cu in RO'.
      destruct (Z.eq_dec (Z.of_nat i) a) as [Q|Q]. { rewrite INR_IZR_INZ, Q. lra. }
      assert (F : 1 <= INR i - IZR a \/ INR i - IZR a <= -1).
      { rewrite INR_IZR_INZ. destruct (Z_lt_le_dec a (Z.of_nat i)); [left|right]; rewrite <- minus_IZR; apply IZR_le; lia. }
      unfold Rabs. destruct (Rcase_abs _), (Rcase_abs _), F; lra.
Qed.
(** at a grid node the value of that node is returned; points outside the grid get the border value *)
Theorem C73_node : forall (A : Type) (data : list (list A)) xin yin x0 hx y0 hy i j row v,
  even_axis xin x0 hx -> even_axis yin y0 hy -> (i < length xin)%nat -> (j < length yin)%nat ->
  nth_error data j = Some row -> nth_error row i = Some v -> interp_nearest data xin yin (val xin i) (val yin j) = Some v.
Proof.
  assert (K : forall xin x0 h i, even_axis xin x0 h -> (i < length xin)%nat -> axis_index xin (val xin i) = i).
  { intros xin x0 h i HE Li. destruct (C73_nearest xin x0 h (val xin i) HE) as [Lk N]. specialize (N i Li).
    set (a := axis_index xin (val xin i)) in *. clearbody a.
    replace (val xin i - val xin i) with 0 in N by ring. rewrite Rabs_R0 in N. destruct HE as (L2 & Hh & E). rewrite (E _ Lk), (E i Li) in N.
    replace (x0 + INR a * h - (x0 + INR i * h)) with ((INR a - INR i) * h) in N by ring.
    rewrite Rabs_mult in N. pose proof (Rabs_pos_lt h Hh). assert (Z : Rabs (INR a - INR i) = 0) by (pose proof (Rabs_pos (INR a - INR i)); nra).
    apply INR_eq. destruct (Req_dec (INR a - INR i) 0) as [|Q]; [lra|]. apply Rabs_no_R0 in Q. contradiction. }
  intros A data xin yin x0 hx y0 hy i j row v HX HY Li Lj HR HV. unfold interp_nearest. rewrite (K yin y0 hy j HY Lj), HR, (K xin x0 hx i HX Li). exact HV.
Qed.
Example C73_nonvacuous : even_axis [0; 1/2; 1] 0 (1/2) /\ axis_index [0; 1/2; 1] 7 = 2%nat.
Proof.
  assert (E : even_axis [0; 1/2; 1] 0 (1/2)). { split; [cbn; lia|]. split; [lra|]. intros i Li. cbn in Li. do 3 (destruct i as [|i]; [unfold val; cbn; lra|]). lia. }
  split; [exact E|]. destruct (C73_nearest _ _ _ 7 E) as [L N]. cbn in L. specialize (N 2%nat ltac:(cbn; lia)).
  destruct (axis_index [0; 1/2; 1] 7) as [|[|[|k]]]; [| |reflexivity|lia]; exfalso; unfold val in N; cbn in N; unfold Rabs in N; destruct (Rcase_abs _), (Rcase_abs _); lra.
Qed.

(** ** C58 *)
Lemma argmin_ok f n : (1 <= n)%nat -> (argmin f n < n)%nat /\ (forall i, (i < n)%nat -> f (argmin f n) <= f i) /\ (forall i, (i < argmin f n)%nat -> f (argmin f n) < f i).
Proof.
  induction n as [|m IH]; intros L; [lia|]. cbn [argmin]. destruct m as [|m'].
  - cbn [argmin]. destruct (Rlt_dec (f 0%nat) (f 0%nat)); [lra|]. split; [lia|]. split; [|lia]. intros i Li. assert (i = 0)%nat by lia. subst. lra.
  - set (m := S m') in *. destruct (IH ltac:(unfold m; lia)) as (B1 & B2 & B3). destruct (Rlt_dec (f m) (f (argmin f m))) as [C|C].
    + split; [lia|]. split; intros i Li.
      * destruct (Nat.eq_dec i m) as [->|]; [lra|]. pose proof (B2 i ltac:(lia)). lra.
      * pose proof (B2 i ltac:(lia)). lra.
    + split; [lia|]. split; intros i Li.
      * destruct (Nat.eq_dec i m) as [->|]; [lra|]. apply B2; lia.
      * apply B3; lia.
Qed.
(** column k of the output comes from column [source n i0 s k] of the input *)
Definition source (n i0 s k : nat) : nat := if (k <? n - i0)%nat then (i0 + k)%nat else (k - (n - i0) + s)%nat.
Definition cyclic_duplicate (lon : list R) (C : R) : Prop := Rabs (val lon (length lon - 1) - val lon 0 - C) <= 1 / 10000.
Definition nearest_first (lon : list R) (lon0 : R) (i0 : nat) : Prop :=
  (i0 < length lon)%nat /\ (forall i, (i < length lon)%nat -> Rabs (val lon i0 - lon0) <= Rabs (val lon i - lon0)) /\
  (forall i, (i < i0)%nat -> Rabs (val lon i0 - lon0) < Rabs (val lon i - lon0)).
Definition cell {A} (data : list (list A)) (j i : nat) : option A := match nth_error data j with Some row => nth_error row i | None => None end.
Lemma shift_row_ok {A} i0 s f g (x : list A) : (0 < i0)%nat -> (i0 + s <= length x)%nat -> exists y, shift_row i0 s f g x = Ok y /\ length y = length x /\
  forall k, (k < length x)%nat -> nth_error y k = option_map (if (k <? length x - i0)%nat then f else g) (nth_error x (source (length x) i0 s k)).
Proof.
  intros P L. unfold shift_row. destruct (Nat.eqb_spec i0 0); [lia|]. eexists. split; [reflexivity|].
  assert (L1 : length (map f (skipn i0 x)) = (length x - i0)%nat) by (rewrite map_length, skipn_length; reflexivity).
  assert (L2 : length (map g (slice x s (i0 + s))) = i0) by (rewrite map_length, slice_len by lia; lia).
  split; [rewrite app_length, L1, L2; lia|]. intros k Lk. unfold source. destruct (Nat.ltb_spec k (length x - i0)).
  - rewrite nth_error_app1 by lia. rewrite nth_error_map. f_equal.
    assert (G : forall (l : list A) a i, nth_error (skipn a l) i = nth_error l (a + i)). { induction l as [|z l IH]; intros [|a] i; cbn; auto. destruct i; reflexivity. }
    apply G.
  - rewrite nth_error_app2 by lia. rewrite L1, nth_error_map. f_equal. unfold slice.
    assert (G : forall (l : list A) a i, nth_error (skipn a l) i = nth_error l (a + i)). { induction l as [|z l IH]; intros [|a] i; cbn; auto. destruct i; reflexivity. }
    assert (G' : forall (l : list A) b i, (i < b)%nat -> nth_error (firstn b l) i = nth_error l i). { induction l as [|z l IH]; intros [|b] [|i] Q; cbn; auto; try lia. apply IH; lia. }
    rewrite G, G' by lia. f_equal. lia.
Qed.
Section Shift.
Context {A : Type} (lon0 C : R) (data : list (list A)) (lon : list R).
Let run := shift_grid lon0 data lon C.
Lemma shift_zero : lon <> [] -> nearest_first lon lon0 0 -> run = Err ValueError.
Proof.
  intros N (L & M & F). unfold run, shift_grid. destruct lon as [|x0 xs]; [congruence|]. set (l := x0 :: xs) in *.
  destruct (argmin_ok (fun i => Rabs (at_ l i - lon0)) (length l) ltac:(cbn; lia)) as (B1 & B2 & B3).
  set (i0 := argmin _ _) in *. assert (i0 = 0%nat). { destruct (Nat.eq_dec i0 0); auto. pose proof (B3 0%nat ltac:(lia)) as Q. pose proof (M i0 B1). unfold at_, val in *. lra. }
  rewrite H. reflexivity.
Qed.
Lemma shift_ok (rect : forall row, In row data -> length row = length lon) i0 : nearest_first lon lon0 i0 -> (0 < i0)%nat -> exists d l s, run = Ok (d, l) /\
  (s = 0 \/ s = 1)%nat /\ (s = 1%nat <-> cyclic_duplicate lon C) /\ length l = length lon /\ length d = length data /\
  (forall k, (k < length lon)%nat -> val l k = val lon (source (length lon) i0 s k) - (if (k <? length lon - i0)%nat then C else 0)) /\
  (forall j k, (j < length data)%nat -> (k < length lon)%nat -> cell d j k = cell data j (source (length lon) i0 s k)).
Proof.
  intros (L & M & F) P. unfold run, shift_grid. destruct lon as [|x0 xs] eqn:EL; [cbn in L; lia|]. set (l := x0 :: xs) in *.
  destruct (argmin_ok (fun i => Rabs (at_ l i - lon0)) (length l) ltac:(cbn; lia)) as (B1 & B2 & B3).
  assert (EI : argmin (fun i => Rabs (at_ l i - lon0)) (length l) = i0).
  { set (a := argmin _ _) in *. destruct (Nat.lt_trichotomy a i0) as [Q|[Q|Q]]; auto.
    - pose proof (F a Q). pose proof (B2 i0 L). unfold at_, val in *. lra.
    - pose proof (B3 i0 Q). pose proof (M a B1). unfold at_, val in *. lra. }
  rewrite EI. set (s := start_idx l C).
  assert (S01 : (s = 0 \/ s = 1)%nat) by (unfold s, start_idx; destruct (Rgt_dec _ _); auto).
  assert (SC : s = 1%nat <-> cyclic_duplicate l C).
  { unfold s, start_idx, cyclic_duplicate, val. change (nth ?i ?l 0) with (at_ l i). destruct (Rgt_dec _ _); split; intros; try lra; try lia; discriminate. }
  assert (LL : (i0 + s <= length l)%nat) by lia.
  destruct (shift_row_ok i0 s (fun x => x - C) (fun x => x) l P LL) as (y & Ey & Ly & Ny). rewrite Ey. cbn [bind].
  assert (MM : exists d, mapM (shift_row i0 s (fun x => x) (fun x => x)) data = Ok d /\ length d = length data /\
     forall j k, (j < length data)%nat -> (k < length l)%nat -> cell d j k = cell data j (source (length l) i0 s k)).
  { clear Ey Ny. induction data as [|row rows IH].
    - exists []. split; [reflexivity|]. split; [reflexivity|]. cbn. lia.
    - assert (LR : length row = length l) by (apply rect; left; auto).
      destruct (shift_row_ok i0 s (fun x => x) (fun x => x) row P ltac:(lia)) as (r & Er & Lr & Nr).
      destruct IH as (d & Ed & Ld & Nd); [intros; apply rect; right; auto|]. exists (r :: d). cbn [mapM]. rewrite Er. cbn [bind]. rewrite Ed. cbn [bind].
      split; [reflexivity|]. split; [cbn; lia|]. intros [|j] k Lj Lk.
      + unfold cell. cbn [nth_error]. rewrite Nr by lia. rewrite LR. destruct (nth_error row _); destruct (_ <? _)%nat; reflexivity.
      + unfold cell in *. cbn [nth_error]. apply Nd; [cbn in Lj; lia|auto]. }
  destruct MM as (d & Ed & Ld & Nd). rewrite Ed. cbn [bind]. exists d, y, s. split; [reflexivity|]. repeat (split; [assumption|]). split; [|exact Nd].
  intros k Lk. specialize (Ny k Lk). unfold val. destruct (nth_error l (source (length l) i0 s k)) as [v|] eqn:EV.
  - cbn [option_map] in Ny. rewrite (nth_error_nth _ _ 0 Ny), (nth_error_nth _ _ 0 EV). destruct (_ <? _)%nat; ring.
  - apply nth_error_None in EV. unfold source in EV. destruct (Nat.ltb_spec k (length l - i0)); lia.
Qed.
End Shift.
(** data and longitudes move together: output column k is input column [source k], its longitude is that of the input
    column, minus the cycle for the columns at and east of the new base; the first longitude is that of the column nearest to
    lon0, minus the cycle *)
Theorem C58_shift : forall (A : Type) lon0 C (data : list (list A)) lon i0, (forall row, In row data -> length row = length lon) ->
  nearest_first lon lon0 i0 -> (0 < i0)%nat ->
  exists d l s, shift_grid lon0 data lon C = Ok (d, l) /\ (s = 0 \/ s = 1)%nat /\ (s = 1%nat <-> cyclic_duplicate lon C) /\
  length l = length lon /\ length d = length data /\ val l 0 = val lon i0 - C /\
  (forall k, (k < length lon)%nat -> val l k = val lon (source (length lon) i0 s k) - (if (k <? length lon - i0)%nat then C else 0)) /\
  (forall j k, (j < length data)%nat -> (k < length lon)%nat -> cell d j k = cell data j (source (length lon) i0 s k)).
Proof.
  intros A lon0 C data lon i0 R N P. destruct (shift_ok lon0 C data lon R i0 N P) as (d & l & s & E & S1 & S2 & L1 & L2 & V & D).
  exists d, l, s. repeat (split; [assumption|]). split; [|split; assumption]. destruct N as (L & _). rewrite V by lia. unfold source.
  destruct (Nat.ltb_spec 0 (length lon - i0)); [|lia]. replace (i0 + 0)%nat with i0 by lia. reflexivity.
Qed.
(** without a repeated meridian every input column appears exactly once; with one, all columns but the first appear, and
    the first one is the same meridian as the last *)
Theorem C58_columns : forall n i0 s, (0 < i0 < n)%nat -> (s = 0 \/ s = 1)%nat ->
  (forall k, (k < n)%nat -> (source n i0 s k < n)%nat) /\
  (s = 0%nat -> Permutation (map (source n i0 s) (seq 0 n)) (seq 0 n)) /\
  (s = 1%nat -> forall c, (1 <= c < n)%nat -> exists k, (k < n)%nat /\ source n i0 s k = c).
Proof.
  intros n i0 s [P L] S. assert (B : forall k, (k < n)%nat -> (source n i0 s k < n)%nat). { intros k Lk. unfold source. destruct (Nat.ltb_spec k (n - i0)); lia. }
  split; [exact B|]. split.
  - intros ->. apply NoDup_Permutation_bis.
    + assert (INJ : forall l, NoDup l -> (forall x, In x l -> (x < n)%nat) -> NoDup (map (source n i0 0) l)).
      { induction l as [|x l IH]; intros ND HL; [constructor|]. inversion ND; subst. cbn [map]. constructor.
        - rewrite in_map_iff. intros [y [Ey Hy]]. assert (x = y). { pose proof (HL x ltac:(left; auto)). pose proof (HL y ltac:(right; auto)).
            unfold source in Ey. destruct (Nat.ltb_spec x (n - i0)), (Nat.ltb_spec y (n - i0)); lia. } subst. contradiction.
        - apply IH; auto. intros; apply HL; right; auto. }
      apply INJ; [apply seq_NoDup|]. intros x Hx. apply in_seq in Hx. lia.
    + rewrite map_length. lia.
    + intros x Hx. apply in_map_iff in Hx. destruct Hx as [k [<- Hk]]. apply in_seq in Hk. apply in_seq. pose proof (B k ltac:(lia)). lia.
  - intros -> c Hc. destruct (le_lt_dec i0 c).
    + exists (c - i0)%nat. split; [lia|]. unfold source. destruct (Nat.ltb_spec (c - i0) (n - i0)); lia.
    + exists (n - i0 + c - 1)%nat. split; [lia|]. unfold source. destruct (Nat.ltb_spec (n - i0 + c - 1) (n - i0)); lia.
Qed.
(** increasing longitudes within one cycle stay increasing *)
Theorem C58_increasing : forall (A : Type) lon0 C (data : list (list A)) lon i0 d l, (forall row, In row data -> length row = length lon) ->
  nearest_first lon lon0 i0 -> (0 < i0)%nat -> shift_grid lon0 data lon C = Ok (d, l) ->
  (forall i j, (i < j < length lon)%nat -> val lon i < val lon j) -> val lon (length lon - 1) - val lon 0 <= C ->
  (cyclic_duplicate lon C -> val lon (length lon - 1) - C < val lon 1) -> (~ cyclic_duplicate lon C -> val lon (length lon - 1) - C < val lon 0) ->
  forall i j, (i < j < length l)%nat -> val l i < val l j.
Proof.
  intros A lon0 C data lon i0 d l R N P E INC LE CY NC i j Hij.
  destruct (C58_shift A lon0 C data lon i0 R N P) as (d' & l' & s & E' & S1 & S2 & L1 & L2 & _ & V & _).
  assert (l' = l) by congruence. subst l'. destruct N as (L & _).
  rewrite !V by lia. unfold source. destruct (Nat.ltb_spec i (length lon - i0)), (Nat.ltb_spec j (length lon - i0)); try lia.
  - pose proof (INC (i0 + i)%nat (i0 + j)%nat ltac:(lia)). lra.
  - assert (A1 : val lon (i0 + i) <= val lon (length lon - 1)). { destruct (Nat.eq_dec (i0 + i) (length lon - 1)) as [->|]; [lra|]. left. apply INC. lia. }
    destruct S1 as [-> | ->].
    + assert (NC' : val lon (length lon - 1) - C < val lon 0). { apply NC. intros Q. apply S2 in Q. discriminate. }
      assert (A2 : val lon 0 <= val lon (j - (length lon - i0) + 0)). { destruct (Nat.eq_dec (j - (length lon - i0) + 0) 0) as [->|]; [lra|]. left. apply INC. lia. }
      lra.
    + assert (CY' : val lon (length lon - 1) - C < val lon 1) by (apply CY, S2; reflexivity).
      assert (A2 : val lon 1 <= val lon (j - (length lon - i0) + 1)). { destruct (Nat.eq_dec (j - (length lon - i0) + 1) 1) as [->|]; [lra|]. left. apply INC. lia. }
      lra.
  - pose proof (INC (i - (length lon - i0) + s)%nat (j - (length lon - i0) + s)%nat ltac:(lia)). lra.
Qed.
(** Refuted: if the first longitude is the nearest to the requested base (no shift needed) the call raises *)
Theorem C58_first_longitude_refuted : forall (A : Type) lon0 C (data : list (list A)) lon, lon <> [] ->
  nearest_first lon lon0 0 -> shift_grid lon0 data lon C = Err ValueError.
Proof. intros A lon0 C data lon N F. apply shift_zero; auto. Qed.
Example C58_nonvacuous : nearest_first [0; 90; 180; 270] 180 2 /\ nearest_first [-180; -90; 0; 90] (-180) 0.
Proof.
  split; (split; [cbn; lia|split]); intros i Li; cbn in Li; do 4 (destruct i as [|i]; [try lia; unfold val; cbn [nth]; unfold Rabs; repeat destruct (Rcase_abs _); lra|]); lia.
Qed.
