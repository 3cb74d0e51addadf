(** C131: length, truth value and text of harmonics and spatial objects; spacing and extent of a grid.  C132: the complex form of the coefficients (model: ObjModel.v). *)
From Coq Require Import Reals Lra Lia ZifyBool ZifyNat.
From Verif Require Import Base Arr TimeModel HarmModel HarmProofs HarmProofs2 HarmProofs3 ObjModel.
Close Scope Z_scope.
Close Scope R_scope.
Open Scope nat_scope.

(** ** C131: length *)
Lemma nonzero_ok z : nonzero z = true <-> z <> 0%Z.
Proof. unfold nonzero. lia. Qed.
Lemma some_month l : existsb nonzero l = true <-> exists z, In z l /\ z <> 0%Z.
Proof. rewrite existsb_exists. split; intros (z & I & H); exists z; (split; [exact I|]); apply nonzero_ok; exact H. Qed.
(** the outcome of len() for all values of the months: their number, 0 when all are 0 or there are none; a number other than 0 has no length *)
Theorem C131_length :
  len TNone = Ok 0
  /\ (forall l, (exists z, In z l /\ z <> 0%Z) -> len (TArr l) = Ok (List.length l) /\ truth (TArr l) = Ok true)
  /\ (forall l, (forall z, In z l -> z = 0%Z) -> len (TArr l) = Ok 0 /\ truth (TArr l) = Ok false)
  /\ (forall z, z <> 0%Z -> len (TScalar z) = Err TypeError /\ truth (TScalar z) = Err TypeError)
  /\ len (TScalar 0%Z) = Ok 0.
Proof.
  split; [reflexivity|]. split; [|split; [|split; [|reflexivity]]].
  - intros l H. pose proof H as (z & I & _). apply some_month in H. unfold truth, len. rewrite H. cbn [bind]. split; [reflexivity|]. destruct l; [destruct I|reflexivity].
  - intros l H. assert (E : existsb nonzero l = false) by (apply not_true_iff_false; intros E; apply some_month in E; destruct E as (z & I & N); exact (N (H z I))). unfold truth, len. rewrite E. split; reflexivity.
  - intros z H. apply nonzero_ok in H. unfold truth, len. rewrite H. split; reflexivity.
Qed.
(** a loop over a series takes as many steps as its length says, unless all months are 0 (December 2001): then the length is 0 and the object counts as false, but the loop takes all steps.
    What the loop gives has no length (months other than 0) *)
Theorem C131_loop : forall h n ts ms c, wf h -> depth (clm h) = Some n -> time h = TArr ts -> month h = TArr ms ->
  exists xs o, for_loop (S n) (iter_start (mkhobj h c)) [] = Ok (Some (xs, o)) /\ List.length xs = n
  /\ ((exists z, In z ms /\ z <> 0%Z) -> len (month h) = Ok n)
  /\ ((forall z, In z ms -> z = 0%Z) -> len (month h) = Ok 0 /\ truth (month h) = Ok false)
  /\ (forall k x, nth_error xs k = Some x -> nth k ms 0%Z <> 0%Z -> len (month x) = Err TypeError /\ truth (month x) = Err TypeError).
Proof.
  intros h n ts ms c W D T M. destruct (iterate_twice h n ts ms W D T M c) as (o & E & _). eexists _, o. split; [exact E|].
  destruct C131_length as (_ & L1 & L0 & LS & _).
  pose proof W as (_ & _ & _ & W'). rewrite D in W'. destruct W' as (ts' & ms' & T' & M' & Lt & Lm). rewrite M in M'. injection M' as <-.
  split; [rewrite map_length, seq_length; reflexivity|]. rewrite M. split; [intros H; rewrite (proj1 (L1 _ H)), Lm; reflexivity|]. split; [intros H; exact (L0 _ H)|].
  intros k x Hx Nz. assert (Lk : k < n) by (rewrite <- (seq_length n 0), <- (map_length (fun i => slice_of h i ts ms)); apply nth_error_Some; rewrite Hx; discriminate).
  assert (Ek : nth_error (seq 0 n) k = Some k) by (rewrite nth_error_nth' with (d := 0) by (rewrite seq_length; exact Lk); rewrite seq_nth by exact Lk; reflexivity).
  rewrite (map_nth_error _ _ _ Ek) in Hx. injection Hx as <-. unfold slice_of. cbn [month]. apply LS. exact Nz.
Qed.

(** ** C131: text *)
(** the text of an object: for two months or more it cannot be made (ValueError), nor for a single number of a month (TypeError); for one month in an array it names it twice;
    without months (or with month 0) it has only the degree and, when it is another and not 0, the order *)
Definition order_named (l m : option nat) (t : list text_line) : Prop :=
  (exists k, m = Some k /\ k <> 0 /\ l <> Some k /\ t = [MaxOrder k]) \/ ((m = None \/ m = Some 0 \/ m = l) /\ t = []).
Lemma order_ok l m : order_named l m (order_lines l m).
Proof.
  unfold order_lines, order_named. destruct m as [k|]; [|right; split; auto]. destruct (Nat.eqb_spec k 0) as [->|Nk]; [right; split; auto|]. cbn [negb andb].
  destruct l as [l|]; [destruct (Nat.eqb_spec k l) as [->|N]; cbn [negb]; [right; split; auto|]|]; left; exists k; repeat split; congruence.
Qed.
Theorem C131_text : forall l m, exists ol, order_named l m ol
  /\ (forall ms, 2 <= List.length ms -> harmonics_str l m (TArr ms) = Err ValueError)
  /\ (forall z, z <> 0%Z -> harmonics_str l m (TArr [z]) = Ok (HarmonicsTitle :: MaxDegree l :: ol ++ [StartMonth z; EndMonth z]))
  /\ (forall z, z <> 0%Z -> harmonics_str l m (TScalar z) = Err TypeError)
  /\ (forall t, In t [TNone; TScalar 0%Z; TArr []; TArr [0%Z]] -> harmonics_str l m t = Ok (HarmonicsTitle :: MaxDegree l :: ol)).
Proof.
  intros l m. exists (order_lines l m). split; [apply order_ok|]. unfold harmonics_str. split; [|split; [|split]].
  - intros [|a [|b ms]] H; cbn [List.length] in H; try lia. reflexivity.
  - intros z H. apply nonzero_ok in H. unfold month_lines, truth_months. cbn [bind]. rewrite H. reflexivity.
  - intros z H. apply nonzero_ok in H. unfold month_lines, truth_months. cbn [bind]. rewrite H. reflexivity.
  - intros t [<-|[<-|[<-|[<-|[]]]]]; unfold month_lines, truth_months; cbn [bind nonzero Z.eqb negb]; rewrite app_nil_r; reflexivity.
Qed.

(** ** C131: grids *)
Lemma fold_min l a : let m := fold_left Rmin l a in (forall x, In x (a :: l) -> (m <= x)%R) /\ In m (a :: l).
Proof.
  revert a. induction l as [|b l IH]; intros a; cbv zeta; cbn [fold_left]; [split; [intros x [<-|[]]; lra|left; reflexivity]|]. destruct (IH (Rmin a b)) as [H1 H2]. cbv zeta in *. split.
  - intros x [<-|[<-|I]]; [apply Rle_trans with (Rmin a b); [apply H1; left; reflexivity|apply Rmin_l]|apply Rle_trans with (Rmin a b); [apply H1; left; reflexivity|apply Rmin_r]|apply H1; right; exact I].
  - destruct H2 as [E|I]; [|right; right; exact I]. rewrite <- E. unfold Rmin. destruct (Rle_dec a b); [left; reflexivity|right; left; reflexivity].
Qed.
Lemma fold_max l a : let m := fold_left Rmax l a in (forall x, In x (a :: l) -> (x <= m)%R) /\ In m (a :: l).
Proof.
  revert a. induction l as [|b l IH]; intros a; cbv zeta; cbn [fold_left]; [split; [intros x [<-|[]]; lra|left; reflexivity]|]. destruct (IH (Rmax a b)) as [H1 H2]. cbv zeta in *. split.
  - intros x [<-|[<-|I]]; [apply Rle_trans with (Rmax a b); [apply Rmax_l|apply H1; left; reflexivity]|apply Rle_trans with (Rmax a b); [apply Rmax_r|apply H1; left; reflexivity]|apply H1; right; exact I].
  - destruct H2 as [E|I]; [|right; right; exact I]. rewrite <- E. unfold Rmax. destruct (Rle_dec a b); [right; left; reflexivity|left; reflexivity].
Qed.
Definition least (m : R) (l : list R) : Prop := In m l /\ forall x, In x l -> (m <= x)%R.
Definition greatest (m : R) (l : list R) : Prop := In m l /\ forall x, In x l -> (x <= m)%R.
(** west, east, south, north: the smallest and largest longitude, then latitude *)
Theorem C131_extent : forall lon lat, (lon <> [] -> lat <> [] -> exists w e s n, extent lon lat = Ok [w; e; s; n] /\ least w lon /\ greatest e lon /\ least s lat /\ greatest n lat)
  /\ (lon = [] \/ lat = [] -> extent lon lat = Err ValueError).
Proof.
  intros lon lat. split.
  - intros N1 N2. destruct lon as [|a lon]; [destruct N1; reflexivity|]. destruct lat as [|b lat]; [destruct N2; reflexivity|].
    destruct (fold_min lon a) as [W1 W2]. destruct (fold_max lon a) as [E1 E2]. destruct (fold_min lat b) as [S1 S2]. destruct (fold_max lat b) as [O1 O2]. cbv zeta in *.
    do 4 eexists. split; [reflexivity|]. repeat split; assumption.
  - intros [-> | ->]; [reflexivity|]. unfold extent. destruct lon; reflexivity.
Qed.
(** a grid with even axes: steps without their signs, and extents from the ends of the axes in their order of size; the order of the spacing is (longitude, latitude) *)
Definition even (l : list R) (x0 h : R) (n : nat) : Prop := l = map (fun k => (x0 + INR k * h)%R) (seq 0 n).
Lemma py_get_even l x0 h n k : even l x0 h n -> k < n -> py_get l (Z.of_nat k) = Ok (x0 + INR k * h)%R.
Proof.
  intros -> Hk. unfold py_get. rewrite map_length, seq_length. replace (Z.of_nat k <? 0)%Z with false by lia. replace ((0 <=? Z.of_nat k)%Z && (Z.of_nat k <? Z.of_nat n)%Z)%bool with true by lia.
  rewrite Nat2Z.id. assert (E : nth_error (seq 0 n) k = Some k) by (rewrite nth_error_nth' with (d := 0) by (rewrite seq_length; exact Hk); rewrite seq_nth by exact Hk; reflexivity). rewrite (map_nth_error _ _ _ E). reflexivity.
Qed.
Lemma even_range l x0 h n x : even l x0 h n -> In x l -> (Rmin x0 (x0 + INR (n - 1) * h) <= x <= Rmax x0 (x0 + INR (n - 1) * h))%R.
Proof.
  intros -> I. apply in_map_iff in I. destruct I as (k & <- & I). apply in_seq in I. assert (Lk : (INR k <= INR (n - 1))%R) by (apply le_INR; lia). pose proof (pos_INR k).
  destruct (Rle_dec 0 h) as [P|P].
  - assert (INR k * h <= INR (n - 1) * h)%R by (apply Rmult_le_compat_r; lra). assert (0 <= INR k * h)%R by (apply Rmult_le_pos; lra). rewrite Rmin_left, Rmax_right by lra. lra.
  - assert (INR (n - 1) * h <= INR k * h)%R by (apply Rmult_le_compat_neg_l with (r := h) in Lk; lra). assert (INR k * h <= 0)%R by (apply Ropp_le_cancel; rewrite Ropp_0, Ropp_mult_distr_r; apply Rmult_le_pos; lra). rewrite Rmin_right, Rmax_left by lra. lra.
Qed.
Lemma even_ends l x0 h n : even l x0 h n -> 1 <= n -> In x0 l /\ In (x0 + INR (n - 1) * h)%R l.
Proof.
  intros -> L. split; apply in_map_iff; [exists 0|exists (n - 1)]; (split; [|apply in_seq; lia]); [cbn [INR]; lra|reflexivity].
Qed.
Lemma least_unique a b l : least a l -> least b l -> a = b.
Proof. intros [I1 H1] [I2 H2]. apply Rle_antisym; auto. Qed.
Lemma greatest_unique a b l : greatest a l -> greatest b l -> a = b.
Proof. intros [I1 H1] [I2 H2]. apply Rle_antisym; auto. Qed.
Lemma even_least l x0 h n : even l x0 h n -> 1 <= n -> least (Rmin x0 (x0 + INR (n - 1) * h)) l /\ greatest (Rmax x0 (x0 + INR (n - 1) * h)) l.
Proof.
  intros E L. destruct (even_ends _ _ _ _ E L) as [A B]. split; split; try (intros x I; apply (even_range _ _ _ _ _ E I)).
  - unfold Rmin. destruct (Rle_dec _ _); assumption.
  - unfold Rmax. destruct (Rle_dec _ _); assumption.
Qed.
Theorem C131_even_grid : forall lon lat x0 hx nx y0 hy ny, even lon x0 hx nx -> even lat y0 hy ny -> 2 <= nx -> 2 <= ny ->
  spacing lon lat = Ok (Rabs hx, Rabs hy)
  /\ extent lon lat = Ok [Rmin x0 (x0 + INR (nx - 1) * hx); Rmax x0 (x0 + INR (nx - 1) * hx); Rmin y0 (y0 + INR (ny - 1) * hy); Rmax y0 (y0 + INR (ny - 1) * hy)]%R.
Proof.
  intros lon lat x0 hx nx y0 hy ny Ex Ey Lx Ly. split.
  - unfold spacing, step_. change 1%Z with (Z.of_nat 1). change 0%Z with (Z.of_nat 0). rewrite (py_get_even lat y0 hy ny 1 Ey), (py_get_even lat y0 hy ny 0 Ey), (py_get_even lon x0 hx nx 1 Ex), (py_get_even lon x0 hx nx 0 Ex) by lia. cbn [bind]. do 2 f_equal; f_equal; cbn [INR]; lra.
  - destruct (C131_extent lon lat) as [H _]. destruct H as (w & e & s & n & E & Hw & He & Hs & Hn).
    + intros ->. destruct (even_ends _ _ _ _ Ex) as [I _]; [lia|destruct I].
    + intros ->. destruct (even_ends _ _ _ _ Ey) as [I _]; [lia|destruct I].
    + rewrite E. destruct (even_least _ _ _ _ Ex) as [A B]; [lia|]. destruct (even_least _ _ _ _ Ey) as [A' B']; [lia|].
      rewrite (least_unique _ _ _ Hw A), (greatest_unique _ _ _ He B), (least_unique _ _ _ Hs A'), (greatest_unique _ _ _ Hn B'). reflexivity.
Qed.
(** an axis of one value has no spacing: IndexError *)
Theorem C131_spacing_latitudes : forall lon lat, List.length lat < 2 -> spacing lon lat = Err IndexError.
Proof. intros lon lat L. destruct lat as [|a [|b lat]]; [reflexivity|reflexivity|cbn [List.length] in L; lia]. Qed.
Theorem C131_spacing_longitudes : forall lon lat, 2 <= List.length lat -> List.length lon < 2 -> spacing lon lat = Err IndexError.
Proof.
  intros lon lat L Ls. destruct lat as [|a [|b lat]]; cbn [List.length] in L; try lia. unfold spacing, step_.
  assert (P : forall k, k < 2 -> exists v, py_get (a :: b :: lat) (Z.of_nat k) = Ok v).
  { intros k Hk. unfold py_get. cbn [List.length]. replace (Z.of_nat k <? 0)%Z with false by lia. replace ((0 <=? Z.of_nat k)%Z && (Z.of_nat k <? Z.of_nat (S (S (List.length lat))))%Z)%bool with true by lia. rewrite Nat2Z.id. destruct k as [|[|k]]; [exists a; reflexivity|exists b; reflexivity|lia]. }
  destruct (P 1) as [v1 E1]; [lia|]. destruct (P 0) as [v0 E0]; [lia|]. change (Z.of_nat 1) with 1%Z in E1. change (Z.of_nat 0) with 0%Z in E0. rewrite E1, E0. cbn [bind].
  destruct lon as [|x [|y lon]]; [reflexivity|reflexivity|cbn [List.length] in Ls; lia].
Qed.
(** the text of a spatial object has extent and shape; the months as for harmonics *)
Theorem C131_spatial_text : forall lon lat sh,
  (forall ms, lon <> [] -> lat <> [] -> 2 <= List.length ms -> spatial_str lon lat sh (TArr ms) = Err ValueError)
  /\ (forall e, extent lon lat = Ok e -> spatial_str lon lat sh TNone = Ok [SpatialTitle; Extent e; Shape sh])
  /\ (forall e z, extent lon lat = Ok e -> z <> 0%Z -> spatial_str lon lat sh (TArr [z]) = Ok [SpatialTitle; Extent e; Shape sh; StartMonth z; EndMonth z] /\ spatial_str lon lat sh (TScalar z) = Err TypeError).
Proof.
  intros lon lat sh. unfold spatial_str. split; [|split].
  - intros ms N1 N2 L. destruct (C131_extent lon lat) as [H _]. destruct (H N1 N2) as (w & e & s & n & E & _). rewrite E. cbn [bind]. destruct ms as [|a [|b ms]]; cbn [List.length] in L; try lia. reflexivity.
  - intros e E. rewrite E. reflexivity.
  - intros e z E Hz. rewrite E. cbn [bind]. apply nonzero_ok in Hz. unfold month_lines, truth_months. cbn [bind]. rewrite Hz. split; reflexivity.
Qed.
Example C131_nonvacuous : even [-180; -90; 0]%R (-180)%R 90%R 3 /\ even [90; 0; -90]%R 90%R (-90)%R 3 /\ len (TArr [0; 12]%Z) = Ok 2 /\ len (TArr [0; 0]%Z) = Ok 0
  /\ harmonics_str (Some 60) (Some 40) (TArr [4%Z]) = Ok [HarmonicsTitle; MaxDegree (Some 60); MaxOrder 40; StartMonth 4%Z; EndMonth 4%Z].
Proof. split; [|split; [|split; [reflexivity|split; reflexivity]]]; unfold even; cbn [seq map INR]; repeat (apply f_equal2; [lra|]); reflexivity. Qed.

(** ** C132: the complex form *)
Definition cmul (a b : complex) : complex := (fst a * fst b - snd a * snd b, fst a * snd b + snd a * fst b)%R.
Definition cexp (x : R) : complex := (cos x, sin x).
Definition re (a : complex) : R := fst a.
Definition modulus2 (a : complex) : R := (fst a ^ 2 + snd a ^ 2)%R.
(** sums over the degrees and orders of a list *)
Fixpoint total (f : nat * nat -> R) (l : list (nat * nat)) : R := match l with [] => 0%R | p :: r => (f p + total f r)%R end.
(** the field of the coefficients at a longitude (for any associated Legendre values P at a latitude) is the real part of the complex sum *)
Theorem C132_field : forall h t P lms lon,
  total (fun '(l, m) => P l m * (get (clm h) l m t * cos (INR m * lon) + get (slm h) l m t * sin (INR m * lon)))%R lms
  = total (fun '(l, m) => P l m * re (cmul (ilm_now h l m t) (cexp (INR m * lon))))%R lms.
Proof. intros h t P lms lon. induction lms as [|[l m] r IH]; [reflexivity|]. cbn [total]. rewrite IH. f_equal. f_equal. unfold re, cmul, cexp, ilm_now. cbn [fst snd]. ring. Qed.
(** turning the field by an angle multiplies the complex coefficients of order m by the m-th power of one factor of modulus one, and keeps their moduli *)
Theorem C132_rotation : forall h g a, (forall l m t, ilm_now g l m t = cmul (ilm_now h l m t) (cexp (INR m * a))) ->
  (forall P lms t lon, total (fun '(l, m) => P l m * (get (clm g) l m t * cos (INR m * lon) + get (slm g) l m t * sin (INR m * lon)))%R lms
                  = total (fun '(l, m) => P l m * (get (clm h) l m t * cos (INR m * (lon + a)) + get (slm h) l m t * sin (INR m * (lon + a))))%R lms)
  /\ (forall l m t, modulus2 (ilm_now g l m t) = modulus2 (ilm_now h l m t)).
Proof.
  intros h g a H. split.
  - intros P lms t lon. induction lms as [|[l m] r IH]; [reflexivity|]. cbn [total]. rewrite IH. f_equal. f_equal. specialize (H l m t). unfold ilm_now, cmul, cexp in H. cbn [fst snd] in H. injection H as Hc Hs.
    assert (Hs' : get (slm g) l m t = (get (slm h) l m t * cos (INR m * a) - get (clm h) l m t * sin (INR m * a))%R) by lra. rewrite Hc, Hs'. replace (INR m * (lon + a))%R with (INR m * lon + INR m * a)%R by ring. rewrite cos_plus, sin_plus. ring.
  - intros l m t. rewrite H. unfold modulus2, cmul, cexp. cbn [fst snd]. pose proof (sin2_cos2 (INR m * a)) as T. unfold Rsqr in T. set (c := cos _) in *. set (s := sin _) in *. destruct (ilm_now h l m t) as [x y]. cbn [fst snd].
    replace ((x * c - y * s) ^ 2 + (x * s + y * c) ^ 2)%R with ((x ^ 2 + y ^ 2) * (s * s + c * c))%R by ring. rewrite T. ring.
Qed.
(** the squared amplitude of a degree is the sum of the squared moduli of its orders *)
Theorem C132_amplitude : forall h l t, (amplitude_now h l t ^ 2 = Rsum (map (fun m => modulus2 (ilm_now h l m t)) (seq 0 (mmax h + 1))))%R.
Proof.
  intros h l t. unfold amplitude_now.
  assert (E : forall ms, map (fun m => (get (clm h) l m t ^ 2 + get (slm h) l m t ^ 2)%R) ms = map (fun m => modulus2 (ilm_now h l m t)) ms).
  { intros ms. apply map_ext. intros m. unfold modulus2, ilm_now. cbn [fst snd]. ring. }
  rewrite E. cbn [pow]. rewrite Rmult_1_r. apply sqrt_sqrt.
  generalize (seq 0 (mmax h + 1)). intros ms. induction ms as [|m r IH]; cbn [map Rsum]; [lra|]. assert (0 <= modulus2 (ilm_now h l m t))%R; [|lra]. unfold modulus2. pose proof (pow2_ge_0 (fst (ilm_now h l m t))). pose proof (pow2_ge_0 (snd (ilm_now h l m t))). lra.
Qed.
(** histories of reads and changes: every read gives the complex form of the coefficients at the first read, also after they were changed; a copy reads its own *)
Inductive event := Read | Change (f : harm -> harm).
Fixpoint reads (o : lazy) (es : list event) : list (nat -> nat -> nat -> complex) :=
  match es with
  | [] => []
  | Read :: r => let (v, o') := read_ilm o in v :: reads o' r
  | Change f :: r => reads (change_ilm f o) r
  end.
Fixpoint until_read (h : harm) (es : list event) : harm := match es with Change f :: r => until_read (f h) r | _ => h end.
Theorem C132_reads_frozen : forall h es v, In v (reads (mklazy h None) es) -> v = ilm_now (until_read h es).
Proof.
  assert (F : forall es h w v, In v (reads (mklazy h (Some w)) es) -> v = w).
  { induction es as [|[|f] r IH]; intros h w v I; cbn [reads read_ilm z_ilm change_ilm z_obj] in I; [destruct I| |exact (IH _ _ _ I)]. destruct I as [<-|I]; [reflexivity|exact (IH _ _ _ I)]. }
  intros h es. revert h. induction es as [|[|f] r IH]; intros h v I; cbn [reads read_ilm z_ilm change_ilm z_obj until_read] in *; [destruct I| |exact (IH _ _ I)]. destruct I as [<-|I]; [reflexivity|exact (F _ _ _ _ I)].
Qed.
Theorem C132_copy_fresh : forall o, fst (read_ilm (copy_ilm o)) = ilm_now (z_obj o).
Proof. reflexivity. Qed.
Theorem C132_stale_refuted : exists h f, nth_error (reads (mklazy h None) [Read; Change f; Read]) 1 = Some (ilm_now h) /\ ilm_now (f h) 0 0 0 <> ilm_now h 0 0 0.
Proof.
  exists (mkharm 0 0 (full 1 1 None 1%R) (full 1 1 None 0%R) TNone TNone), (fun _ => mkharm 0 0 (full 1 1 None 2%R) (full 1 1 None 0%R) TNone TNone). split; [reflexivity|]. unfold ilm_now. cbn. intros [= E]. lra.
Qed.
