(** C63 mascon grids (mascons.py). *)
From Coq Require Import Reals Lra Lia.
From Verif Require Import Base DestripeModel DestripeProofs LinAlg RegressModel MasconModel.
Close Scope Z_scope.
Open Scope R_scope.

(** ** Specification *)
(** the point (longitude x, latitude y) is in the mascon: longitudes modulo 360; a mascon centered on a pole is a cap whose
    latitude span is counted from the pole *)
Definition contains (m : mascon) (x y : R) : Prop :=
  if Req_EM_T (Rabs (m_latc m)) 90 then m_latc m - m_lats m <= y < m_latc m + m_lats m
  else m_latc m - m_lats m / 2 <= y < m_latc m + m_lats m / 2 /\ exists n : Z, m_lonc m - m_lons m / 2 <= x + 360 * IZR n < m_lonc m + m_lons m / 2.
Definition regular (m : mascon) : Prop := Rabs (m_latc m) = 90 \/ -180 <= m_lonc m <= 540 /\ 0 <= m_lons m <= 180.
Definition jcontains (m : jmascon) (x y : R) : Prop := j_lat1 m <= y < j_lat0 m /\ j_lon0 m <= x < j_lon2 m.
(** the value of the last mascon that has the property, 0 if there is none *)
Definition last_value {A} (P : A -> Prop) (ms : list A) (vs : list R) (v : R) : Prop :=
  (exists k m, nth_error ms k = Some m /\ nth_error vs k = Some v /\ P m /\ forall k' m', (k < k')%nat -> nth_error ms k' = Some m' -> ~ P m') \/
  ((forall m, In m ms -> ~ P m) /\ v = 0).
(** area weighted mean of g over the cells marked by [c] *)
Definition weighted_mean (nlat nlon : nat) (lat : nat -> R) (c : nat -> nat -> bool) (g : nat -> nat -> R) : R :=
  rsum nlat (fun i => rsum nlon (fun j => if c i j then cos (lat i * PI / 180) * g i j else 0)) /
  rsum nlat (fun i => rsum nlon (fun j => if c i j then cos (lat i * PI / 180) else 0)).

(** ** Lemmas *)
Lemma within_ok lo hi x : within lo hi x = true <-> lo <= x < hi.
Proof. unfold within. destruct (Rle_dec lo x), (Rlt_dec x hi); cbn; split; intros; try discriminate; auto; lra. Qed.
Lemma sel_in lo hi xs i : In i (sel lo hi xs) <-> (i < length xs)%nat /\ lo <= at_ xs i < hi.
Proof. unfold sel. rewrite filter_In, in_seq, within_ok. intuition lia. Qed.
Lemma at_map f xs i : (i < length xs)%nat -> at_ (map f xs) i = f (at_ xs i).
Proof. intros L. unfold at_. rewrite (nth_indep _ 0 (f 0)) by (rewrite map_length; auto). apply map_nth. Qed.
Lemma int_cases n a b : a <= IZR n < b -> forall x y, IZR x - 1 < a -> b <= IZR y + 1 -> (x <= n <= y)%Z.
Proof.
  intros [H1 H2] x y Hx Hy. split.
  - assert (IZR x - 1 < IZR n) by lra. rewrite <- minus_IZR in H. apply lt_IZR in H. lia.
  - assert (IZR n < IZR y + 1) by lra. rewrite <- plus_IZR in H. apply lt_IZR in H. lia.
Qed.
Lemma wrapped_mod c : exists n : Z, wrap_center c = c + 360 * IZR n.
Proof. unfold wrap_center. destruct (Rgt_dec c 180); [exists (-1)%Z|exists 0%Z]; lra. Qed.
Lemma cells_ok lon lat m : regular m -> (forall x, In x lon -> -180 <= x < 180) ->
  forall i j, (i < length lat)%nat -> (j < length lon)%nat ->
  let IJ := gsfc_cells lon lat (mkmas (wrap_center (m_lonc m)) (m_latc m) (m_lons m) (m_lats m)) in
  (In i (fst IJ) /\ In j (snd IJ) <-> contains m (at_ lon j) (at_ lat i)).
Proof.
  intros REG HL i j Li Lj. unfold gsfc_cells, contains. cbn [m_latc m_lonc m_lons m_lats fst snd].
  set (polar := (_ || _)%bool). assert (Hx : -180 <= at_ lon j < 180) by (apply HL, nth_In; auto). set (x := at_ lon j) in *. set (y := at_ lat i) in *.
  assert (EP : polar = true <-> Rabs (m_latc m) = 90).
  { unfold polar. unfold Rabs. destruct (Req_EM_T (m_latc m) 90) as [N1|N1], (Req_EM_T (m_latc m) (-90)) as [N2|N2], (Rcase_abs (m_latc m)); cbn; split; intros; try discriminate; auto; lra. }
  assert (EA : at_ (map alon lon) j = alon x) by (apply at_map; auto).
  assert (AL : 0 <= alon x < 360 /\ (alon x = x \/ alon x = x + 360)) by (unfold alon; destruct (Rlt_dec x 0); lra).
  destruct (Req_EM_T (Rabs (m_latc m)) 90) as [E|E].
  - assert (polar = true) as -> by (apply EP; auto). destruct (Rle_dec 0 180); [|lra]. destruct (Rle_dec 180 360); [|lra]. cbn [andb].
    rewrite !sel_in, map_length, EA. fold y. lra || (split; [tauto|intros; repeat split; auto; lra]).
  - destruct REG as [REG|[RC RS]]; [contradiction|]. assert (polar = false) as -> by (destruct polar; auto; exfalso; apply E, EP; auto).
    destruct (wrapped_mod (m_lonc m)) as [w EW]. set (c := wrap_center (m_lonc m)) in *.
    assert (Rc : -180 <= c <= 180) by (unfold c, wrap_center; destruct (Rgt_dec (m_lonc m) 180); lra).
    assert (MOD : (exists n, m_lonc m - m_lons m / 2 <= x + 360 * IZR n < m_lonc m + m_lons m / 2) <-> exists n, c - m_lons m / 2 <= x + 360 * IZR n < c + m_lons m / 2).
    { split; intros [n Hn]; [exists (n + w)%Z|exists (n - w)%Z]; rewrite ?plus_IZR, ?minus_IZR; lra. }
    rewrite MOD. set (h := m_lons m) in *. clearbody c.
    assert (LATE : In i (sel (m_latc m - 1 / 2 * m_lats m) (m_latc m + 1 / 2 * m_lats m) lat) <-> m_latc m - m_lats m / 2 <= y < m_latc m + m_lats m / 2).
    { rewrite sel_in. fold y. split; [intros; lra|intros; split; auto; lra]. }
    rewrite LATE. apply and_iff_compat_l.
    destruct (Rle_dec (c - 1 / 2 * h) 180) as [A|A]; [|lra]. destruct (Rle_dec 180 (c + 1 / 2 * h)) as [B|B]; cbn [andb].
    + rewrite sel_in, map_length, EA. split.
      * intros [_ H]. destruct AL as [_ [AL|AL]]; [exists 0%Z|exists 1%Z]; lra.
      * intros [n Hn]. split; auto. unfold alon. destruct (Rlt_dec x 0) as [X|X].
        -- assert (n = 1)%Z as ->; [|lra]. assert (1 <= n <= 1)%Z by (apply (int_cases n ((c - h / 2 - x) / 360) ((c + h / 2 - x) / 360)); lra). lia.
        -- assert (n = 0)%Z as ->; [|lra]. assert (0 <= n <= 0)%Z; [|lia]. apply (int_cases n ((c - h / 2 - x) / 360) ((c + h / 2 - x) / 360)); lra.
    + destruct (Rle_dec (c - 1 / 2 * h) (-180)) as [A2|A2]; [destruct (Rle_dec (-180) (c + 1 / 2 * h)) as [B2|B2]; [|lra]|]; cbn [andb].
      * rewrite sel_in, map_length, EA. split.
        -- intros [_ H]. destruct AL as [_ [AL|AL]]; [exists (-1)%Z|exists 0%Z]; lra.
        -- intros [n Hn]. split; auto. unfold alon. destruct (Rlt_dec x 0) as [X|X].
           ++ assert (n = 0)%Z as ->; [|lra]. assert (0 <= n <= 0)%Z; [|lia]. apply (int_cases n ((c - h / 2 - x) / 360) ((c + h / 2 - x) / 360)); lra.
           ++ assert (n = -1)%Z as ->; [|lra]. assert (-1 <= n <= -1)%Z; [|lia]. apply (int_cases n ((c - h / 2 - x) / 360) ((c + h / 2 - x) / 360)); lra.
      * rewrite sel_in. fold x. split.
        -- intros [_ H]. exists 0%Z. lra.
        -- intros [n Hn]. split; auto. assert (n = 0)%Z as ->; [|lra]. assert (0 <= n <= 0)%Z; [|lia]. apply (int_cases n ((c - h / 2 - x) / 360) ((c + h / 2 - x) / 360)); lra.
Qed.
Lemma fill_last {A} (cells : A -> list nat * list nat) (P : A -> Prop) i j ms : forall vs md, length vs = length ms ->
  (forall m, In m ms -> (In i (fst (cells m)) /\ In j (snd (cells m)) <-> P m)) ->
  let v := fold_left (fun md mv => fill md (fst (cells (fst mv))) (snd (cells (fst mv))) (snd mv)) (combine ms vs) md i j in
  (exists k m, nth_error ms k = Some m /\ nth_error vs k = Some v /\ P m /\ forall k' m', (k < k')%nat -> nth_error ms k' = Some m' -> ~ P m') \/
  ((forall m, In m ms -> ~ P m) /\ v = md i j).
Proof.
  induction ms as [|m ms IH]; intros [|x vs] md L H; try discriminate; [right; split; [intros m []|reflexivity]|].
  cbn [combine fold_left fst snd]. set (md1 := fill md _ _ _). destruct (IH vs md1) as [(k & m1 & E1 & E2 & Q & N)|[N E]].
  - cbn in L; lia.
  - intros; apply H; right; auto.
  - left. exists (S k), m1. repeat split; auto. intros [|k'] m' Lk Ek; [lia|]. apply (N k'); [lia|auto].
  - cbn zeta in E. assert (D : md1 i j = x /\ P m \/ md1 i j = md i j /\ ~ P m).
    { unfold md1, fill. destruct (existsb (Nat.eqb i) (fst (cells m)) && existsb (Nat.eqb j) (snd (cells m)))%bool eqn:B.
      - left. split; auto. apply H; [left; auto|]. apply andb_true_iff in B. rewrite !existsb_exists in B. destruct B as [(a & Ia & Ea) (b & Ib & Eb)].
        apply Nat.eqb_eq in Ea, Eb. subst. auto.
      - right. split; auto. intros Q. apply H in Q; [|left; auto]. destruct Q as [Qi Qj]. apply andb_false_iff in B.
        destruct B as [B|B]; [assert (C : existsb (Nat.eqb i) (fst (cells m)) = true) by (apply existsb_exists; exists i; split; auto; apply Nat.eqb_refl)
                             |assert (C : existsb (Nat.eqb j) (snd (cells m)) = true) by (apply existsb_exists; exists j; split; auto; apply Nat.eqb_refl)]; congruence. }
    destruct D as [[D Q]|[D Q]].
    + left. exists 0%nat, m. repeat split; auto; [cbn; f_equal; rewrite E; auto|]. intros [|k'] m' Lk Ek; [lia|]. apply N. eapply nth_error_In; exact Ek.
    + right. split; [intros m' [<-|Hm]; auto|]. rewrite E. exact D.
Qed.
Lemma rceil_INR k : rceil (INR k) = k.
Proof.
  unfold rceil. assert (E : (- Z.of_nat k)%Z = Int_part (- INR k)). { unfold Int_part. assert (Q : (- Z.of_nat k + 1)%Z = up (- INR k)); [|lia]. apply up_tech; rewrite ?plus_IZR, opp_IZR, <- INR_IZR_INZ; lra. }
  rewrite <- E, Z.opp_involutive. apply Nat2Z.id.
Qed.
Lemma arange_ok a b s n : s <> 0 -> b - a = INR n * s -> length (arange a b s) = n /\ forall i, (i < n)%nat -> at_ (arange a b s) i = a + INR i * s.
Proof.
  intros N E. assert (R : arange a b s = map (fun k => a + INR k * s) (seq 0 n)).
  { unfold arange. rewrite E. replace (INR n * s / s) with (INR n) by (field; auto). rewrite rceil_INR. reflexivity. }
  rewrite R, map_length, seq_length. split; auto. intros i L. unfold at_. rewrite (nth_indep _ 0 (a + INR 0 * s)) by (rewrite map_length, seq_length; auto).
  rewrite (map_nth (fun k => a + INR k * s)), seq_nth by auto. reflexivity.
Qed.
(** a grid spacing that divides 180 degrees *)
Definition spacing (s : R) (n : nat) : Prop := 0 < s /\ INR n * s = 180.
Lemma gsfc_grid s n : spacing s n -> length (gsfc_lat s) = n /\ length (gsfc_lon s) = (2 * n)%nat /\
  (forall i, (i < n)%nat -> at_ (gsfc_lat s) i = 90 - (INR i + 1 / 2) * s) /\ (forall j, (j < 2 * n)%nat -> at_ (gsfc_lon s) j = -180 + (INR j + 1 / 2) * s) /\
  (forall x, In x (gsfc_lon s) -> -180 <= x < 180) /\ (forall y, In y (gsfc_lat s) -> -90 < y < 90).
Proof.
  intros [P E]. destruct (arange_ok (90 - s / 2) (-90 - s / 2) (- s) n) as [L1 V1]; [lra|lra|].
  destruct (arange_ok (-180 + s / 2) (180 + s / 2) s (2 * n)) as [L2 V2]; [lra|rewrite mult_INR; cbn [INR]; lra|].
  unfold gsfc_lat, gsfc_lon. split; [exact L1|]. split; [exact L2|]. split; [intros i Li; rewrite V1 by auto; lra|]. split; [intros j Lj; rewrite V2 by auto; lra|].
  split.
  - intros x Hx. destruct (In_nth _ _ 0 Hx) as (j & Lj & <-). change (nth j ?l 0) with (at_ l j). rewrite L2 in Lj. rewrite V2 by auto.
    pose proof (pos_INR j). assert (INR j + 1 <= INR (2 * n)) by (rewrite <- S_INR; apply le_INR; lia). rewrite mult_INR in H0. cbn [INR] in H0. nra.
  - intros x Hx. destruct (In_nth _ _ 0 Hx) as (j & Lj & <-). change (nth j ?l 0) with (at_ l j). rewrite L1 in Lj. rewrite V1 by auto.
    pose proof (pos_INR j). assert (INR j + 1 <= INR n) by (rewrite <- S_INR; apply le_INR; lia). nra.
Qed.
(** ** from_gsfc *)
Theorem C63_from_gsfc : forall data s n ms, spacing s n -> length data = length ms -> (forall m, In m ms -> regular m) ->
  forall i j, (i < n)%nat -> (j < 2 * n)%nat ->
  last_value (fun m => contains m (-180 + (INR j + 1 / 2) * s) (90 - (INR i + 1 / 2) * s)) ms data (from_gsfc data s ms i j).
Proof.
  intros data s n ms HS LD HR i j Li Lj. destruct (gsfc_grid s n HS) as (L1 & L2 & V1 & V2 & HX & _).
  set (cells := fun m => gsfc_cells (gsfc_lon s) (gsfc_lat s) (mkmas (wrap_center (m_lonc m)) (m_latc m) (m_lons m) (m_lats m))).
  assert (E : forall md l, fold_left (fun md mv => let IJ := gsfc_cells (gsfc_lon s) (gsfc_lat s) (fst mv) in fill md (fst IJ) (snd IJ) (snd mv)) (combine (wrapped l) data) md i j =
     fold_left (fun md mv => fill md (fst (cells (fst mv))) (snd (cells (fst mv))) (snd mv)) (combine l data) md i j).
  { clear. intros md l. revert data md. induction l as [|m l IH]; intros [|x data] md; try reflexivity. cbn [wrapped map combine fold_left fst snd]. apply IH. }
  unfold from_gsfc, last_value. rewrite E.
  apply (fill_last cells (fun m => contains m (-180 + (INR j + 1 / 2) * s) (90 - (INR i + 1 / 2) * s)) i j ms data (fun _ _ => 0) LD).
  intros m Hm. rewrite <- V1, <- V2 by auto. apply cells_ok; auto; lia.
Qed.
Theorem C63_from_jpl : forall data s n ms, spacing s n -> length data = length ms ->
  forall i j, (i < n)%nat -> (j < 2 * n)%nat ->
  last_value (fun m => jcontains m ((INR j + 1 / 2) * s) (-90 + (INR i + 1 / 2) * s)) ms data (from_jpl data s ms i j).
Proof.
  intros data s n ms [P ES] LD i j Li Lj.
  destruct (arange_ok (-90 + s / 2) (90 + s / 2) s n) as [L1 V1]; [lra|lra|].
  destruct (arange_ok (s / 2) (360 + s / 2) s (2 * n)) as [L2 V2]; [lra|rewrite mult_INR; cbn [INR]; lra|].
  unfold from_jpl, last_value. apply (fill_last (jpl_cells (jpl_lon s) (jpl_lat s)) (fun m => jcontains m ((INR j + 1 / 2) * s) (-90 + (INR i + 1 / 2) * s)) i j ms data (fun _ _ => 0) LD).
  intros m Hm. unfold jpl_cells, jcontains. cbn [fst snd]. rewrite !sel_in. unfold jpl_lat, jpl_lon. rewrite L1, L2, V1, V2 by auto.
  replace (-90 + s / 2 + INR i * s) with (-90 + (INR i + 1 / 2) * s) by lra. replace (s / 2 + INR j * s) with ((INR j + 1 / 2) * s) by lra. tauto.
Qed.
(** ** averages *)
Lemma lsum_filter p n f : lsum (filter p (seq 0 n)) f = rsum n (fun i => if p i then f i else 0).
Proof.
  induction n; [reflexivity|]. rewrite seq_S, filter_app. cbn [Nat.add filter rsum]. rewrite <- IHn. clear.
  assert (AP : forall l l', lsum (l ++ l') f = lsum l f + lsum l' f) by (intros l l'; unfold lsum; induction l as [|x l IH]; cbn [app fold_right]; lra).
  rewrite AP. destruct (p n); cbn; lra.
Qed.
Lemma lsum_ext l f g : (forall i, In i l -> f i = g i) -> lsum l f = lsum l g.
Proof. unfold lsum. induction l as [|x l IH]; intros H; [reflexivity|]. cbn. rewrite H, IH; auto; intros; [apply H; right|left]; auto. Qed.
Lemma lsum_scal l c f : lsum l (fun i => c * f i) = c * lsum l f.
Proof. unfold lsum. induction l as [|x l IH]; cbn; [lra|]. rewrite IH. lra. Qed.
Lemma lsum_const l c : lsum l (fun _ => c) = INR (length l) * c.
Proof. unfold lsum. induction l as [|x l IH]; [cbn; lra|]. cbn [fold_right length]. rewrite IH, S_INR. lra. Qed.
Lemma lsum_pos l f : l <> [] -> (forall i, In i l -> 0 < f i) -> 0 < lsum l f.
Proof.
  intros N H. destruct l as [|x l]; [congruence|]. cbn. assert (0 <= lsum l f).
  { assert (Q : forall i, In i l -> 0 < f i) by (intros; apply H; right; auto). clear - Q. unfold lsum. induction l as [|x l IH]; cbn; [lra|].
    assert (0 < f x) by (apply Q; left; auto). assert (0 <= fold_right (fun i a => f i + a) 0 l) by (apply IH; intros; apply Q; right; auto). lra. }
  specialize (H x (or_introl eq_refl)). unfold lsum in H0. lra.
Qed.
Lemma cosd_pos y : -90 < y < 90 -> 0 < cosd y.
Proof. intros H. unfold cosd. pose proof PI_RGT_0. apply cos_gt_0; nra. Qed.
(** the mean of the cells of rows p and columns q *)
Lemma cell_mean_ok lat nlon g p q dv : (forall y, In y lat -> -90 < y < 90) -> dv <> 0 ->
  let I := filter p (seq 0 (length lat)) in let J := filter q (seq 0 nlon) in
  (I <> [] -> J <> [] -> cell_mean lat g I J dv = Some (weighted_mean (length lat) nlon (at_ lat) (fun i j => p i && q j)%bool g / dv)) /\
  (I = [] \/ J = [] -> cell_mean lat g I J dv = None).
Proof.
  intros HY DV I J. split.
  - intros NI NJ. unfold cell_mean. set (S0 := lsum I (fun i => cosd (at_ lat i))).
    assert (SP : 0 < S0). { apply lsum_pos; auto. intros i Hi. apply cosd_pos, HY. apply filter_In in Hi. destruct Hi as [Hi _]. apply in_seq in Hi. apply nth_In. lia. }
    assert (PI0 : 0 < INR (length I)) by (apply lt_0_INR; destruct I; [congruence|cbn; lia]).
    assert (PJ0 : 0 < INR (length J)) by (apply lt_0_INR; destruct J; [congruence|cbn; lia]).
    destruct ((length I =? 0) || (length J =? 0))%nat%bool eqn:B.
    { apply orb_true_iff in B. rewrite !Nat.eqb_eq in B. destruct B as [B|B]; rewrite B in *; cbn in *; lra. }
    destruct (Req_EM_T (S0 / INR (length I)) 0) as [E|E]; [exfalso; assert (0 < S0 / INR (length I)) by (apply Rdiv_lt_0_compat; auto); lra|].
    f_equal. unfold weighted_mean.
    assert (D1 : rsum (length lat) (fun i => rsum nlon (fun j => if (p i && q j)%bool then cos (at_ lat i * PI / 180) * g i j else 0)) =
                 lsum J (fun j => lsum I (fun i => cosd (at_ lat i) * g i j))).
    { rewrite rsum_swap. unfold J. rewrite lsum_filter. apply rsum_ext. intros j _. unfold I. destruct (q j).
      - rewrite lsum_filter. apply rsum_ext. intros i _. destruct (p i); reflexivity.
      - rewrite (rsum_ext _ _ (fun _ => 0)); [apply rsum_zero|]. intros i _. rewrite andb_false_r. reflexivity. }
    assert (D2 : rsum (length lat) (fun i => rsum nlon (fun j => if (p i && q j)%bool then cos (at_ lat i * PI / 180) else 0)) = INR (length J) * S0).
    { rewrite rsum_swap. rewrite <- lsum_const. unfold J. rewrite lsum_filter. apply rsum_ext. intros j _. destruct (q j).
      - unfold S0, I. rewrite lsum_filter. apply rsum_ext. intros i _. destruct (p i); reflexivity.
      - rewrite (rsum_ext _ _ (fun _ => 0)); [apply rsum_zero|]. intros i _. rewrite andb_false_r. reflexivity. }
    rewrite D1, D2. rewrite (lsum_ext J _ (fun j => INR (length I) / S0 / dv * lsum I (fun i => cosd (at_ lat i) * g i j))).
    2:{ intros j _. rewrite <- lsum_scal. apply lsum_ext. intros i _. field. repeat split; lra. }
    rewrite lsum_scal. field. repeat split; lra.
  - intros H. unfold cell_mean. destruct H as [-> | ->]; cbn [length Nat.eqb orb]; [reflexivity|]. rewrite orb_true_r. reflexivity.
Qed.
Lemma weighted_mean_ext nlat nlon lat c c' g g' : (forall i j, (i < nlat)%nat -> (j < nlon)%nat -> c i j = c' i j) -> (forall i j, (i < nlat)%nat -> (j < nlon)%nat -> c i j = true -> g i j = g' i j) ->
  weighted_mean nlat nlon lat c g = weighted_mean nlat nlon lat c' g'.
Proof.
  intros H G. unfold weighted_mean.
  rewrite (rsum_ext nlat (fun i => rsum nlon (fun j => if c i j then cos (lat i * PI / 180) * g i j else 0)) (fun i => rsum nlon (fun j => if c' i j then cos (lat i * PI / 180) * g' i j else 0))).
  - rewrite (rsum_ext nlat (fun i => rsum nlon (fun j => if c i j then cos (lat i * PI / 180) else 0)) (fun i => rsum nlon (fun j => if c' i j then cos (lat i * PI / 180) else 0))); [reflexivity|].
    intros i Li. apply rsum_ext. intros j Lj. rewrite <- H by auto. reflexivity.
  - intros i Li. apply rsum_ext. intros j Lj. rewrite <- H by auto. destruct (c i j) eqn:E; [rewrite G by auto|]; reflexivity.
Qed.
(** the mean of a constant *)
Lemma weighted_mean_const nlat nlon lat c v i0 j0 : (forall i, (i < nlat)%nat -> -90 < lat i < 90) -> (i0 < nlat)%nat -> (j0 < nlon)%nat -> c i0 j0 = true ->
  weighted_mean nlat nlon lat c (fun _ _ => v) = v.
Proof.
  intros HY Li Lj HC. unfold weighted_mean. set (S0 := rsum nlat (fun i => rsum nlon (fun j => if c i j then cos (lat i * PI / 180) else 0))).
  assert (N : rsum nlat (fun i => rsum nlon (fun j => if c i j then cos (lat i * PI / 180) * v else 0)) = v * S0).
  { unfold S0. rewrite <- rsum_scal. apply rsum_ext. intros i _. rewrite <- rsum_scal. apply rsum_ext. intros j _. destruct (c i j); lra. }
  assert (NN : forall i j, (i < nlat)%nat -> 0 <= (if c i j then cos (lat i * PI / 180) else 0)).
  { intros i j Hi. destruct (c i j); [|lra]. left. apply (cosd_pos (lat i)). auto. }
  assert (P : 0 < S0).
  { pose proof (rsum_pos_term nlat (fun i => rsum nlon (fun j => if c i j then cos (lat i * PI / 180) else 0)) i0) as T1.
    pose proof (rsum_pos_term nlon (fun j => if c i0 j then cos (lat i0 * PI / 180) else 0) j0) as T2. cbn beta in T1, T2. rewrite HC in T2.
    assert (T3 : 0 < cos (lat i0 * PI / 180)) by (apply (cosd_pos (lat i0)); auto). fold S0 in T1.
    specialize (T2 ltac:(intros; apply NN; auto) Lj). specialize (T1 ltac:(intros; apply rsum_nonneg; auto) Li). lra. }
  rewrite N. field. lra.
Qed.
Lemma gsfc_filters lon lat m : exists p q, fst (gsfc_cells lon lat m) = filter p (seq 0 (length lat)) /\ snd (gsfc_cells lon lat m) = filter q (seq 0 (length lon)).
Proof.
  unfold gsfc_cells. cbn [fst snd]. eexists. destruct (_ && _)%bool; [|destruct (_ && _)%bool]; eexists; (split; [unfold sel; reflexivity|unfold sel; rewrite ?map_length; reflexivity]).
Qed.
Lemma filter_nil p n : filter p (seq 0 n) = [] <-> forall i, (i < n)%nat -> p i = false.
Proof.
  split.
  - intros E i L. destruct (p i) eqn:Q; auto. assert (I : In i (filter p (seq 0 n))) by (apply filter_In; split; auto; apply in_seq; lia). rewrite E in I. destruct I.
  - intros H. destruct (filter p (seq 0 n)) as [|i l] eqn:E; auto. assert (I : In i (filter p (seq 0 n))) by (rewrite E; left; auto). apply filter_In in I. destruct I as [I1 I2].
    apply in_seq in I1. rewrite H in I2 by lia. discriminate.
Qed.
(** one average, for any selection that agrees with a predicate on the cells *)
Lemma mean_of lat nlon g I J p q dv c : I = filter p (seq 0 (length lat)) -> J = filter q (seq 0 nlon) -> (forall y, In y lat -> -90 < y < 90) -> dv <> 0 ->
  (forall i j, (i < length lat)%nat -> (j < nlon)%nat -> (c i j = true <-> In i I /\ In j J)) ->
  ((exists i j, (i < length lat)%nat /\ (j < nlon)%nat /\ c i j = true) -> cell_mean lat g I J dv = Some (weighted_mean (length lat) nlon (at_ lat) c g / dv)) /\
  ((forall i j, (i < length lat)%nat -> (j < nlon)%nat -> c i j = false) -> cell_mean lat g I J dv = None).
Proof.
  intros EI EJ HY DV HC. destruct (cell_mean_ok lat nlon g p q dv HY DV) as [M1 M2]. rewrite <- EI, <- EJ in M1, M2.
  assert (CPQ : forall i j, (i < length lat)%nat -> (j < nlon)%nat -> c i j = (p i && q j)%bool).
  { intros i j Li Lj. apply Bool.eq_iff_eq_true. rewrite HC by auto. rewrite EI, EJ, !filter_In, !in_seq, andb_true_iff. intuition lia. }
  split.
  - intros (i & j & Li & Lj & C). apply HC in C; auto. destruct C as [C1 C2]. rewrite M1; [|intros Q; rewrite Q in C1; destruct C1|intros Q; rewrite Q in C2; destruct C2].
    f_equal. f_equal. apply weighted_mean_ext; [|auto]. intros; symmetry; auto.
  - intros H. apply M2. destruct I as [|i I]; auto. destruct J as [|j J]; auto. exfalso.
    assert (A : In i (filter p (seq 0 (length lat)))) by (rewrite <- EI; left; auto). assert (B : In j (filter q (seq 0 nlon))) by (rewrite <- EJ; left; auto).
    apply filter_In in A, B. destruct A as [A1 A2], B as [B1 B2]. apply in_seq in A1, B1.
    specialize (H i j ltac:(lia) ltac:(lia)). rewrite CPQ, A2, B2 in H by lia. discriminate.
Qed.
(** ** to_gsfc: the area weighted mean of the cells inside each mascon (nan when there is none) *)
Theorem C63_to_gsfc : forall g lon lat ms, (forall x, In x lon -> -180 <= x < 180) -> (forall y, In y lat -> -90 < y < 90) -> (forall m, In m ms -> regular m) ->
  forall k m, nth_error ms k = Some m -> forall c : nat -> nat -> bool,
  (forall i j, (i < length lat)%nat -> (j < length lon)%nat -> (c i j = true <-> contains m (nth j lon 0) (nth i lat 0))) ->
  ((exists i j, (i < length lat)%nat /\ (j < length lon)%nat /\ c i j = true) ->
     nth_error (fst (to_gsfc g lon lat ms)) k = Some (Some (weighted_mean (length lat) (length lon) (fun i => nth i lat 0) c g))) /\
  ((forall i j, (i < length lat)%nat -> (j < length lon)%nat -> c i j = false) -> nth_error (fst (to_gsfc g lon lat ms)) k = Some None).
Proof.
  intros g lon lat ms HX HY HR k m Ek c HC. unfold to_gsfc. cbn [fst]. unfold wrapped. rewrite map_map, nth_error_map, Ek. cbn [option_map].
  set (w := mkmas _ _ _ _). destruct (gsfc_filters lon lat w) as (p & q & EI & EJ).
  destruct (mean_of lat (length lon) g _ _ p q 1 c EI EJ HY ltac:(lra)) as [M1 M2].
  { intros i j Li Lj. rewrite HC by auto. symmetry. apply cells_ok; auto. apply HR. eapply nth_error_In; exact Ek. }
  split; intros H; [rewrite M1 by auto; do 2 f_equal; change (at_ lat) with (fun i => nth i lat 0); field|rewrite M2 by auto; reflexivity].
Qed.
(** the caller's longitudes of the centers are changed in place *)
Theorem C63_centers_modified_refuted : forall g lon lat ms k m, nth_error ms k = Some m -> 180 < m_lonc m ->
  nth_error (snd (to_gsfc g lon lat ms)) k = Some (m_lonc m - 360) /\ m_lonc m - 360 <> m_lonc m.
Proof.
  intros g lon lat ms k m E H. split; [|lra]. unfold to_gsfc, wrapped. cbn [snd]. rewrite map_map, nth_error_map, E. cbn. unfold wrap_center. destruct (Rgt_dec (m_lonc m) 180); [reflexivity|lra].
Qed.
(** disjoint mascons that contain at least one cell each: averaging the grid gives back the mascon values *)
Theorem C63_gsfc_roundtrip : forall data s n ms, spacing s n -> length data = length ms -> (forall m, In m ms -> regular m) ->
  let x j := -180 + (INR j + 1 / 2) * s in let y i := 90 - (INR i + 1 / 2) * s in
  (forall i j k k' m m', (i < n)%nat -> (j < 2 * n)%nat -> nth_error ms k = Some m -> nth_error ms k' = Some m' -> contains m (x j) (y i) -> contains m' (x j) (y i) -> k = k') ->
  (forall m, In m ms -> exists i j, (i < n)%nat /\ (j < 2 * n)%nat /\ contains m (x j) (y i)) ->
  fst (to_gsfc (from_gsfc data s ms) (gsfc_lon s) (gsfc_lat s) ms) = map Some data.
Proof.
  intros data s n ms HS LD HR x y DIS NE. destruct (gsfc_grid s n HS) as (L1 & L2 & V1 & V2 & HX & HY).
  assert (LL : length (fst (to_gsfc (from_gsfc data s ms) (gsfc_lon s) (gsfc_lat s) ms)) = length ms) by (unfold to_gsfc, wrapped; cbn [fst]; rewrite !map_length; reflexivity).
  apply (nth_ext _ _ None None); [rewrite LL, map_length; auto|]. intros k Lk. rewrite LL in Lk.
  destruct (nth_error ms k) as [m|] eqn:Em; [|apply nth_error_None in Em; lia].
  destruct (nth_error data k) as [v|] eqn:Ev; [|apply nth_error_None in Ev; lia].
  assert (Im : In m ms) by (eapply nth_error_In; exact Em).
  rewrite (nth_error_nth (map Some data) k None (x := Some v)) by (rewrite nth_error_map, Ev; reflexivity).
  apply nth_error_nth. set (w := mkmas (wrap_center (m_lonc m)) (m_latc m) (m_lons m) (m_lats m)).
  set (c := fun i j => (existsb (Nat.eqb i) (fst (gsfc_cells (gsfc_lon s) (gsfc_lat s) w)) && existsb (Nat.eqb j) (snd (gsfc_cells (gsfc_lon s) (gsfc_lat s) w)))%bool).
  assert (HC : forall i j, (i < length (gsfc_lat s))%nat -> (j < length (gsfc_lon s))%nat -> (c i j = true <-> contains m (at_ (gsfc_lon s) j) (at_ (gsfc_lat s) i))).
  { intros i j Li Lj. rewrite <- (cells_ok (gsfc_lon s) (gsfc_lat s) m (HR m Im) HX i j Li Lj). unfold c. rewrite andb_true_iff, !existsb_exists.
    split; [intros [(a & A & Ea) (b & B & Eb)]; apply Nat.eqb_eq in Ea, Eb; subst; auto|intros [A B]; split; eexists; (split; [eassumption|apply Nat.eqb_refl])]. }
  destruct (C63_to_gsfc (from_gsfc data s ms) (gsfc_lon s) (gsfc_lat s) ms HX HY HR k m Em c HC) as [T _].
  destruct (NE m Im) as (i0 & j0 & Li0 & Lj0 & C0). unfold x, y in C0. rewrite <- V1, <- V2 in C0 by auto.
  rewrite T; [|exists i0, j0; rewrite L1, L2; repeat split; auto; apply HC; rewrite ?L1, ?L2; auto]. f_equal. f_equal.
  rewrite (weighted_mean_ext _ _ _ c c _ (fun _ _ => v)).
  - apply (weighted_mean_const _ _ _ c v i0 j0); rewrite ?L1, ?L2; auto; [intros i Li; apply HY, nth_In; lia|]. apply HC; rewrite ?L1, ?L2; auto.
  - auto.
  - intros i j Li Lj C. rewrite HC in C by auto. rewrite L1 in Li. rewrite L2 in Lj. rewrite V1, V2 in C by auto.
    destruct (C63_from_gsfc data s n ms HS LD HR i j Li Lj) as [(k' & m' & E1 & E2 & C' & _)|[N _]]; [|exfalso; apply (N m Im); exact C].
    assert (k' = k) by (eapply DIS; eauto). subst k'. congruence.
Qed.
(** ** JPL *)
(** to_jpl divides the mean by the number of latitude rows inside the mascon *)
Theorem C63_to_jpl_scaled_refuted : forall g lon lat ms, (forall y, In y lat -> -90 < y < 90) ->
  forall k m, nth_error ms k = Some m -> forall c : nat -> nat -> bool,
  (forall i j, (i < length lat)%nat -> (j < length lon)%nat -> (c i j = true <-> jcontains m (nth j lon 0) (nth i lat 0))) ->
  (exists i j, (i < length lat)%nat /\ (j < length lon)%nat /\ c i j = true) ->
  exists la lo, nth_error (to_jpl g lon lat ms) k =
    Some (Some (weighted_mean (length lat) (length lon) (fun i => nth i lat 0) c g / INR (length (filter (fun y => within (j_lat1 m) (j_lat0 m) y) lat))), false, la, lo).
Proof.
  intros g lon lat ms HY k m Ek c HC EX. unfold to_jpl. rewrite nth_error_map, Ek. cbn [option_map].
  set (ii := fst (jpl_cells lon lat m)). set (jj := snd (jpl_cells lon lat m)).
  assert (LI : length ii = length (filter (fun y => within (j_lat1 m) (j_lat0 m) y) lat)).
  { unfold ii, jpl_cells, sel. cbn [fst]. clear. set (p := within (j_lat1 m) (j_lat0 m)).
    assert (Q : forall l, length (filter (fun i => p (at_ l i)) (seq 0 (length l))) = length (filter p l)).
    { induction l as [|y l IH]; [reflexivity|]. cbn [length seq filter]. rewrite <- seq_shift. change (at_ (y :: l) 0) with y.
      assert (E : filter (fun i => p (at_ (y :: l) i)) (map S (seq 0 (length l))) = map S (filter (fun i => p (at_ l i)) (seq 0 (length l)))).
      { generalize (seq 0 (length l)). intros s. induction s as [|a s IHs]; [reflexivity|]. cbn [map filter]. change (at_ (y :: l) (S a)) with (at_ l a). rewrite IHs. destruct (p (at_ l a)); reflexivity. }
      rewrite E. destruct (p y); cbn [length]; rewrite map_length, IH; reflexivity. }
    apply Q. }
  assert (IC : forall i j, (i < length lat)%nat -> (j < length lon)%nat -> (c i j = true <-> In i ii /\ In j jj)).
  { intros i j Li Lj. rewrite HC by auto. unfold ii, jj, jpl_cells, jcontains. cbn [fst snd]. rewrite !sel_in. change (nth j lon 0) with (at_ lon j). change (nth i lat 0) with (at_ lat i). tauto. }
  assert (NZ : (length ii <> 0)%nat). { destruct EX as (i & j & Li & Lj & C). apply IC in C; auto. destruct C as [C _]. destruct ii; [destruct C|cbn; lia]. }
  destruct (Nat.eqb_spec (length ii) 0) as [Z|_]; [contradiction|]. do 2 eexists. rewrite <- LI.
  destruct (mean_of lat (length lon) g ii jj (fun i => within (j_lat1 m) (j_lat0 m) (at_ lat i)) (fun j => within (j_lon0 m) (j_lon2 m) (at_ lon j)) (INR (length ii)) c eq_refl eq_refl HY) as [M _];
    [apply not_0_INR; auto|exact IC|]. rewrite M by auto. reflexivity.
Qed.
(** a mascon without latitude rows is masked and zero; the coordinates are those of the center or of the pole *)
Theorem C63_to_jpl_mask : forall g lon lat ms k m, nth_error ms k = Some m ->
  exists d mask la lo, nth_error (to_jpl g lon lat ms) k = Some (d, mask, la, lo) /\
  (mask = true <-> forall y, In y lat -> ~ j_lat1 m <= y < j_lat0 m) /\ (mask = true -> d = Some 0) /\
  (Rabs (j_lat1 m) = 90 -> la = j_lat1 m /\ lo = 0) /\ (Rabs (j_lat1 m) <> 90 -> Rabs (j_lat0 m) = 90 -> la = j_lat0 m /\ lo = 0) /\
  (Rabs (j_lat1 m) <> 90 -> Rabs (j_lat0 m) <> 90 -> la = (j_lat1 m + j_lat0 m) / 2 /\ lo = (j_lon1 m + j_lon2 m) / 2).
Proof.
  intros g lon lat ms k m Ek. unfold to_jpl. rewrite nth_error_map, Ek. cbn [option_map]. do 4 eexists. split; [reflexivity|]. split; [|split; [intros ->; reflexivity|]].
  - rewrite Nat.eqb_eq. unfold jpl_cells. cbn [fst]. split.
    + intros E y Hy B. destruct (In_nth _ _ 0 Hy) as (i & Li & Ey). assert (I : In i (sel (j_lat1 m) (j_lat0 m) lat)) by (apply sel_in; split; auto; unfold at_; rewrite Ey; exact B).
      destruct (sel _ _ lat); [destruct I|discriminate].
    + intros H. destruct (sel (j_lat1 m) (j_lat0 m) lat) as [|i l] eqn:E; auto. exfalso. assert (I : In i (sel (j_lat1 m) (j_lat0 m) lat)) by (rewrite E; left; auto).
      apply sel_in in I. destruct I as [L B]. apply (H (at_ lat i)); auto. apply nth_In. exact L.
  - destruct (Req_EM_T (Rabs (j_lat1 m)) 90), (Req_EM_T (Rabs (j_lat0 m)) 90); cbn [fst snd]; intuition congruence.
Qed.
(** a mascon without cells on the grid rows of which exist: covered by C63_to_jpl_mask; the round trip through a JPL grid scales each value *)
Theorem C63_jpl_roundtrip_refuted : forall data s n ms, spacing s n -> length data = length ms ->
  let x j := (INR j + 1 / 2) * s in let y i := -90 + (INR i + 1 / 2) * s in
  (forall i j k k' m m', (i < n)%nat -> (j < 2 * n)%nat -> nth_error ms k = Some m -> nth_error ms k' = Some m' -> jcontains m (x j) (y i) -> jcontains m' (x j) (y i) -> k = k') ->
  (forall m, In m ms -> exists i j, (i < n)%nat /\ (j < 2 * n)%nat /\ jcontains m (x j) (y i)) ->
  forall k m v, nth_error ms k = Some m -> nth_error data k = Some v ->
  exists la lo, nth_error (to_jpl (from_jpl data s ms) (jpl_lon s) (jpl_lat s) ms) k =
    Some (Some (v / INR (length (filter (fun y => within (j_lat1 m) (j_lat0 m) y) (jpl_lat s)))), false, la, lo).
Proof.
  intros data s n ms HS LD x y DIS NE k m v Em Ev. pose proof HS as [P ES].
  destruct (arange_ok (-90 + s / 2) (90 + s / 2) s n) as [L1 V1]; [lra|lra|].
  destruct (arange_ok (s / 2) (360 + s / 2) s (2 * n)) as [L2 V2]; [lra|rewrite mult_INR; cbn [INR]; lra|].
  change (arange (-90 + s / 2) (90 + s / 2) s) with (jpl_lat s) in *. change (arange (s / 2) (360 + s / 2) s) with (jpl_lon s) in *.
  assert (HY : forall z, In z (jpl_lat s) -> -90 < z < 90).
  { intros z Hz. destruct (In_nth _ _ 0 Hz) as (j & Lj & <-). change (nth j ?l 0) with (at_ l j). rewrite L1 in Lj. rewrite V1 by auto.
    pose proof (pos_INR j). assert (INR j + 1 <= INR n) by (rewrite <- S_INR; apply le_INR; lia). nra. }
  assert (VX : forall j, (j < 2 * n)%nat -> at_ (jpl_lon s) j = x j) by (intros j Lj; rewrite V2 by auto; unfold x; lra).
  assert (VY : forall i, (i < n)%nat -> at_ (jpl_lat s) i = y i) by (intros i Li; rewrite V1 by auto; unfold y; lra).
  assert (Im : In m ms) by (eapply nth_error_In; exact Em).
  set (c := fun i j => (existsb (Nat.eqb i) (fst (jpl_cells (jpl_lon s) (jpl_lat s) m)) && existsb (Nat.eqb j) (snd (jpl_cells (jpl_lon s) (jpl_lat s) m)))%bool).
  assert (HC : forall i j, (i < length (jpl_lat s))%nat -> (j < length (jpl_lon s))%nat -> (c i j = true <-> jcontains m (at_ (jpl_lon s) j) (at_ (jpl_lat s) i))).
  { intros i j Li Lj. unfold c. rewrite andb_true_iff, !existsb_exists. unfold jcontains.
    split.
    - intros [(a & A & Ea) (b & B & Eb)]; apply Nat.eqb_eq in Ea, Eb; subst a b. unfold jpl_cells in A, B; cbn [fst snd] in A, B. apply sel_in in A, B. tauto.
    - intros [A B]. split; [exists i|exists j]; (split; [unfold jpl_cells; cbn [fst snd]; apply sel_in; auto|apply Nat.eqb_refl]). }
  destruct (NE m Im) as (i0 & j0 & Li0 & Lj0 & C0). rewrite <- VX, <- VY in C0 by auto.
  assert (EX : exists i j, (i < length (jpl_lat s))%nat /\ (j < length (jpl_lon s))%nat /\ c i j = true).
  { exists i0, j0. rewrite L1, L2. repeat split; auto. apply HC; rewrite ?L1, ?L2; auto. }
  destruct (C63_to_jpl_scaled_refuted (from_jpl data s ms) (jpl_lon s) (jpl_lat s) ms HY k m Em c HC EX) as (la & lo & T).
  exists la, lo. rewrite T. do 4 f_equal. f_equal.
  assert (X : weighted_mean (length (jpl_lat s)) (length (jpl_lon s)) (fun i => nth i (jpl_lat s) 0) c (from_jpl data s ms) = v); [|rewrite X; reflexivity].
  rewrite (weighted_mean_ext _ _ _ c c _ (fun _ _ => v)).
  - apply (weighted_mean_const _ _ _ c v i0 j0); rewrite ?L1, ?L2; auto; [intros i Li; apply HY, nth_In; lia|]. apply HC; rewrite ?L1, ?L2; auto.
  - auto.
  - intros i j Li Lj C. rewrite HC in C by auto. rewrite L1 in Li. rewrite L2 in Lj. rewrite VX, VY in C by auto.
    destruct (C63_from_jpl data s n ms HS LD i j Li Lj) as [(k' & m' & E1 & E2 & C' & _)|[N _]]; [|exfalso; apply (N m Im); exact C].
    assert (k' = k) by (eapply DIS; eauto). subst k'. congruence.
Qed.
(** a non-polar mascon around the whole parallel (span 360, center 0): the western half is left at zero *)
Theorem C63_wide_refuted : forall s n lc ls v i j, spacing s n -> Rabs lc <> 90 -> (i < n)%nat -> (j < n)%nat ->
  let x := -180 + (INR j + 1 / 2) * s in let y := 90 - (INR i + 1 / 2) * s in
  lc - ls / 2 <= y < lc + ls / 2 ->
  contains (mkmas 0 lc 360 ls) x y /\ from_gsfc [v] s [mkmas 0 lc 360 ls] i j = 0.
Proof.
  intros s n lc ls v i j HS NP Li Lj x y HY. pose proof HS as [P ES].
  destruct (gsfc_grid s n HS) as (L1 & L2 & V1 & V2 & HX & _).
  assert (BX : -180 <= x < 0).
  { unfold x. pose proof (pos_INR j). assert (INR j + 1 <= INR n) by (rewrite <- S_INR; apply le_INR; lia). nra. }
  split.
  - unfold contains. cbn [m_latc m_lats m_lonc m_lons]. destruct (Req_EM_T (Rabs lc) 90); [contradiction|]. split; [exact HY|]. exists 0%Z. lra.
  - unfold from_gsfc, wrapped. cbn [map combine fold_left fst snd m_lonc m_latc m_lons m_lats]. unfold fill.
    destruct (_ && _)%bool eqn:B; [|reflexivity]. exfalso. apply andb_true_iff in B. destruct B as [_ B].
    apply existsb_exists in B. destruct B as (j' & B & E). apply Nat.eqb_eq in E. subst j'. revert B. unfold gsfc_cells. cbn [m_latc m_lats m_lonc m_lons snd].
    assert (wrap_center 0 = 0) as -> by (unfold wrap_center; destruct (Rgt_dec 0 180); lra).
    destruct (Req_EM_T lc 90) as [Q|_]; [exfalso; apply NP; rewrite Q; apply Rabs_right; lra|].
    destruct (Req_EM_T lc (-90)) as [Q|_]; [exfalso; apply NP; rewrite Q; rewrite Rabs_left; lra|]. cbn [orb].
    destruct (Rle_dec (0 - 1 / 2 * 360) 180); [|lra]. destruct (Rle_dec 180 (0 + 1 / 2 * 360)); [|lra]. cbn [andb].
    rewrite sel_in, map_length. intros [_ H]. rewrite at_map in H by (rewrite L2; lia). rewrite V2 in H by lia. fold x in H. unfold alon in H. destruct (Rlt_dec x 0); lra.
Qed.
(** to_gsfc with grid longitudes in [0, 360): a mascon of the western hemisphere away from 0 and 180 gives nan although it contains cells *)
Theorem C63_to_gsfc_0_360_refuted : forall g lon lat ms k m, (forall x, In x lon -> 0 <= x < 360) -> nth_error ms k = Some m ->
  Rabs (m_latc m) <> 90 -> 180 < m_lonc m - m_lons m / 2 -> m_lonc m + m_lons m / 2 <= 360 -> 0 <= m_lons m ->
  nth_error (fst (to_gsfc g lon lat ms)) k = Some None.
Proof.
  intros g lon lat ms k m HX Ek NP A B C. unfold to_gsfc, wrapped. cbn [fst]. rewrite map_map, nth_error_map, Ek. cbn [option_map]. f_equal.
  unfold gsfc_cells. cbn [m_latc m_lats m_lonc m_lons snd fst].
  assert (wrap_center (m_lonc m) = m_lonc m - 360) as -> by (unfold wrap_center; destruct (Rgt_dec (m_lonc m) 180); lra).
  destruct (Req_EM_T (m_latc m) 90) as [Q|_]; [exfalso; apply NP; rewrite Q; apply Rabs_right; lra|].
  destruct (Req_EM_T (m_latc m) (-90)) as [Q|_]; [exfalso; apply NP; rewrite Q; rewrite Rabs_left; lra|]. cbn [orb].
  destruct (Rle_dec 180 (m_lonc m - 360 + 1 / 2 * m_lons m)); [lra|]. rewrite andb_false_r.
  destruct (Rle_dec (m_lonc m - 360 - 1 / 2 * m_lons m) (-180)); [lra|]. cbn [andb].
  assert (E : sel (m_lonc m - 360 - 1 / 2 * m_lons m) (m_lonc m - 360 + 1 / 2 * m_lons m) lon = []).
  { destruct (sel _ _ lon) as [|j l] eqn:E; auto. exfalso. assert (J : In j (j :: l)) by (left; auto). rewrite <- E in J. apply sel_in in J. destruct J as [J1 J2].
    assert (0 <= at_ lon j < 360) by (apply HX, nth_In; auto). lra. }
  rewrite E. unfold cell_mean. cbn [length Nat.eqb orb]. rewrite orb_true_r. reflexivity.
Qed.
(** *** the hypotheses are met: two mascons on the 10 degree grid *)
Example C63_nonvacuous : spacing 10 18 /\ (forall m, In m [mkmas 185 0 20 20; mkmas 20 90 360 10] -> regular m) /\
  contains (mkmas 185 0 20 20) (-180 + (INR 0 + 1 / 2) * 10) (90 - (INR 8 + 1 / 2) * 10) /\
  contains (mkmas 20 90 360 10) (-180 + (INR 7 + 1 / 2) * 10) (90 - (INR 0 + 1 / 2) * 10) /\
  ~ contains (mkmas 185 0 20 20) (-180 + (INR 7 + 1 / 2) * 10) (90 - (INR 0 + 1 / 2) * 10).
Proof.
  unfold spacing, regular, contains. cbn [m_latc m_lats m_lonc m_lons]. split; [cbn; lra|]. split.
  - intros m [<-|[<-|[]]]; cbn [m_latc m_lats m_lonc m_lons]; [right; lra|left; apply Rabs_right; lra].
  - rewrite Rabs_R0. rewrite (Rabs_right 90) by lra. destruct (Req_EM_T 0 90); [lra|]. destruct (Req_EM_T 90 90); [|lra]. cbn [INR].
    split; [split; [lra|exists 1%Z; lra]|]. split; [lra|]. intros [H _]. lra.
Qed.
