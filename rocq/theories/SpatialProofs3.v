From Coq Require Import Reals Lra ZifyBool ZifyNat Permutation Sorted.
From Verif Require Import Base TimeModel Arr HarmModel AdjustProofs HarmProofs HarmProofs2 HarmProofs3 SpatialModel SpatialSpec SpatialProofs SpatialProofs2.
Close Scope Z_scope.
Open Scope nat_scope.


Lemma values_inv s i j idx xs : values s i j idx xs ->
  existsb (fun b => b) (series (smask s) idx i j) = false /\ series (sdata s) idx i j = map Some xs.
Proof.
  unfold values, series. revert xs; induction idx as [|t idx IH]; intros [|x xs] H; cbn in *; try discriminate; auto.
  injection H as H1 H2. destruct (IH xs H2) as [-> ->]. unfold seen in H1. destruct (get (smask s) i j t); [discriminate|]. rewrite H1. auto.
Qed.
Lemma values_missing s i j idx t : In t idx -> seen s i j t = None ->
  existsb (fun b => b) (series (smask s) idx i j) = true \/ In None (series (sdata s) idx i j).
Proof.
  intros H E. unfold seen in E. destruct (get (smask s) i j t) eqn:K.
  - left. apply existsb_exists. exists true. split; [|reflexivity]. unfold series. apply in_map_iff. eauto.
  - right. unfold series. apply in_map_iff. eauto.
Qed.
Lemma vsum_some xs : vsum (map Some xs) = Some (Rsum xs).
Proof. induction xs as [|x xs IH]; [reflexivity|]. cbn. unfold vsum in IH. now rewrite IH. Qed.
Lemma vsum_none l : In None l -> vsum l = None.
Proof. induction l as [|v l IH]; [contradiction|]. intros [->|H]; [reflexivity|]. cbn. unfold vsum in IH. rewrite (IH H). now destruct v. Qed.
Lemma vmean_some xs : vmean (map Some xs) = Some (Rmean xs).
Proof. unfold vmean. rewrite vsum_some, map_length. reflexivity. Qed.
Lemma vmean_none l : In None l -> vmean l = None.
Proof. intros H. unfold vmean. now rewrite vsum_none. Qed.
Lemma vfold1_some f xs : xs <> [] -> exists m, vfold1 f (map Some xs) = Some m.
Proof.
  induction xs as [|x xs IH]; [congruence|]. intros _. destruct xs as [|y ys]; [cbn; eauto|].
  destruct IH as [m E]; [discriminate|]. cbn [map] in *. cbn [vfold1]. cbn [vfold1] in E. rewrite E. cbn. eauto.
Qed.
Lemma vfold1_none f l : In None l -> vfold1 f l = None.
Proof.
  induction l as [|v l IH]; [contradiction|]. destruct l as [|w l].
  - intros [->|[]]. reflexivity.
  - intros [->|H]; [reflexivity|]. change (vfold1 f (v :: w :: l)) with (lift2 f v (vfold1 f (w :: l))). rewrite (IH H). now destruct v.
Qed.
Lemma vmax_spec xs m : vfold1 Rmax (map Some xs) = Some m -> In m xs /\ forall x, In x xs -> (x <= m)%R.
Proof.
  revert m; induction xs as [|x xs IH]; intros m; [discriminate|]. destruct xs as [|y ys].
  - cbn. intros E. injection E as <-. split; [auto|]. intros z [<-|[]]. lra.
  - cbn [map]. change (vfold1 Rmax (Some x :: Some y :: map Some ys)) with (lift2 Rmax (Some x) (vfold1 Rmax (map Some (y :: ys)))).
    destruct (vfold1 Rmax (map Some (y :: ys))) as [k|]; [|discriminate]. destruct (IH k eq_refl) as [I1 I2]. cbn [lift2].
    intros E. injection E as <-. split.
    + unfold Rmax. destruct (Rle_dec x k); [now right|now left].
    + intros z [<-|Hz]; [apply Rmax_l|]. apply Rle_trans with k; [now apply I2|apply Rmax_r].
Qed.
Lemma vmin_spec xs m : vfold1 Rmin (map Some xs) = Some m -> In m xs /\ forall x, In x xs -> (m <= x)%R.
Proof.
  revert m; induction xs as [|x xs IH]; intros m; [discriminate|]. destruct xs as [|y ys].
  - cbn. intros E. injection E as <-. split; [auto|]. intros z [<-|[]]. lra.
  - cbn [map]. change (vfold1 Rmin (Some x :: Some y :: map Some ys)) with (lift2 Rmin (Some x) (vfold1 Rmin (map Some (y :: ys)))).
    destruct (vfold1 Rmin (map Some (y :: ys))) as [k|]; [|discriminate]. destruct (IH k eq_refl) as [I1 I2]. cbn [lift2].
    intros E. injection E as <-. split.
    + unfold Rmin. destruct (Rle_dec x k); [now left|now right].
    + intros z [<-|Hz]; [apply Rmin_l|]. apply Rle_trans with k; [apply Rmin_r|now apply I2].
Qed.

Lemma Rsum_bounds lo hi l : (forall x, In x l -> (lo <= x <= hi)%R) -> (INR (length l) * lo <= Rsum l <= INR (length l) * hi)%R.
Proof.
  induction l as [|x l IH]; intros H; [cbn; lra|]. cbn [Rsum length]. rewrite S_INR.
  assert (lo <= x <= hi)%R by (apply H; now left). assert (INR (length l) * lo <= Rsum l <= INR (length l) * hi)%R by (apply IH; intros; apply H; now right). lra.
Qed.
Lemma Rmean_bounds lo hi l : l <> [] -> (forall x, In x l -> (lo <= x <= hi)%R) -> (lo <= Rmean l <= hi)%R.
Proof.
  intros N H. apply Rsum_bounds in H. unfold Rmean.
  assert (0 < INR (length l))%R by (apply lt_0_INR; destruct l; [congruence|cbn; lia]).
  split.
  - apply (Rmult_le_reg_r (INR (length l))); [assumption|]. unfold Rdiv. rewrite Rmult_assoc, Rinv_l by lra. lra.
  - apply (Rmult_le_reg_r (INR (length l))); [assumption|]. unfold Rdiv. rewrite Rmult_assoc, Rinv_l by lra. lra.
Qed.

Lemma reduce_spec f s idx tm : swf s -> exists r, reduce_time f s idx tm = Ok r /\ clean r /\ sfill r = sfill s /\
  rows (sdata r) = rows (sdata s) /\ cols (sdata r) = cols (sdata s) /\ depth (sdata r) = None /\ slon r = slon s /\ slat r = slat s /\ stime r = tm /\
  forall i j, seen r i j 0 = hide (sfill s) (if existsb (fun b => b) (series (smask s) idx i j) then None else f (series (sdata s) idx i j)).
Proof.
  intros W. unfold reduce_time. set (q := mksp _ _ _ _ _ _ _ _).
  assert (Sq : shaped q) by (split; [repeat split|discriminate]).
  exists (um q). split; [now apply um_ok|]. split; [apply um_clean|].
  destruct (um_coord q) as (U1 & U2 & U3 & U4 & U5). destruct (um_shape q Sq) as (_ & V1 & V2 & V3).
  rewrite U1, U2, U3, U5, V1, V2, V3. repeat (split; [reflexivity|]). intros i j. rewrite um_seen. reflexivity.
Qed.

(** statistics of a cell *)
Lemma hide_none f : hide f None = None. Proof. destruct f as [[?|]|]; reflexivity. Qed.
Lemma stat_spec f s n idx tm r : swf s -> depth (sdata s) = Some n -> reduce_time f s idx tm = Ok r ->
  (forall l, In None l -> f l = None) ->
  forall i j, (forall xs, values s i j idx xs -> seen r i j 0 = hide (sfill s) (f (map Some xs))) /\
    ((exists t, In t idx /\ seen s i j t = None) -> seen r i j 0 = None).
Proof.
  intros W D E N i j. destruct (reduce_spec f s idx tm W) as (r0 & E0 & _ & _ & _ & _ & _ & _ & _ & _ & S). rewrite E in E0. injection E0 as <-.
  rewrite S. split.
  - intros xs H. apply values_inv in H as [-> ->]. reflexivity.
  - intros (t & H1 & H2). destruct (values_missing s i j idx t H1 H2) as [->|H]; [apply hide_none|].
    rewrite N by exact H. destruct (existsb _ _); apply hide_none.
Qed.

Lemma mean_field s n apply indices : swf s -> depth (sdata s) = Some n ->
  let idx := match indices with None => seq 0 n | Some l => l end in
  (forall t, In t idx -> t < n) ->
  exists s' r, smean s apply indices = Ok (s', r) /\ clean r /\ depth (sdata r) = None /\ same_shape (sdata s') (sdata s) /\ smask s' = smask s /\
    (apply = false -> s' = s) /\
    (forall i j, (forall xs, values s i j idx xs -> seen r i j 0 = hide (sfill s) (Some (Rmean xs))) /\
       ((exists t, In t idx /\ seen s i j t = None) -> seen r i j 0 = None)) /\
    (apply = true -> forall i j ys xs, values s i j (seq 0 n) ys -> values s i j idx xs ->
       values s' i j (seq 0 n) (map (fun y => (y - Rmean xs)%R) ys) /\
       values s' i j idx (map (fun y => (y - Rmean xs)%R) xs)).
Proof.
  intros W D idx Hidx. unfold smean. rewrite D. fold idx.
  assert (forallb (fun i => i <? n) idx = true) as ->. { apply forallb_forall. intros t Ht. apply Hidx in Ht. lia. } cbn [negb].
  destruct (reduce_spec vmean s idx (tmean idx (stime s)) W) as (r & E & Cr & Fr & R1 & R2 & R3 & _ & _ & _ & _).
  pose proof (stat_spec vmean s n idx _ r W D E vmean_none) as St.
  pose proof W as (Wm & We & W3 & W4 & W5). rewrite D in W5. destruct W5 as (ts & ms & T & M & Lt & Lm).
  rewrite E. destruct apply.
  - rewrite T. cbn [tlen bind]. replace (n <? length ts) with false by lia. cbn [bind].
    do 2 eexists. split; [reflexivity|]. split; [exact Cr|]. split; [exact R3|]. cbn [sdata smask]. split; [repeat split; cbn; congruence|]. split; [reflexivity|]. split; [discriminate|].
    split. { intros i j. destruct (St i j) as [S1 S2]. split; [|exact S2]. intros xs H. rewrite (S1 xs H), vmean_some. reflexivity. }
    intros _ i j ys xs Hy Hx.
    assert (G : forall k zs, (forall t, In t k -> t < n) -> values s i j k zs ->
      map (seen (mksp (mkarr (rows (sdata s)) (cols (sdata s)) (Some n)
                 (fun i j t => if t <? length ts then lift2 Rminus (get (sdata s) i j t) (vmean (series (sdata s) idx i j)) else get (sdata s) i j t))
                 (smask s) (serr s) (slon s) (slat s) (TArr ts) (smonth s) (sfill s)) i j) k = map Some (map (fun y => (y - Rmean xs)%R) zs)).
    { apply values_inv in Hx as [_ Hx]. intros k. induction k as [|t k IH]; intros [|z zs] Hk H; unfold values in *; cbn [map] in *; try discriminate; auto.
      injection H as H1 H2. f_equal; [|apply IH; [intros; apply Hk; now right|exact H2]].
      unfold seen in H1 |- *. cbn [smask sdata get]. destruct (get (smask s) i j t); [discriminate|].
      replace (t <? length ts) with true by (specialize (Hk t (or_introl eq_refl)); lia). rewrite H1, Hx, vmean_some. reflexivity. }
    split; apply G; auto. intros t Ht. apply in_seq in Ht. lia.
  - cbn [bind]. do 2 eexists. split; [reflexivity|]. split; [exact Cr|]. split; [exact R3|]. split; [repeat split|]. split; [reflexivity|]. split; [reflexivity|].
    split; [|discriminate]. intros i j. destruct (St i j) as [S1 S2]. split; [|exact S2]. intros xs H. rewrite (S1 xs H), vmean_some. reflexivity.
Qed.

Lemma slice_shaped s n ts ms k : swf s -> depth (sdata s) = Some n -> shaped (slice_sp s k ts ms).
Proof.
  intros ((M1 & M2 & M3) & We & _) D. split; [repeat split; cbn; auto|]. cbn. destruct (serr s) as [e|]; [|discriminate].
  intros e' E. injection E as <-. destruct (We e eq_refl) as (A & B & C). repeat split; cbn; auto.
Qed.
Lemma slice_clean s n ts ms k : swf s -> clean s -> depth (sdata s) = Some n -> k < n -> clean (slice_sp s k ts ms).
Proof.
  intros W C D Hk f F i j t (H1 & H2 & H3). cbn in *.
  assert (H : has s i j k) by (repeat split; [exact H1|exact H2|unfold nslice; now rewrite D]).
  destruct (C f F i j k H) as [C1 C2]. split; [|exact C2]. intros K. destruct (C1 K) as [C3 C4]. split; [exact C3|].
  destruct (serr s) as [e|]; [|discriminate]. intros e' E. injection E as <-. cbn. now apply C4.
Qed.
Lemma sindex_spec s n ts ms k : swf s -> clean s -> depth (sdata s) = Some n -> stime s = TArr ts -> smonth s = TArr ms -> k < n ->
  rows (sdata s) <> 1 -> cols (sdata s) <> 1 ->
  exists r, sindex s (Z.of_nat k) = Ok r /\ sheq r (slice_sp s k ts ms).
Proof.
  intros W C D T M Hk R1 R2. unfold sindex. rewrite D, T, M. cbn [tget].
  pose proof W as (Wm & We & W3 & W4 & W5). rewrite D in W5. destruct W5 as (ts' & ms' & T' & M' & Lt & Lm).
  rewrite T in T'. rewrite M in M'. injection T' as <-. injection M' as <-.
  assert (py_index n (Z.of_nat k) = Ok k) as ->.
  { unfold py_index. replace (Z.of_nat k <? 0)%Z with false by lia. replace ((0 <=? Z.of_nat k) && (Z.of_nat k <? Z.of_nat n))%Z with true by lia. f_equal. lia. }
  rewrite (py_get_nth ts k 0%R), (py_get_nth ms k 0%Z) by lia. cbn [bind].
  change (mksp (slice (sdata s) k) (slice (smask s) k) (match serr s with None => None | Some e => Some (slice e k) end)
    (slon s) (slat s) (TScalar (nth k ts 0%R)) (TScalar (nth k ms 0%Z)) (sfill s)) with (slice_sp s k ts ms).
  assert (G : forall A (a : arr A), rows a = rows (sdata s) -> cols a = cols (sdata s) -> gsqueeze (slice a k) = Ok (slice a k)).
  { intros A a E1 E2. unfold gsqueeze. cbn. rewrite E1, E2. replace (rows (sdata s) =? 1) with false by lia. replace (cols (sdata s) =? 1) with false by lia. reflexivity. }
  unfold ssqueeze. cbn [slice_sp sdata smask serr slon slat stime smonth sfill tsqueeze].
  rewrite !G by (try reflexivity; apply Wm). cbn [bind].
  assert ((match (match serr s with None => None | Some e => Some (slice e k) end) with None => Ok None | Some e => do e' <- gsqueeze e; Ok (Some e') end)
     = Ok (match serr s with None => None | Some e => Some (slice e k) end)) as ->.
  { destruct (serr s) as [e|]; [|reflexivity]. destruct (We e eq_refl) as (A & B & _). rewrite G by assumption. reflexivity. }
  cbn [bind]. change (mksp (slice (sdata s) k) (slice (smask s) k) (match serr s with None => None | Some e => Some (slice e k) end)
    (slon s) (slat s) (TScalar (nth k ts 0%R)) (TScalar (nth k ms 0%Z)) (sfill s)) with (slice_sp s k ts ms).
  rewrite um_ok by (eapply slice_shaped; eauto). eexists; split; [reflexivity|].
  apply um_clean_id; [eapply slice_shaped; eauto|eapply slice_clean; eauto].
Qed.
Lemma sindex_thin s n ts ms k : swf s -> depth (sdata s) = Some n -> stime s = TArr ts -> smonth s = TArr ms -> k < n ->
  rows (sdata s) = 1 \/ cols (sdata s) = 1 -> sindex s (Z.of_nat k) = Err OtherExn.
Proof.
  intros W D T M Hk H. unfold sindex. rewrite D, T, M. cbn [tget].
  pose proof W as (Wm & We & W3 & W4 & W5). rewrite D in W5. destruct W5 as (ts' & ms' & T' & M' & Lt & Lm).
  rewrite T in T'. rewrite M in M'. injection T' as <-. injection M' as <-.
  assert (py_index n (Z.of_nat k) = Ok k) as ->.
  { unfold py_index. replace (Z.of_nat k <? 0)%Z with false by lia. replace ((0 <=? Z.of_nat k) && (Z.of_nat k <? Z.of_nat n))%Z with true by lia. f_equal. lia. }
  rewrite (py_get_nth ts k 0%R), (py_get_nth ms k 0%Z) by lia. cbn [bind]. unfold ssqueeze, gsqueeze. cbn [sdata slice rows cols].
  replace ((rows (sdata s) =? 1) || (cols (sdata s) =? 1)) with true by lia. reflexivity.
Qed.

Lemma sfor_S k o acc : sfor (S k) o acc =
  (do r <- snext o; match r with None => Ok (Some (acc, o)) | Some (x, o') => sfor k o' (acc ++ [x]) end).
Proof. reflexivity. Qed.
Lemma sfor_spec s n ts ms : depth (sdata s) = Some n -> stime s = TArr ts -> smonth s = TArr ms -> length ts = n -> length ms = n ->
  forall k c acc, c + k = n -> sfor (S k) (mksobj s c) acc =
    Ok (Some (acc ++ map (fun i => slice_sp s i ts ms) (seq c k), mksobj s n)).
Proof.
  intros D T M Lt Lm. induction k as [|k IH]; intros c acc H; rewrite sfor_S; unfold snext; cbn [sob scur]; rewrite D.
  - replace (c <? n) with false by lia. cbn [bind seq map]. rewrite app_nil_r. do 4 f_equal. lia.
  - replace (c <? n) with true by lia. rewrite T, M. cbn [tget]. rewrite (py_get_nth ts c 0%R), (py_get_nth ms c 0%Z) by lia. cbn [bind].
    rewrite IH by lia. cbn [seq map]. rewrite <- app_assoc. unfold slice_sp. cbn [app]. reflexivity.
Qed.
