(** scaling_factors.kfactor *)
From Coq Require Import Reals Lra ZifyBool ZifyNat Permutation Sorted.
From Verif Require Import Base TimeModel Arr HarmModel AdjustProofs HarmProofs HarmProofs2 HarmProofs3 SpatialModel SpatialSpec SpatialProofs SpatialProofs2 SpatialProofs3 SpatialProofs4.
Close Scope Z_scope.
Open Scope nat_scope.


Lemma dot_nonneg xs : (0 <= dot xs xs)%R.
Proof. unfold dot. induction xs as [|x xs IH]; cbn; [lra|]. nra. Qed.
Lemma rss_expand k : forall xs ys, length xs = length ys -> rss k xs ys = (k ^ 2 * dot xs xs - 2 * k * dot xs ys + dot ys ys)%R.
Proof.
  unfold rss, dot. induction xs as [|x xs IH]; intros [|y ys] H; cbn in H; try discriminate; cbn [combine map Rsum fst snd]; [ring|].
  rewrite IH by lia. ring.
Qed.
(** the quotient dot xs ys / dot xs xs minimises the squared residuals *)
Lemma least_squares xs ys k' : length xs = length ys -> dot xs xs <> 0%R -> (rss (dot xs ys / dot xs xs) xs ys <= rss k' xs ys)%R.
Proof.
  intros H N. rewrite !rss_expand by exact H. pose proof (dot_nonneg xs) as P.
  set (a := dot xs xs) in *. set (b := dot xs ys).
  assert (0 < a)%R by lra. assert (E : (k' ^ 2 * a - 2 * k' * b - ((b / a) ^ 2 * a - 2 * (b / a) * b) = a * (k' - b / a) ^ 2)%R) by (field; lra).
  assert (0 <= a * (k' - b / a) ^ 2)%R by (apply Rmult_le_pos; [lra|apply pow2_ge_0]). lra.
Qed.
Lemma least_squares_unique xs ys k' : length xs = length ys -> dot xs xs <> 0%R ->
  rss k' xs ys = rss (dot xs ys / dot xs xs) xs ys -> k' = (dot xs ys / dot xs xs)%R.
Proof.
  intros H N. rewrite !rss_expand by exact H. pose proof (dot_nonneg xs) as P.
  set (a := dot xs xs) in *. set (b := dot xs ys). intros E.
  assert (E' : (k' ^ 2 * a - 2 * k' * b - ((b / a) ^ 2 * a - 2 * (b / a) * b) = a * (k' - b / a) ^ 2)%R) by (field; lra).
  assert (a * (k' - b / a) ^ 2 = 0)%R as Z by lra. apply Rmult_integral in Z as [Z|Z]; [contradiction|].
  assert ((k' - b / a) * (k' - b / a) = 0)%R by (rewrite <- Z; ring).
  apply Rmult_integral in H0 as [H0|H0]; lra.
Qed.

Lemma update_mask_shaped p r f : sfill p = Some f -> update_mask p = Ok r -> shaped r.
Proof.
  intros F. unfold update_mask. rewrite F. destruct (shape_eqb (smask p) (sdata p)) eqn:E1; [|discriminate]. cbn [negb].
  destruct (serr p) as [e|] eqn:E2; [destruct (shape_eqb e (sdata p)) eqn:E3; [|discriminate]|]; cbn [negb]; intros H; injection H as <-.
  - split; [repeat split|]. cbn. intros e0 He. injection He as <-. apply shape_eqb_true in E3. exact E3.
  - split; [repeat split|]. cbn. discriminate.
Qed.
Lemma data_op_shaped op s v r f : sfill s = Some f -> data_op op s v = Ok r -> shaped r.
Proof.
  intros F. assert (Fs : sfill (scopy s) = Some f) by (unfold scopy, replace_masked; now rewrite F).
  unfold data_op. destruct v as [x|xs|a].
  - intros H. eapply update_mask_shaped; [|exact H]. exact Fs.
  - destruct (depth (sdata s)); [destruct (n <? length xs); [discriminate|]|]; intros H; (eapply update_mask_shaped; [|exact H]; exact Fs).
  - destruct (depth (sdata s)).
    + destruct (tlen (stime s)) as [n0|]; [|discriminate]. cbn [bind]. destruct (_ <? n0); [discriminate|].
      match goal with |- context[if ?b then _ else _] => destruct b; [|discriminate] end. intros H. eapply update_mask_shaped; [|exact H]. exact Fs.
    + destruct (depth a); [intros H; eapply update_mask_shaped; [|exact H]; exact Fs|].
      match goal with |- context[if ?b then _ else _] => destruct b; [|discriminate] end. intros H. eapply update_mask_shaped; [|exact H]. exact Fs.
Qed.
Lemma swf_like s r : swf s -> shaped r -> same_shape (sdata r) (sdata s) -> slon r = slon s -> slat r = slat s -> stime r = stime s -> smonth r = smonth s -> swf r.
Proof.
  intros (W1 & W2 & W3 & W4 & W5) [S1 S2] (D1 & D2 & D3) L1 L2 T M. split; [exact S1|]. split; [exact S2|]. rewrite D1, D2, D3, L1, L2, T, M. auto.
Qed.

(** after copy, expand_dims and replace_invalid(0) *)
Lemma zero_filled s n : swf s -> clean s -> sfill s <> None -> depth (sdata s) = Some n ->
  exists e r, sexpand (scopy s) = Ok e /\ replace_invalid (Some 0%R) None e = Ok r /\ swf r /\ same_shape (sdata r) (sdata s) /\ sfill r = Some (Some 0%R) /\
    forall i j t, has s i j t -> seen r i j t = seen s i j t /\ (seen s i j t = None -> get (smask r) i j t = true /\ get (sdata r) i j t = Some 0%R) /\
      (forall v, seen s i j t = Some v -> get (smask r) i j t = false /\ get (sdata r) i j t = Some v).
Proof.
  intros W C NF D. destruct (scopy_shape s W) as (Wc & Sc & Fc & Kc & C1 & C2 & C3 & C4).
  assert (Cc : forall i j t, seen (scopy s) i j t = seen s i j t) by (intros; apply scopy_seen).
  unfold sexpand.
  assert (GX : forall A (a : arr A), depth a = Some n -> gexpand a = a) by (intros A a Q; unfold gexpand; now rewrite Q).
  pose proof Wc as ((M1 & M2 & M3) & We & W3 & W4 & W5). destruct Sc as (R1 & R2 & R3).
  rewrite (GX _ (sdata (scopy s))) by congruence. rewrite (GX _ (smask (scopy s))) by congruence.
  assert (match serr (scopy s) with None => None | Some e => Some (gexpand e) end = serr (scopy s)) as ->.
  { destruct (serr (scopy s)) as [e|]; [|reflexivity]. rewrite GX; [reflexivity|]. destruct (We e eq_refl) as (_ & _ & ->). congruence. }
  rewrite R3, D in W5. destruct W5 as (ts & ms & T & M & Lt & Lm). rewrite T, M. cbn [atleast_1d].
  set (p := mksp _ _ _ _ _ _ _ _).
  assert (Sp : shaped p) by (split; [repeat split; assumption|exact We]).
  exists (um p). rewrite (um_ok p Sp).
  destruct (um_coord p) as (U1 & U2 & U3 & U4 & U5). destruct (um_shape p Sp) as (SU & V).
  assert (Wp : swf (um p)).
  { apply (swf_like (scopy s)); auto. - rewrite U3; symmetry; exact T. - rewrite U4; symmetry; exact M. }
  destruct (replace_invalid_spec (Some 0%R) None (um p) Wp) as (r & E & F & S & L1 & L2 & L3 & L4 & G); [discriminate|].
  exists r. split; [reflexivity|]. split; [exact E|].
  assert (Sr : shaped r).
  { unfold replace_invalid in E. rewrite (um_ok _ (swf_shaped _ Wp)) in E. cbn [bind] in E. injection E as <-.
    destruct (um_shape _ (swf_shaped _ Wp)) as ([Z1 Z2] & Z3). split; [exact Z1|]. cbn. intros e He. destruct (serr (um (um p))) as [e0|] eqn:Q; [|discriminate]. injection He as <-. exact (Z2 e0 eq_refl). }
  split; [apply (swf_like (um p)); auto|].
  assert (SS : same_shape (sdata r) (sdata s)). { eapply same_shape_trans; [exact S|]. eapply same_shape_trans; [exact V|]. repeat split; assumption. }
  split; [exact SS|]. split; [exact F|]. intros i j t Hh.
  assert (has (um p) i j t) as Hu. { eapply same_shape_inb; [|exact Hh]. apply same_shape_sym. eapply same_shape_trans; [exact V|]. repeat split; assumption. }
  destruct (G i j t Hu) as (G1 & G2 & G3).
  assert (SEEN : seen r i j t = seen s i j t).
  { rewrite G1, um_seen, U5. cbn [p sfill]. rewrite Fc. replace (seen p i j t) with (seen s i j t) by (rewrite <- Cc; reflexivity).
    rewrite !(clean_hide s i j t C Hh). reflexivity. }
  split; [exact SEEN|]. split.
  - intros N. rewrite N in SEEN. assert (get (smask r) i j t = true) as K.
    { unfold seen in SEEN. destruct (get (smask r) i j t) eqn:K; [reflexivity|]. specialize (G3 eq_refl). rewrite SEEN in G3.
      assert (clean (um p)) as Cu by apply um_clean.
      destruct (sfill s) as [f|] eqn:Fs; [|congruence].
      assert (sfill (um p) = Some f) as Fq by (rewrite U5; cbn [p sfill]; congruence).
      rewrite um_seen, U5 in G1. cbn [p sfill] in G1. rewrite Fc in G1.
      destruct (get (smask (um p)) i j t) eqn:K2.
      - exfalso. unfold replace_invalid in E. rewrite (um_ok _ (swf_shaped _ Wp)) in E. cbn [bind] in E. injection E as <-. cbn [smask] in K.
        unfold um in K at 1. rewrite Fq in K. cbn [smask um_mask get] in K. rewrite K2 in K. discriminate.
      - destruct (Cu f Fq i j t Hu) as [_ CC]. destruct (CC K2) as [NN _]. rewrite <- G3 in NN. discriminate. }
    split; [exact K|]. destruct (G2 K) as [X _]; exact X.
  - intros v Hv. rewrite Hv in SEEN. unfold seen in SEEN. destruct (get (smask r) i j t) eqn:K; [discriminate|]. split; [reflexivity|exact SEEN].
Qed.

Lemma clean_none r f i j t : clean r -> sfill r = Some f -> has r i j t -> seen r i j t = None -> get (sdata r) i j t = f.
Proof.
  intros C F H S. destruct (C f F i j t H) as [C1 C2]. unfold seen in S. destruct (get (smask r) i j t) eqn:K.
  - now destruct (C1 eq_refl).
  - destruct (C2 eq_refl) as [N _]. rewrite S in N. discriminate.
Qed.
Lemma clean_value r z q i j t : clean r -> sfill r = Some (Some z) -> has r i j t -> seen r i j t = hide (Some (Some z)) (Some q) -> get (sdata r) i j t = Some q.
Proof.
  intros C F H S. unfold hide in S. destruct (Req_EM_T q z) as [->|N]; [now apply clean_none|].
  unfold seen in S. destruct (get (smask r) i j t); [discriminate|exact S].
Qed.

Lemma values_length s i j idx xs : values s i j idx xs -> length xs = length idx.
Proof. unfold values. intros H. apply (f_equal (@length _)) in H. rewrite !map_length in H. congruence. Qed.
Lemma values_at s i j n xs t : values s i j (seq 0 n) xs -> t < n -> seen s i j t = Some (nth t xs 0%R).
Proof.
  intros H Ht. pose proof (values_length _ _ _ _ _ H) as L. rewrite seq_length in L. unfold values in H.
  apply (f_equal (fun l => nth t l None)) in H.
  rewrite (nth_indep _ None (seen s i j 0)) in H by (rewrite map_length, seq_length; exact Ht).
  rewrite map_nth, seq_nth in H by exact Ht. rewrite (nth_indep _ None (Some 0%R)) in H by (rewrite map_length; lia).
  rewrite map_nth in H. exact H.
Qed.
Lemma values_intro s i j n xs : length xs = n -> (forall t, t < n -> seen s i j t = Some (nth t xs 0%R)) -> values s i j (seq 0 n) xs.
Proof.
  intros L H. unfold values. apply (nth_ext _ _ None None); [now rewrite !map_length, seq_length|].
  intros t Ht. rewrite map_length, seq_length in Ht.
  rewrite (nth_indep _ None (seen s i j 0)) by (rewrite map_length, seq_length; exact Ht). rewrite map_nth, seq_nth by exact Ht.
  rewrite (nth_indep (map Some xs) None (Some 0%R)) by (rewrite map_length; lia). rewrite map_nth. now apply H.
Qed.
Lemma map_seq_nth {A} (g : nat -> A) (l : list A) n d : length l = n -> (forall t, t < n -> g t = nth t l d) -> map g (seq 0 n) = l.
Proof.
  intros L H. apply (nth_ext _ _ d d); [now rewrite map_length, seq_length|]. intros t Ht. rewrite map_length, seq_length in Ht.
  rewrite (nth_indep _ d (g 0)) by (rewrite map_length, seq_length; exact Ht). rewrite map_nth, seq_nth by exact Ht. now apply H.
Qed.

Definition residuals (k : R) (xs ys : list R) : list R := map (fun p => (k * fst p - snd p)%R) (combine xs ys).
Lemma residuals_length k xs ys n : length xs = n -> length ys = n -> length (residuals k xs ys) = n.
Proof. intros H1 H2. unfold residuals. rewrite map_length, combine_length. lia. Qed.
Lemma residuals_nth k xs ys n t : length xs = n -> length ys = n -> t < n -> nth t (residuals k xs ys) 0%R = (k * nth t xs 0 - nth t ys 0)%R.
Proof.
  intros H1 H2 Ht. unfold residuals.
  rewrite (nth_indep _ 0%R ((fun p => (k * fst p - snd p)%R) (0, 0)%R)) by (rewrite map_length, combine_length; lia).
  rewrite (map_nth (fun p => (k * fst p - snd p)%R)), combine_nth by congruence. reflexivity.
Qed.
Lemma prod_nth (xs ys : list R) n t : length xs = n -> length ys = n -> t < n ->
  nth t (map (fun p => (fst p * snd p)%R) (combine xs ys)) 0%R = (nth t xs 0 * nth t ys 0)%R.
Proof.
  intros H1 H2 Ht. rewrite (nth_indep _ 0%R ((fun p => (fst p * snd p)%R) (0, 0)%R)) by (rewrite map_length, combine_length; lia).
  rewrite (map_nth (fun p => (fst p * snd p)%R)), combine_nth by congruence. reflexivity.
Qed.
Lemma rss_residuals k xs ys : Rsum (map (fun r => pow r 2) (residuals k xs ys)) = rss k xs ys.
Proof. unfold rss, residuals. rewrite map_map. reflexivity. Qed.
Lemma neg_shape (a : arr val) : same_shape (amap (lift1 Ropp) a) a. Proof. repeat split. Qed.
Lemma existsb_mask (g : nat -> bool) n : existsb (fun b => b) (map g (seq 0 n)) = true <-> exists t, t < n /\ g t = true.
Proof.
  rewrite existsb_exists. split.
  - intros (b & Hb & ->). apply in_map_iff in Hb as (t & Ht & Hin). apply in_seq in Hin. exists t. split; [lia|exact Ht].
  - intros (t & Ht & Hg). exists true. split; [|reflexivity]. apply in_map_iff. exists t. split; [exact Hg|]. apply in_seq. lia.
Qed.

Lemma kfactor_spec s1 s2 n : swf s1 -> swf s2 -> clean s1 -> clean s2 -> sfill s1 <> None -> sfill s2 <> None ->
  depth (sdata s1) = Some n -> same_shape (sdata s2) (sdata s1) ->
  exists gain mask err mag, kfactor s1 s2 = Ok (gain, mask, err, mag) /\
    rows gain = rows (sdata s1) /\ cols gain = cols (sdata s1) /\ depth gain = None /\
    forall i j, i < rows (sdata s1) -> j < cols (sdata s1) ->
      ((exists t, t < n /\ (seen s1 i j t = None \/ seen s2 i j t = None)) ->
         get mask i j 0 = true /\ get gain i j 0 = Some 0%R /\ get err i j 0 = Some 0%R /\ get mag i j 0 = Some 0%R) /\
      (forall xs ys, values s1 i j (seq 0 n) xs -> values s2 i j (seq 0 n) ys -> dot xs xs <> 0%R ->
         let k := (dot xs ys / dot xs xs)%R in
         get gain i j 0 = Some k /\
         (get mask i j 0 = true <-> k = 0%R) /\
         (k <> 0%R -> get mag i j 0 = Some (sqrt (dot ys ys))) /\
         (k <> 0%R -> (forall t, t < n -> nth t xs 0%R <> 0%R /\ (k * nth t xs 0)%R <> nth t ys 0%R) -> get err i j 0 = Some (sqrt (rss k xs ys / INR n))) /\
         ((exists t, t < n /\ (nth t xs 0%R = 0%R \/ (k * nth t xs 0)%R = nth t ys 0%R)) -> get err i j 0 = Some 0%R)).
Proof.
  intros W1 W2 C1 C2 F1 F2 D1 SH. assert (D2 : depth (sdata s2) = Some n) by (destruct SH as (_ & _ & ->); exact D1).
  destruct (zero_filled s1 n W1 C1 F1 D1) as (e1 & t1 & E1 & X1 & Wt1 & St1 & Ft1 & G1).
  destruct (zero_filled s2 n W2 C2 F2 D2) as (e2 & t2 & E2 & X2 & Wt2 & St2 & Ft2 & G2).
  unfold kfactor. rewrite E1. cbn [bind]. rewrite X1. cbn [bind]. rewrite E2. cbn [bind]. rewrite X2. cbn [bind].
  destruct St1 as (P1 & P2 & P3), St2 as (Q1 & Q2 & Q3), SH as (H1 & H2 & H3).
  assert (shape_eqb (sdata t1) (sdata t2) = true) as -> by (apply shape_eqb_true; repeat split; congruence). cbn [negb].
  assert (nslice (sdata t1) = n) as -> by (unfold nslice; now rewrite P3, D1).
  cbv zeta. set (idx := seq 0 n).
  set (anym := fun i j : nat => existsb (fun b : bool => b) (map (fun t => get (smask t1) i j t || get (smask t2) i j t) idx)).
  match goal with |- context [sscale _ (VArr ?g)] => set (gain := g) end.
  (* scale *)
  destruct (data_op_spec Rmult t1 (VArr gain) Wt1) as (sc & Esc & Csc & Fsc & Rsc1 & Rsc2 & Rsc3 & Lsc1 & Lsc2 & Tsc & Msc & Gsc).
  { unfold arg_fits. rewrite P3, D1. repeat split; auto. }
  fold sscale in Esc. rewrite Esc. cbn [bind].
  assert (Dsc : depth (sdata sc) = Some n) by (rewrite Rsc3; unfold out_depth; rewrite P3; exact D1).
  assert (Wsc : swf sc).
  { apply (swf_like t1); auto; [eapply data_op_shaped; [exact Ft1|exact Esc]|]. repeat split; congruence. }
  destruct (data_op_spec (fun x y => (y + x)%R) sc (VArr (amap (lift1 Ropp) (sdata t2))) Wsc) as (va & Eva & Cva & Fva & Rva1 & Rva2 & Rva3 & Lva1 & Lva2 & Tva & Mva & Gva).
  { unfold arg_fits. rewrite Dsc. cbn [amap rows cols depth]. repeat split; try congruence. right. congruence. }
  fold offset in Eva. rewrite Eva. cbn [bind].
  assert (Dva : depth (sdata va) = Some n) by (rewrite Rva3; unfold out_depth; exact Dsc).
  assert (Fsc' : sfill sc = Some (Some 0%R)) by congruence. assert (Fva' : sfill va = Some (Some 0%R)) by congruence.
  assert (Wva : swf va).
  { apply (swf_like sc); auto; [eapply data_op_shaped; [exact Fsc'|exact Eva]|]. repeat split; congruence. }
  unfold ssum. rewrite Dva.
  set (fs := fun l => vsum (map (lift1 (fun x => (x ^ 2)%R)) l)).
  destruct (reduce_spec fs va (seq 0 n) TNone Wva) as (vs & Evs & Cvs & Fvs & Rvs1 & Rvs2 & Rvs3 & _).
  rewrite Evs. cbn [bind]. rewrite Q3, D2.
  destruct (reduce_spec fs t2 (seq 0 n) TNone Wt2) as (mg & Emg & Cmg & Fmg & Rmg1 & Rmg2 & Rmg3 & _).
  rewrite Emg. cbn [bind]. do 4 eexists. split; [reflexivity|]. cbn [masked_set rows cols depth]. split; [exact P1|]. split; [exact P2|]. split; [reflexivity|].
  assert (fs_none : forall l, In None l -> fs l = None).
  { intros l Hl. unfold fs. apply vsum_none. apply in_map_iff. exists None. split; [reflexivity|exact Hl]. }
  assert (fs_some : forall xs, fs (map Some xs) = Some (Rsum (map (fun x => (x ^ 2)%R) xs))).
  { intros xs. unfold fs. rewrite map_map. cbn [lift1]. rewrite <- vsum_some, map_map. reflexivity. }
  intros i j Hi Hj.
  assert (HAS : forall t, t < n -> has s1 i j t /\ has s2 i j t /\ has sc i j t /\ has va i j t).
  { intros t Ht. repeat split; try congruence; unfold nslice; rewrite ?D1, ?D2, ?Dsc, ?Dva; try lia; congruence. }
  destruct (stat_spec fs va n (seq 0 n) TNone vs Wva Dva Evs fs_none i j) as [SV1 SV2].
  destruct (stat_spec fs t2 n (seq 0 n) TNone mg Wt2 ltac:(congruence) Emg fs_none i j) as [SM1 SM2].
  assert (Hvs : has vs i j 0) by (repeat split; try congruence; unfold nslice; rewrite Rvs3; lia).
  assert (Hmg : has mg i j 0) by (repeat split; try congruence; unfold nslice; rewrite Rmg3; lia).
  cbn [masked_set get amap].
  split.
  - intros (t & Ht & Hn). destruct (HAS t Ht) as (Ha & Hb & _).
    assert (anym i j = true) as A.
    { unfold anym. apply existsb_mask. exists t. split; [exact Ht|]. destruct Hn as [Hn|Hn].
      - destruct (G1 i j t Ha) as (_ & K & _). destruct (K Hn) as [-> _]. reflexivity.
      - destruct (G2 i j t Hb) as (_ & K & _). destruct (K Hn) as [-> _]. apply orb_true_r. }
    unfold anym in A. rewrite A. cbn [orb]. auto.
  - intros xs ys VX VY NZ. set (k := (dot xs ys / dot xs xs)%R).
    pose proof (values_length _ _ _ _ _ VX) as LX. pose proof (values_length _ _ _ _ _ VY) as LY. unfold idx in VX, VY, LX, LY; rewrite seq_length in LX, LY.
    assert (T1 : forall t, t < n -> get (smask t1) i j t = false /\ get (sdata t1) i j t = Some (nth t xs 0%R)).
    { intros t Ht. destruct (HAS t Ht) as (Ha & Hb & _). destruct (G1 i j t Ha) as (_ & _ & K). apply K. now apply (values_at _ _ _ n). }
    assert (T2 : forall t, t < n -> get (smask t2) i j t = false /\ get (sdata t2) i j t = Some (nth t ys 0%R)).
    { intros t Ht. destruct (HAS t Ht) as (Ha & Hb & _). destruct (G2 i j t Hb) as (_ & _ & K). apply K. now apply (values_at _ _ _ n). }
    assert (anym i j = false) as A.
    { destruct (anym i j) eqn:Q; [|reflexivity]. unfold anym in Q. apply existsb_mask in Q as (t & Ht & Q).
      destruct (T1 t Ht) as [K1 _], (T2 t Ht) as [K2 _]. rewrite K1, K2 in Q. discriminate. }
    unfold anym in A.
    assert (GN : forall t, get gain i j t = Some k).
    { intros t. unfold gain. cbn [get]. rewrite A.
      assert (map (fun t => lift2 Rmult (get (sdata t1) i j t) (get (sdata t2) i j t)) idx = map Some (map (fun p => (fst p * snd p)%R) (combine xs ys))) as ->.
      { apply (map_seq_nth _ _ n (Some 0%R)); [rewrite !map_length, combine_length; lia|]. intros u Hu.
        destruct (T1 u Hu) as [_ ->], (T2 u Hu) as [_ ->]. rewrite map_nth. cbn [lift2].
        now rewrite (prod_nth xs ys n u). }
      assert (map (fun t => lift1 (fun x => (x ^ 2)%R) (get (sdata t1) i j t)) idx = map Some (map (fun p => (fst p * snd p)%R) (combine xs xs))) as ->.
      { apply (map_seq_nth _ _ n (Some 0%R)); [rewrite !map_length, combine_length; lia|]. intros u Hu.
        destruct (T1 u Hu) as [_ ->]. rewrite map_nth. cbn [lift1].
        rewrite (prod_nth xs xs n u) by assumption. f_equal. ring. }
      rewrite !vsum_some. fold (dot xs ys). fold (dot xs xs). unfold vdiv0. destruct (Req_EM_T (dot xs xs) 0); [contradiction|reflexivity]. }
    rewrite A, GN. cbn [orb isnan]. rewrite orb_false_r. unfold veqb.
    assert (SC : forall t, t < n -> seen sc i j t = hide (Some (Some 0%R)) (Some (k * nth t xs 0)%R)).
    { intros t Ht. destruct (HAS t Ht) as (_ & _ & Hs & _). rewrite (Gsc i j t Hs), Ft1. f_equal. cbn [arg_at]. rewrite GN.
      unfold src. rewrite P3, D1. unfold seen. destruct (T1 t Ht) as [-> ->]. reflexivity. }
    assert (SVA : forall t, t < n -> seen va i j t = hide (Some (Some 0%R)) (lift2 (fun x y => (y + x)%R) (Some (- nth t ys 0)%R) (seen sc i j t))).
    { intros t Ht. destruct (HAS t Ht) as (_ & _ & _ & Hv). rewrite (Gva i j t Hv), Fsc'. f_equal. cbn [arg_at amap depth get]. rewrite Q3, D2.
      destruct (T2 t Ht) as [_ ->]. cbn [lift1]. unfold src. rewrite Dsc. reflexivity. }
    split; [destruct (Req_EM_T k 0) as [Ek|]; [now rewrite Ek|apply GN]|].
    split; [destruct (Req_EM_T k 0); split; congruence|].
    split.
    { intros Nk. destruct (Req_EM_T k 0); [contradiction|].
      assert (values t2 i j (seq 0 n) ys) as VT.
      { apply values_intro; [exact LY|]. intros t Ht. unfold seen. destruct (T2 t Ht) as [-> ->]. reflexivity. }
      specialize (SM1 ys VT). rewrite fs_some in SM1. rewrite Ft2 in SM1.
      rewrite (clean_value mg 0%R _ i j 0 Cmg ltac:(congruence) Hmg SM1). cbn [lift1]. do 2 f_equal.
      unfold dot. clear. induction ys as [|y l IH]; cbn [map Rsum combine fst snd]; [reflexivity|]. rewrite IH. f_equal. ring. }
    split.
    { intros Nk Hall. destruct (Req_EM_T k 0); [contradiction|].
      assert (values va i j (seq 0 n) (residuals k xs ys)) as VV.
      { apply values_intro; [now apply residuals_length|]. intros t Ht. rewrite (residuals_nth k xs ys n t LX LY Ht).
        destruct (Hall t Ht) as [N1 N2]. rewrite (SVA t Ht), (SC t Ht). unfold hide at 2.
        destruct (Req_EM_T (k * nth t xs 0%R) 0) as [Z|Z]; [apply Rmult_integral in Z; tauto|]. cbn [lift2]. unfold hide.
        destruct (Req_EM_T (k * nth t xs 0%R + - nth t ys 0%R) 0); [exfalso; apply N2; lra|]. f_equal. }
      specialize (SV1 _ VV). rewrite fs_some, rss_residuals, Fva' in SV1.
      rewrite (clean_value vs 0%R _ i j 0 Cvs ltac:(congruence) Hvs SV1). reflexivity. }
    intros (t & Ht & Hz). destruct (Req_EM_T k 0); [reflexivity|].
    assert (seen va i j t = None) as NV.
    { rewrite (SVA t Ht), (SC t Ht). destruct Hz as [Hz|Hz].
      - rewrite Hz, Rmult_0_r. unfold hide at 2. destruct (Req_EM_T 0 0); [reflexivity|congruence].
      - unfold hide at 2. destruct (Req_EM_T (k * nth t xs 0%R) 0); [reflexivity|]. cbn [lift2]. unfold hide.
        destruct (Req_EM_T (k * nth t xs 0%R + - nth t ys 0%R) 0); [reflexivity|]. exfalso; lra. }
    assert (seen vs i j 0 = None) as NS by (apply SV2; exists t; split; [apply in_seq; lia|exact NV]).
    assert (Fx : sfill vs = Some (Some 0%R)) by (rewrite Fvs; exact Fva').
    rewrite (clean_none vs _ i j 0 Cvs Fx Hvs NS). cbn [lift1]. unfold Rdiv. rewrite Rmult_0_l, sqrt_0. reflexivity.
Qed.
