From Coq Require Import Reals Lra ZifyBool ZifyNat Permutation.
From Verif Require Import Base TimeModel Arr HarmModel AdjustProofs HarmProofs HarmProofs2 HarmProofs3 SpatialModel SpatialSpec.
Close Scope Z_scope.
Open Scope nat_scope.


Lemma shape_eqb_true {A B} (a : arr A) (b : arr B) : same_shape a b <-> shape_eqb a b = true.
Proof.
  unfold same_shape, shape_eqb. destruct (depth a), (depth b); split; intros H;
    try (destruct H as (-> & -> & H)); try discriminate; try lia.
  - injection H as ->. lia.
  - assert (n = n0) by lia. subst. repeat split; lia.
  - repeat split; lia.
Qed.

(** the effect of update_mask on well-shaped objects *)
Definition um_mask (s : sp) (f : val) : arr bool :=
  mkarr (rows (sdata s)) (cols (sdata s)) (depth (sdata s))
    (fun i j t => get (smask s) i j t || veqb (get (sdata s) i j t) f || isnan (get (sdata s) i j t)).
Definition um (s : sp) : sp :=
  match sfill s with
  | None => s
  | Some f => mksp (masked_set (um_mask s f) f (sdata s)) (um_mask s f)
     (match serr s with None => None | Some e => Some (masked_set (um_mask s f) f e) end)
     (slon s) (slat s) (stime s) (smonth s) (sfill s)
  end.
Definition shaped (s : sp) : Prop := same_shape (smask s) (sdata s) /\ forall e, serr s = Some e -> same_shape e (sdata s).
Lemma swf_shaped s : swf s -> shaped s. Proof. intros (H & H' & _). split; assumption. Qed.

Lemma um_ok s : shaped s -> update_mask s = Ok (um s).
Proof.
  intros [H1 H2]. unfold update_mask, um. destruct (sfill s) as [f|]; [|reflexivity].
  apply shape_eqb_true in H1. rewrite H1. cbn [negb].
  destruct (serr s) as [e|]; [|reflexivity]. specialize (H2 e eq_refl). apply shape_eqb_true in H2. rewrite H2. reflexivity.
Qed.
Lemma um_shape s : shaped s -> shaped (um s) /\ same_shape (sdata (um s)) (sdata s).
Proof.
  intros [H1 H2]. unfold um. destruct (sfill s) as [f|]; [|split; [split; assumption|repeat split]].
  split; [|repeat split]. split; [repeat split|]. cbn [serr]. destruct (serr s) as [e|]; [|discriminate].
  intros e' E. injection E as <-. specialize (H2 e eq_refl). destruct H2 as (A & B & C). repeat split; cbn; assumption.
Qed.
Lemma um_coord s : slon (um s) = slon s /\ slat (um s) = slat s /\ stime (um s) = stime s /\ smonth (um s) = smonth s /\ sfill (um s) = sfill s.
Proof. unfold um. destruct (sfill s) eqn:E; cbn; auto 10. Qed.
Lemma um_seen s i j t : seen (um s) i j t = hide (sfill s) (seen s i j t).
Proof.
  unfold um, seen, hide. destruct (sfill s) as [f|]; cbn [sdata smask get um_mask masked_set].
  - destruct (get (smask s) i j t); cbn [orb]; [reflexivity|]. destruct (get (sdata s) i j t) as [y|]; cbn [isnan veqb orb]; [|destruct f; reflexivity].
    destruct f as [x|]; cbn [veqb orb]; [|reflexivity]. destruct (Req_EM_T y x); reflexivity.
  - destruct (get (smask s) i j t); [reflexivity|]. destruct (get (sdata s) i j t); reflexivity.
Qed.
Lemma um_clean s : clean (um s).
Proof.
  unfold clean, um. intros f. destruct (sfill s) as [f'|] eqn:F; [|rewrite F; discriminate].
  cbn [sfill]. intros E. injection E as ->. intros i j t _. cbn [sdata smask um_mask masked_set get serr].
  destruct (get (smask s) i j t || veqb (get (sdata s) i j t) f || isnan (get (sdata s) i j t)) eqn:K; split; try discriminate.
  - intros _. split; [reflexivity|]. destruct (serr s); [|discriminate]. intros e E. injection E as <-. cbn. now rewrite K.
  - intros _. split; lia.
Qed.
Lemma um_mask_iff s f i j t : sfill s = Some f ->
  get (smask (um s)) i j t = get (smask s) i j t || veqb (get (sdata s) i j t) f || isnan (get (sdata s) i j t).
Proof. intros F. unfold um. rewrite F. reflexivity. Qed.
Lemma um_err s e : serr s = Some e -> exists e', serr (um s) = Some e' /\
  forall i j t, get (smask (um s)) i j t = false -> get e' i j t = get e i j t.
Proof.
  intros H. unfold um. destruct (sfill s); [|eauto]. cbn [serr smask]. rewrite H. eexists; split; [reflexivity|].
  intros i j t K. cbn [masked_set get]. now rewrite K.
Qed.


(** on clean objects update_mask does nothing *)
Lemma um_clean_id s : shaped s -> clean s -> sheq (um s) s.
Proof.
  intros [Hm He] C. unfold um. destruct (sfill s) as [f|] eqn:F.
  2:{ repeat split; try assumption. destruct (serr s); [apply aeq_refl|exact I]. }
  assert (P : forall i j t, has s i j t -> get (smask s) i j t = get (um_mask s f) i j t).
  { intros i j t H. destruct (C f F i j t H) as [C1 C2]. cbn [um_mask get].
    destruct (get (smask s) i j t); [reflexivity|]. destruct (C2 eq_refl) as [-> ->]. reflexivity. }
  destruct Hm as (M1 & M2 & M3).
  repeat split; cbn; auto.
  - intros i j t H. destruct (C f F i j t H) as [C1 _]. specialize (P i j t H). cbn in P. rewrite <- P.
    destruct (get (smask s) i j t); [|reflexivity]. destruct (C1 eq_refl) as [-> _]. reflexivity.
  - intros i j t H. specialize (P i j t H). cbn in P. now rewrite <- P.
  - destruct (serr s) as [e|] eqn:E; [|exact I]. destruct (He e eq_refl) as (E1 & E2 & E3). split; [repeat split|].
    intros i j t H. cbn in H. unfold inb, nslice in H. cbn in H. rewrite E1, E2, E3 in H.
    destruct (C f F i j t H) as [C1 _]. specialize (P i j t H). cbn in P. cbn. rewrite <- P.
    destruct (get (smask s) i j t); [|reflexivity]. destruct (C1 eq_refl) as [_ C3]. now rewrite (C3 e E).
Qed.

Lemma clean_hide s i j t : clean s -> has s i j t -> hide (sfill s) (seen s i j t) = seen s i j t.
Proof.
  intros C H. unfold hide, seen. destruct (sfill s) as [f|] eqn:F; [|destruct (get (smask s) i j t); [reflexivity|destruct (get _ _ _ _); reflexivity]].
  destruct (C f F i j t H) as [_ C2]. destruct (get (smask s) i j t); [reflexivity|]. destruct (C2 eq_refl) as [N V].
  destruct (get (sdata s) i j t) as [y|]; [|discriminate]. destruct f as [x|]; [|reflexivity]. cbn in V. destruct (Req_EM_T y x); [discriminate|reflexivity].
Qed.

(** copy *)
Lemma scopy_shape s : swf s -> swf (scopy s) /\ same_shape (sdata (scopy s)) (sdata s) /\ sfill (scopy s) = sfill s /\
  smask (scopy s) = smask s /\ slon (scopy s) = slon s /\ slat (scopy s) = slat s /\ stime (scopy s) = stime s /\ smonth (scopy s) = smonth s.
Proof.
  intros (W1 & W2 & W3 & W4 & W5). unfold scopy, replace_masked, swf. destruct (sfill s) as [f|] eqn:F.
  - cbn. repeat split; auto; try apply W1.
    + destruct (serr s) as [e'|]; [|discriminate]. injection H as <-. apply (W2 e' eq_refl).
    + destruct (serr s) as [e'|]; [|discriminate]. injection H as <-. apply (W2 e' eq_refl).
    + destruct (serr s) as [e'|]; [|discriminate]. injection H as <-. apply (W2 e' eq_refl).
  - rewrite F. repeat split; auto; try apply W1; intros; now apply W2.
Qed.
Lemma scopy_seen s i j t : seen (scopy s) i j t = seen s i j t.
Proof.
  unfold scopy, replace_masked, seen. destruct (sfill s); [|reflexivity]. cbn. destruct (get (smask s) i j t); reflexivity.
Qed.
Lemma scopy_clean_id s : shaped s -> clean s -> sheq (scopy s) s.
Proof.
  intros [Hm He] C. unfold scopy, replace_masked. destruct (sfill s) as [f|] eqn:F.
  2:{ repeat split; try assumption. destruct (serr s); [apply aeq_refl|exact I]. }
  repeat split; cbn; auto.
  - intros i j t H. destruct (C f F i j t H) as [C1 _]. destruct (get (smask s) i j t); [|reflexivity]. now destruct (C1 eq_refl) as [-> _].
  - destruct (serr s) as [e|] eqn:E; [|exact I]. destruct (He e eq_refl) as (E1 & E2 & E3). split; [repeat split|].
    intros i j t H. unfold inb, nslice in H. cbn in H. rewrite E1, E2, E3 in H.
    destruct (C f F i j t H) as [C1 _]. cbn. destruct (get (smask s) i j t); [|reflexivity]. destruct (C1 eq_refl) as [_ C3]. now rewrite (C3 e E).
Qed.


Lemma lift_seen op k v y : (if k : bool then None else lift2 op v y) = lift2 op v (if k then None else y).
Proof. destruct k, v, y; reflexivity. Qed.
Lemma lift1_2 op x y : lift1 (fun z => op x z) y = lift2 op (Some x) y.
Proof. destruct y; reflexivity. Qed.
Lemma um_err_none s : serr s = None -> serr (um s) = None.
Proof. intros H. unfold um. destruct (sfill s); [cbn; now rewrite H|exact H]. Qed.

Lemma data_op_spec op s v : swf s -> arg_fits s v ->
  exists r, data_op op s v = Ok r /\ clean r /\ sfill r = sfill s /\
    rows (sdata r) = rows (sdata s) /\ cols (sdata r) = cols (sdata s) /\ depth (sdata r) = out_depth s v /\
    slon r = slon s /\ slat r = slat s /\ stime r = stime s /\ smonth r = smonth s /\
    forall i j t, has r i j t -> seen r i j t = hide (sfill s) (lift2 op (arg_at v i j t) (seen s i j (src s t))).
Proof.
  intros W Fit. pose proof (scopy_shape s W) as (Wc & Sc & Fc & Kc & C1 & C2 & C3 & C4).
  pose proof W as ((M1 & M2 & M3) & W2 & W3 & W4 & W5). pose proof (swf_shaped _ Wc) as [_ SE].
  assert (FIN : forall (d' : arr val) (k' : arr bool), same_shape k' d' -> rows d' = rows (sdata s) -> cols d' = cols (sdata s) ->
     depth d' = out_depth s v -> (forall e, serr (scopy s) = Some e -> same_shape e d') ->
     (forall i j t, inb d' i j t -> (if get k' i j t then None else get d' i j t) = lift2 op (arg_at v i j t) (seen s i j (src s t))) ->
     exists r, update_mask (mksp d' k' (serr (scopy s)) (slon (scopy s)) (slat (scopy s)) (stime (scopy s)) (smonth (scopy s)) (sfill (scopy s))) = Ok r /\ clean r /\ sfill r = sfill s /\
    rows (sdata r) = rows (sdata s) /\ cols (sdata r) = cols (sdata s) /\ depth (sdata r) = out_depth s v /\
    slon r = slon s /\ slat r = slat s /\ stime r = stime s /\ smonth r = smonth s /\
    forall i j t, has r i j t -> seen r i j t = hide (sfill s) (lift2 op (arg_at v i j t) (seen s i j (src s t)))).
  { intros d' k' Hk R1 R2 R3 He Hs. set (q := mksp d' k' _ _ _ _ _ _).
    assert (Sq : shaped q) by (split; assumption).
    exists (um q). split; [apply um_ok; assumption|]. split; [apply um_clean|].
    pose proof (um_coord q) as (U1 & U2 & U3 & U4 & U5). pose proof (um_shape q Sq) as (_ & (V1 & V2 & V3)).
    split; [rewrite U5; exact Fc|]. split; [rewrite V1; exact R1|]. split; [rewrite V2; exact R2|]. split; [rewrite V3; exact R3|].
    rewrite U1, U2, U3, U4. repeat (split; [assumption|]).
    intros i j t H. rewrite um_seen. cbn [sfill q]. rewrite Fc. f_equal. unfold seen. cbn [smask sdata q].
    apply Hs. destruct H as (H1 & H2 & H3). unfold nslice in H3. rewrite V1 in H1. rewrite V2 in H2. rewrite V3 in H3. cbn in H1, H2, H3. repeat split; assumption. }
  unfold data_op. destruct v as [x|xs|a].
  - apply FIN; cbn [amap rows cols depth get]; auto.
    + rewrite Kc. repeat split; assumption.
    + intros e He. specialize (SE e He). destruct SE as (A & B & C), Sc as (D & E & F). repeat split; cbn; congruence.
    + intros i j t H. rewrite Kc, lift1_2. unfold seen. rewrite lift_seen. cbn [arg_at].
      destruct H as (_ & _ & H). unfold src, nslice in *. cbn in H. destruct (depth (sdata s)); [reflexivity|]. assert (t = 0) as -> by lia. reflexivity.
  - destruct (depth (sdata s)) as [n|] eqn:D.
    + unfold arg_fits in Fit. rewrite D in Fit. replace (n <? length xs) with false by lia.
      apply FIN; cbn [rows cols depth get]; auto; try (unfold out_depth; now rewrite D).
      * rewrite Kc. repeat split; cbn; congruence.
      * intros e He. specialize (SE e He). destruct SE as (A & B & C), Sc as (E & F & G). repeat split; cbn; congruence.
      * intros i j t H. destruct H as (_ & _ & H). unfold nslice in H. cbn in H. replace (t <? length xs) with true by lia.
        rewrite Kc, lift1_2. unfold seen. rewrite lift_seen. unfold src. rewrite D. reflexivity.
    + unfold arg_fits in Fit. rewrite D in Fit.
      assert (NE : serr (scopy s) = None \/ sfill s = None).
      { destruct Fit as [Fit|Fit]; [left|right; exact Fit]. unfold scopy, replace_masked. destruct (sfill s); cbn; now rewrite Fit. }
      destruct NE as [NE|NE].
      * apply FIN; cbn [rows cols depth get]; auto; try (unfold out_depth; now rewrite D).
        -- repeat split.
        -- intros e He. congruence.
        -- intros i j t H. rewrite lift1_2, lift_seen. unfold src. rewrite D. reflexivity.
      * unfold update_mask. cbn [sfill]. rewrite Fc, NE. eexists; split; [reflexivity|]. cbn. unfold out_depth. rewrite D.
        do 1 (split; [intros f E; cbn in E; congruence|]). rewrite C1, C2, C3, C4. repeat (split; [auto|]). intros i j t H. unfold seen, src. cbn. rewrite D.
        rewrite lift1_2, lift_seen. unfold hide, seen. destruct (get (smask s) i j 0), (get (sdata s) i j 0); reflexivity.
  - unfold arg_fits in Fit. destruct (depth (sdata s)) as [n|] eqn:D.
    + destruct W5 as (ts & ms & T & M & Lt & Lm). assert (tlen (stime s) = Ok (length ts)) as -> by (rewrite T; reflexivity). cbn [bind].
      destruct Fit as (F1 & F2 & F3). replace (n <? length ts) with false by lia. rewrite F1, F2, !Nat.eqb_refl.
      assert (match depth a with None => true | Some k => length ts <=? k end = true) as ->.
      { destruct F3 as [->| ->]; [reflexivity|lia]. } cbn [andb].
      apply FIN; cbn [rows cols depth get]; auto; try (unfold out_depth; now rewrite D).
      * rewrite Kc. repeat split; cbn; congruence.
      * intros e He. specialize (SE e He). destruct SE as (A & B & C), Sc as (E & F & G). repeat split; cbn; congruence.
      * intros i j t H. destruct H as (_ & _ & H). unfold nslice in H. cbn in H. replace (t <? length ts) with true by lia.
        rewrite Kc. unfold seen. rewrite lift_seen. unfold src. rewrite D. cbn [arg_at]. destruct (depth a); reflexivity.
    + destruct Fit as (F1 & F2 & F3). rewrite F3. rewrite F1, F2, !Nat.eqb_refl. cbn [andb].
      apply FIN; cbn [rows cols depth get]; auto; try (unfold out_depth; now rewrite D).
      * rewrite Kc. repeat split; cbn; congruence.
      * intros e He. specialize (SE e He). destruct SE as (A & B & C), Sc as (E & F & G). repeat split; cbn; congruence.
      * intros i j t H. destruct H as (_ & _ & H). unfold nslice in H. cbn in H.
        rewrite Kc. unfold seen. rewrite lift_seen. unfold src. rewrite D. cbn [arg_at]. rewrite F3.
        assert (t = 0) as -> by lia. reflexivity.
Qed.
