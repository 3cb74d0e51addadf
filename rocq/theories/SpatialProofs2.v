From Coq Require Import Reals Lra ZifyBool ZifyNat Permutation Sorted.
From Verif Require Import Base TimeModel Arr HarmModel AdjustProofs HarmProofs HarmProofs2 HarmProofs3 SpatialModel SpatialSpec SpatialProofs.
Close Scope Z_scope.
Open Scope nat_scope.

Lemma replace_invalid_spec f extra s : swf s -> (forall x, extra = Some x -> extra_fits s x) ->
  exists r, replace_invalid f extra s = Ok r /\ sfill r = Some f /\ same_shape (sdata r) (sdata s) /\
    slon r = slon s /\ slat r = slat s /\ stime r = stime s /\ smonth r = smonth s /\
    forall i j t, has s i j t ->
      seen r i j t = (if match extra with Some x => extra_at s x i j t | None => false end then None else hide (sfill s) (seen s i j t)) /\
      (get (smask r) i j t = true -> get (sdata r) i j t = f /\ forall e, serr r = Some e -> get e i j t = f) /\
      (get (smask r) i j t = false -> get (sdata r) i j t = get (sdata s) i j t).
Proof.
  intros W Hx. pose proof (swf_shaped s W) as Sh. unfold replace_invalid. rewrite (um_ok s Sh). cbn [bind].
  pose proof (um_coord s) as (U1 & U2 & U3 & U4 & U5). destruct (um_shape s Sh) as ((K1 & K2) & D1).
  pose proof D1 as (D2 & D3 & D4).
  assert (KD : forall i j t, get (smask (um s)) i j t = false -> get (sdata (um s)) i j t = get (sdata s) i j t).
  { intros i j t. unfold um. destruct (sfill s); [|reflexivity]. cbn. intros ->. reflexivity. }
  assert (SE : forall k f, match serr (um s) with None => None | Some e => Some (masked_set k f e) end = None \/
      exists e, match serr (um s) with None => None | Some e => Some (masked_set k f e) end = Some (masked_set k f e)).
  { intros. destruct (serr (um s)); eauto. }
  assert (FIN : forall (k : arr bool), (forall i j t, has s i j t -> get k i j t = get (smask (um s)) i j t || match extra with Some x => extra_at s x i j t | None => false end) ->
    exists r, Ok (mksp (masked_set k f (sdata (um s))) k (match serr (um s) with None => None | Some e => Some (masked_set k f e) end)
                 (slon (um s)) (slat (um s)) (stime (um s)) (smonth (um s)) (Some f)) = Ok r /\ sfill r = Some f /\ same_shape (sdata r) (sdata s) /\
    slon r = slon s /\ slat r = slat s /\ stime r = stime s /\ smonth r = smonth s /\
    forall i j t, has s i j t ->
      seen r i j t = (if match extra with Some x => extra_at s x i j t | None => false end then None else hide (sfill s) (seen s i j t)) /\
      (get (smask r) i j t = true -> get (sdata r) i j t = f /\ forall e, serr r = Some e -> get e i j t = f) /\
      (get (smask r) i j t = false -> get (sdata r) i j t = get (sdata s) i j t)).
  { intros k Hk. eexists; split; [reflexivity|]. cbn [sfill sdata slon slat stime smonth].
    split; [reflexivity|]. split; [exact D1|]. do 4 (split; [assumption|]).
    intros i j t H. specialize (Hk i j t H). split; [|split].
    - unfold seen at 1. cbn [smask sdata masked_set get]. rewrite Hk. rewrite <- um_seen. unfold seen.
      destruct (get (smask (um s)) i j t); cbn [orb]; destruct (match extra with Some x => _ | None => _ end); reflexivity.
    - cbn [smask sdata masked_set get serr]. intros E. rewrite E. split; [reflexivity|].
      destruct (serr (um s)); [|discriminate]. intros e' E'. injection E' as <-. cbn. now rewrite E.
    - cbn [smask sdata masked_set get]. intros E. rewrite E. apply KD. rewrite Hk in E. destruct (get (smask (um s)) i j t); [discriminate|reflexivity]. }
  destruct extra as [x|].
  - destruct (Hx x eq_refl) as (X1 & X2 & X3). unfold shape_eqb. rewrite D2, D3, D4, X1, X2, !Nat.eqb_refl. cbn [andb].
    destruct (depth (sdata s)) as [n|] eqn:D.
    + destruct X3 as [X3|X3]; rewrite X3; cbn [andb negb].
      * apply FIN. intros i j t _. cbn. unfold extra_at. now rewrite X3.
      * rewrite Nat.eqb_refl. cbn [andb negb]. apply FIN. intros i j t _. cbn. unfold extra_at. now rewrite X3.
    + assert (depth x = None) as Dx by (destruct X3; assumption). rewrite Dx. apply FIN. intros i j t (_ & _ & H). cbn. unfold extra_at. rewrite Dx.
      unfold nslice in H. rewrite D in H. assert (t = 0) as -> by lia. reflexivity.
  - apply FIN; intros; now rewrite Bool.orb_false_r.
Qed.

(** * extend_matrix *)
Lemma wrap_shape {A B} (a : arr A) (b : arr B) : same_shape a b -> same_shape (wrap a) (wrap b).
Proof. intros (H1 & H2 & H3). repeat split; cbn; congruence. Qed.

Lemma last_nth {A} (l : list A) d : last l d = nth (length l - 1) l d.
Proof.
  induction l as [|x l IH]; [reflexivity|]. destruct l as [|y l]; [reflexivity|].
  change (last (x :: y :: l) d) with (last (y :: l) d). rewrite IH. cbn [length].
  replace (S (S (length l)) - 1) with (S (S (length l) - 1)) by lia. reflexivity.
Qed.
Lemma py_get_last {A} (l : list A) d : l <> [] -> py_get l (-1) = Ok (last l d).
Proof.
  intros H. unfold py_get. replace (-1 <? 0)%Z with true by lia.
  assert (0 < length l) by (destruct l; [congruence|cbn; lia]).
  replace ((0 <=? -1 + Z.of_nat (length l)) && (-1 + Z.of_nat (length l) <? Z.of_nat (length l)))%Z with true by lia.
  replace (Z.to_nat (-1 + Z.of_nat (length l))) with (length l - 1) by lia.
  rewrite (nth_error_nth' l d) by lia. f_equal. symmetry. apply last_nth.
Qed.

Lemma extend_spec s : swf s -> clean s -> 2 <= length (slat s) -> 2 <= length (slon s) ->
  let nx := length (slon s) in
  let dlon := Rabs (nth 1 (slon s) 0 - nth 0 (slon s) 0)%R in
  let dlat := Rabs (nth 1 (slat s) 0 - nth 0 (slat s) 0)%R in
  exists r, extend_matrix s = Ok r /\ clean r /\ sfill r = sfill s /\
    rows (sdata r) = rows (sdata s) /\ cols (sdata r) = nx + 2 /\ depth (sdata r) = depth (sdata s) /\
    slat r = slat s /\ stime r = stime s /\ smonth r = smonth s /\
    length (slon r) = nx + 2 /\
    (forall j, j < nx -> nth (S j) (slon r) 0%R = nth j (slon s) 0%R) /\
    nth 0 (slon r) 0%R = (nth 0 (slon s) 0 - dlon)%R /\
    nth (nx + 1) (slon r) 0%R = (nth (nx - 1) (slon s) 0 + dlat)%R /\
    forall i t, i < rows (sdata s) -> t < nslice (sdata s) ->
      seen r i 0 t = seen s i (nx - 1) t /\ seen r i (nx + 1) t = seen s i 0 t /\
      (forall j, j < nx -> seen r i (S j) t = seen s i j t).
Proof.
  intros W C H1 H2 nx dlon dlat. pose proof W as ((M1 & M2 & M3) & WE & W3 & W4 & W5).
  unfold extend_matrix, spacing.
  change 1%Z with (Z.of_nat 1). change 0%Z with (Z.of_nat 0).
  rewrite (py_get_nth (slat s) 1 0%R), (py_get_nth (slat s) 0 0%R), (py_get_nth (slon s) 1 0%R), (py_get_nth (slon s) 0 0%R) by lia.
  rewrite (py_get_last (slon s) 0%R) by (destruct (slon s); [cbn in H2; lia|discriminate]). cbn [bind fst snd].
  set (q := mksp _ _ _ _ _ _ _ _).
  assert (Sq : shaped q).
  { split; [apply wrap_shape; repeat split; assumption|]. intros e E. cbn in E. destruct (serr s) as [e0|] eqn:E0; [|discriminate].
    injection E as <-. apply wrap_shape. now apply WE. }
  exists (um q). split; [apply um_ok; exact Sq|]. split; [apply um_clean|].
  destruct (um_coord q) as (U1 & U2 & U3 & U4 & U5). destruct (um_shape q Sq) as (_ & V1 & V2 & V3).
  rewrite U1, U2, U3, U4, U5, V1, V2, V3. cbn [q sfill sdata wrap rows cols depth slat stime smonth slon]. fold nx in W4.
  do 2 (split; [reflexivity|]). split; [lia|]. do 4 (split; [reflexivity|]).
  split; [cbn [length]; rewrite app_length; cbn; lia|].
  split; [intros j Hj; cbn [nth]; now apply app_nth1|]. split; [reflexivity|].
  split. { replace (nx + 1) with (S nx) by lia. cbn [nth]. rewrite app_nth2 by lia. rewrite Nat.sub_diag. cbn [nth].
    now rewrite last_nth. }
  intros i t Hi Ht.
  assert (N : 2 <= nx) by exact H2.
  assert (B : forall j, j < nx -> has s i j t) by (intros; repeat split; [lia|lia|exact Ht]).
  split; [|split].
  - rewrite um_seen. replace (sfill q) with (sfill s) by reflexivity. rewrite <- (clean_hide s i (nx - 1) t C (B (nx - 1) ltac:(lia))).
    f_equal. unfold seen. cbn [q sdata smask wrap get Nat.eqb]. rewrite M2, W4. reflexivity.
  - rewrite um_seen. replace (sfill q) with (sfill s) by reflexivity. rewrite <- (clean_hide s i 0 t C (B 0 ltac:(lia))).
    f_equal. unfold seen. cbn [q sdata smask wrap get]. rewrite M2, W4.
    replace (nx + 1 =? 0) with false by lia. rewrite Nat.eqb_refl. reflexivity.
  - intros j Hj. rewrite um_seen. replace (sfill q) with (sfill s) by reflexivity. rewrite <- (clean_hide s i j t C (B j Hj)).
    f_equal. unfold seen. cbn [q sdata smask wrap get Nat.eqb]. rewrite M2, W4.
    destruct (nx + 1) eqn:E; [lia|]. replace (j =? n) with false by lia. cbn. rewrite Nat.sub_0_r. reflexivity.
Qed.

(** * flip *)
Lemma gflip_shape {A} ax (a : arr A) : same_shape (gflip ax a) a.
Proof. destruct ax; cbn; [repeat split|repeat split|]. destruct (depth a) eqn:D; repeat split; cbn; auto. Qed.
Definition fidx {A} (ax : axis) (a : arr A) (i j t : nat) : nat * nat * nat :=
  match ax with
  | AxLat => (rows a - 1 - i, j, t) | AxLon => (i, cols a - 1 - j, t)
  | AxTime => (i, j, match depth a with None => t | Some n => n - 1 - t end) end.
Lemma gflip_get {A} ax (a : arr A) i j t :
  get (gflip ax a) i j t = (let '(i', j', t') := fidx ax a i j t in get a i' j' t').
Proof. destruct ax; cbn; try reflexivity. destruct (depth a); reflexivity. Qed.
Lemma fidx_inb {A} ax (a : arr A) i j t : inb a i j t -> let '(i', j', t') := fidx ax a i j t in inb a i' j' t'.
Proof. unfold inb, fidx, nslice. destruct ax; [lia|lia|]. destruct (depth a); lia. Qed.
Lemma fidx_shape {A B} ax (a : arr A) (b : arr B) i j t : same_shape a b -> fidx ax a i j t = fidx ax b i j t.
Proof. intros (H1 & H2 & H3). unfold fidx. rewrite H1, H2, H3. reflexivity. Qed.
Lemma same_shape_trans {A B C} (a : arr A) (b : arr B) (c : arr C) : same_shape a b -> same_shape b c -> same_shape a c.
Proof. intros (?&?&?) (?&?&?). repeat split; congruence. Qed.
Lemma same_shape_sym {A B} (a : arr A) (b : arr B) : same_shape a b -> same_shape b a.
Proof. intros (?&?&?). repeat split; congruence. Qed.
Lemma same_shape_inb {A B} (a : arr A) (b : arr B) i j t : same_shape a b -> inb a i j t -> inb b i j t.
Proof. intros (H1 & H2 & H3). unfold inb, nslice. rewrite H1, H2, H3. auto. Qed.
Lemma gflip_aeq {A} ax (a b : arr A) : aeq a b -> aeq (gflip ax a) (gflip ax b).
Proof.
  intros [S E]. pose proof (gflip_shape ax a) as Ga. pose proof (gflip_shape ax b) as Gb. split.
  - eapply same_shape_trans; [exact Ga|]. eapply same_shape_trans; [exact S|]. now apply same_shape_sym.
  - intros i j t H. rewrite !gflip_get. rewrite <- (fidx_shape ax a b i j t S).
    pose proof (same_shape_inb _ _ i j t Ga H) as Ha. apply (fidx_inb ax) in Ha. destruct (fidx ax a i j t) as [[i' j'] t']. now apply E.
Qed.
Lemma gflip_gflip {A} ax (a : arr A) : aeq (gflip ax (gflip ax a)) a.
Proof.
  pose proof (gflip_shape ax a) as Ga. split.
  - eapply same_shape_trans; [apply gflip_shape|exact Ga].
  - intros i j t H. pose proof (same_shape_inb _ _ i j t (gflip_shape ax (gflip ax a)) H) as H1.
    pose proof (same_shape_inb _ _ i j t Ga H1) as (H2 & H3 & H4).
    rewrite gflip_get. rewrite (fidx_shape ax _ a i j t Ga). unfold fidx. unfold nslice in H4.
    destruct ax; rewrite gflip_get; cbn [fidx].
    + f_equal. lia.
    + f_equal. lia.
    + destruct (depth a) eqn:D; [|reflexivity]. f_equal. lia.
Qed.

Definition flipped (ax : axis) (s : sp) (tm : tval R) : sp :=
  mksp (gflip ax (sdata s)) (gflip ax (smask s)) (match serr s with None => None | Some e => Some (gflip ax e) end)
    (match ax with AxLon => rev (slon s) | _ => slon s end)
    (match ax with AxLat => rev (slat s) | _ => slat s end) tm (smonth s) (sfill s).
Lemma flipped_shaped ax s tm : shaped s -> shaped (flipped ax s tm).
Proof.
  intros [H1 H2]. split; cbn.
  - eapply same_shape_trans; [apply gflip_shape|]. eapply same_shape_trans; [exact H1|]. apply same_shape_sym, gflip_shape.
  - destruct (serr s) as [e|]; [|discriminate]. intros e' E. injection E as <-.
    eapply same_shape_trans; [apply gflip_shape|]. eapply same_shape_trans; [apply H2; reflexivity|]. apply same_shape_sym, gflip_shape.
Qed.
Lemma flipped_clean ax s tm : shaped s -> clean s -> clean (flipped ax s tm).
Proof.
  intros [Hm He] C f F i j t H. unfold has in H. cbn [flipped sdata] in H.
  apply (same_shape_inb _ _ _ _ _ (gflip_shape ax (sdata s))) in H. apply (fidx_inb ax) in H.
  cbn [flipped sdata smask serr sfill] in *. rewrite !gflip_get. rewrite (fidx_shape ax _ _ i j t Hm).
  destruct (fidx ax (sdata s) i j t) as [[i' j'] t'] eqn:X. destruct (C f F i' j' t' H) as [C1 C2]. split; [|exact C2].
  intros K. destruct (C1 K) as [C3 C4]. split; [exact C3|]. destruct (serr s) as [e|]; [|discriminate].
  intros e' E. injection E as <-. rewrite gflip_get. rewrite (fidx_shape ax _ _ i j t (He e eq_refl)), X. now apply C4.
Qed.
Lemma sheq_trans a b c : sheq a b -> sheq b c -> sheq a c.
Proof.
  intros (A1 & A2 & A3 & A4 & A5 & A6 & A7 & A8) (B1 & B2 & B3 & B4 & B5 & B6 & B7 & B8).
  split; [eapply aeq_trans; eauto|]. split; [eapply aeq_trans; eauto|].
  split; [|repeat split; congruence]. destruct (serr a), (serr b), (serr c); try contradiction; auto. eapply aeq_trans; eauto.
Qed.
Lemma flipped_sheq ax a b tm : sheq a b -> sheq (flipped ax a tm) (flipped ax b tm).
Proof.
  intros (A1 & A2 & A3 & A4 & A5 & A6 & A7 & A8). unfold flipped. split; [now apply gflip_aeq|]. split; [now apply gflip_aeq|]. cbn.
  rewrite A4, A5, A7, A8. split; [|repeat split]. destruct (serr a), (serr b); try contradiction; auto. now apply gflip_aeq.
Qed.

Definition flip_time (ax : axis) (t : tval R) : option (tval R) :=
  match ax with AxTime => match t with TArr l => Some (TArr (rev l)) | _ => None end | _ => Some t end.
Lemma sflip_ok ax s tm : shaped s -> flip_time ax (stime s) = Some tm -> sflip ax s = Ok (um (flipped ax s tm)).
Proof.
  intros Sh T. unfold sflip.
  assert (match ax with AxTime => match stime s with TArr l => Ok (TArr (rev l)) | TScalar _ => Err IndexError | TNone => Err TypeError end
           | _ => Ok (stime s) end = Ok tm) as ->.
  { unfold flip_time in T. destruct ax; try congruence. destruct (stime s); congruence. }
  cbn [bind]. rewrite <- um_ok by now apply flipped_shaped. unfold flipped, scopy, replace_masked. destruct (sfill s) eqn:F; cbn; rewrite ?F; reflexivity.
Qed.

Lemma flip_involution ax s : swf s -> clean s -> (ax = AxTime -> depth (sdata s) <> None) ->
  exists r r', sflip ax s = Ok r /\ sflip ax r = Ok r' /\ sheq r' s.
Proof.
  intros W C HT. pose proof (swf_shaped s W) as Sh.
  assert (exists tm, flip_time ax (stime s) = Some tm /\ flip_time ax tm = Some (stime s)) as (tm & T1 & T2).
  { unfold flip_time. destruct ax; eauto. destruct W as (_ & _ & _ & _ & W5). destruct (depth (sdata s)); [|exfalso; now apply HT].
    destruct W5 as (ts & ms & -> & _). eexists; split; [reflexivity|]. cbn; now rewrite rev_involutive. }
  pose proof (flipped_shaped ax s tm Sh) as S1. pose proof (flipped_clean ax s tm Sh C) as C1.
  pose proof (um_shape _ S1) as [S1' _].
  exists (um (flipped ax s tm)), (um (flipped ax (um (flipped ax s tm)) (stime s))).
  split; [now apply sflip_ok|]. split.
  { apply sflip_ok; [exact S1'|]. destruct (um_coord (flipped ax s tm)) as (_ & _ & -> & _). exact T2. }
  eapply sheq_trans; [apply um_clean_id; [now apply flipped_shaped|apply flipped_clean; [exact S1'|apply um_clean]]|].
  eapply sheq_trans; [apply flipped_sheq, um_clean_id; [exact S1|exact C1]|].
  unfold flipped; split; [apply gflip_gflip|]. split; [apply gflip_gflip|]. cbn. split; [|split; [|split; [|repeat split]]].
  - destruct (serr s); [apply gflip_gflip|exact I].
  - destruct ax; auto. apply rev_involutive.
  - destruct ax; auto. apply rev_involutive.
Qed.

(** the cell under a coordinate stays under that coordinate *)
Lemma flip_attached ax s : swf s -> clean s -> (ax = AxTime -> depth (sdata s) <> None) ->
  exists r, sflip ax s = Ok r /\ clean r /\ same_shape (sdata r) (sdata s) /\ smonth r = smonth s /\ sfill r = sfill s /\
    length (slat r) = length (slat s) /\ length (slon r) = length (slon s) /\
    forall i j t, has s i j t -> exists i' j' t', has s i' j' t' /\ fidx ax (sdata s) i j t = (i', j', t') /\
      seen r i j t = seen s i' j' t' /\
      nth i (slat r) 0%R = nth i' (slat s) 0%R /\ nth j (slon r) 0%R = nth j' (slon s) 0%R /\
      (forall ts, stime s = TArr ts -> depth (sdata s) <> None -> exists ts', stime r = TArr ts' /\ nth t ts' 0%R = nth t' ts 0%R).
Proof.
  intros W C HT. pose proof (swf_shaped s W) as Sh. pose proof W as (Wm & We & W3 & W4 & W5).
  assert (exists tm, flip_time ax (stime s) = Some tm) as (tm & T1).
  { unfold flip_time. destruct ax; eauto. destruct (depth (sdata s)); [|exfalso; now apply HT].
    destruct W5 as (ts & ms & -> & _). eauto. }
  pose proof (flipped_shaped ax s tm Sh) as S1. pose proof (flipped_clean ax s tm Sh C) as C1.
  exists (um (flipped ax s tm)). split; [now apply sflip_ok|]. split; [apply um_clean|].
  destruct (um_coord (flipped ax s tm)) as (U1 & U2 & U3 & U4 & U5). destruct (um_shape _ S1) as [_ V].
  split; [eapply same_shape_trans; [exact V|apply gflip_shape]|]. rewrite U1, U2, U3, U4, U5. cbn [flipped smonth sfill slat slon stime].
  do 2 (split; [reflexivity|]). split; [destruct ax; rewrite ?rev_length; reflexivity|]. split; [destruct ax; rewrite ?rev_length; reflexivity|].
  intros i j t H. pose proof H as H'. apply (fidx_inb ax) in H'. destruct (fidx ax (sdata s) i j t) as [[i' j'] t'] eqn:X.
  exists i', j', t'. split; [exact H'|]. split; [reflexivity|]. split.
  - rewrite um_seen. rewrite clean_hide; [|exact C1|].
    2:{ unfold has. cbn. eapply same_shape_inb; [apply same_shape_sym, gflip_shape|exact H]. }
    unfold seen. cbn [flipped smask sdata]. rewrite !gflip_get, (fidx_shape ax _ _ i j t Wm), X. reflexivity.
  - destruct H as (Hi & Hj & Ht). unfold fidx in X.
    assert (RN : forall l k, k < length l -> nth k (rev l) 0%R = nth (length l - 1 - k) l 0%R).
    { intros l k Hk. rewrite rev_nth by exact Hk. f_equal. lia. }
    split; [|split].
    + destruct ax; injection X as <- <- <-; try reflexivity. rewrite RN by lia. now rewrite W3.
    + destruct ax; injection X as <- <- <-; try reflexivity. rewrite RN by lia. now rewrite W4.
    + intros ts Ts D. unfold flip_time in T1. rewrite Ts in T1. destruct (depth (sdata s)) as [n|] eqn:Dn; [|contradiction].
      unfold nslice in Ht. rewrite Dn in Ht. destruct W5 as (ts0 & ms0 & T0 & _ & L0 & _). rewrite Ts in T0. injection T0 as <-.
      destruct ax; injection X as <- <- <-; injection T1 as <-; eexists; (split; [reflexivity|]); try reflexivity.
      rewrite RN by lia. now rewrite L0.
Qed.
