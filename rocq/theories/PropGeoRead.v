(** C85 geocenter series from text files (geocenter.py). *)
From Coq Require Import QArith Qround Qreals Qabs Reals Lra Lqa Lia ZifyBool ZifyNat ZArith List.
From Verif Require Import Base TimeModel TimeSpec TimeProofs TimeProofs2 DecimalProofs SlrModel GeoModel GeoReadModel PropSlr PropSlr2 PropSlr3.
Import ListNotations.
Close Scope R_scope. Open Scope Z_scope.

(** ** Specification *)
(** first position of a column name *)
Definition first_at (cols : list colname) (c : colname) (k : nat) : Prop := nth_error cols k = Some c /\ forall j, (j < k)%nat -> nth_error cols j <> Some c.
Definition needed : list colname := [c_time'; c_X; c_Y; c_Z; c_Xs; c_Ys; c_Zs].
(** degree-one coefficient of a displacement v of the center: v / (radius sqrt 3) *)
Definition degree_one (radius : R) (v : Q) : R := (Q2R v / (radius * sqrt 3))%R.
(** month given to a time: that of the day before (x is a date, c a time of day) *)
Definition day_before_month (t : Q) (g : Z) : Prop := forall x c, valid_greg x -> valid_tod c -> 2299162 <= gday x -> dy x mod 4000 <> 0 -> (t == decimal x c)%Q ->
  g = 12 * (dy (prev_greg x) - 2002) + dm (prev_greg x).
(** months of a series: one for each time, duplicates adjusted *)
Definition months_by (P : Q -> Z -> Prop) (out : list deg1) : Prop := exists g, map d_month out = adjust_months g /\ Forall2 P (map d_time out) g.

(** ** Lemmas *)
Lemma adjusted_ok l : map d_month (adjusted l) = adjust_months (map d_month l) /\ length (adjusted l) = length l /\ map d_time (adjusted l) = map d_time l.
Proof.
  assert (L : length (adjust_months (map d_month l)) = length l) by (rewrite AdjustProofs.adjust_months_length, map_length; reflexivity).
  unfold adjusted. revert L. generalize (adjust_months (map d_month l)). intros g. revert g. induction l as [|a l IH]; intros [|b g] L; cbn [length] in L; try lia; [auto|].
  cbn [combine map length fst snd]. destruct (IH g) as (H1 & H2 & H3); [lia|]. rewrite H1, H2, H3. auto.
Qed.
Lemma adjusted_one d : adjusted [d] = [d].
Proof. unfold adjusted. cbn [map]. rewrite AdjustProofs.adjust_nodup by (repeat constructor; intros []). destruct d. reflexivity. Qed.
Lemma adjusted_F2 {A} (P : A -> deg1 -> Prop) ls l : (forall a d m, P a d -> P a (set_month d m)) -> Forall2 P ls l -> Forall2 P ls (adjusted l).
Proof.
  intros S F. assert (L : length (adjust_months (map d_month l)) = length l) by (rewrite AdjustProofs.adjust_months_length, map_length; reflexivity).
  unfold adjusted. revert L. generalize (adjust_months (map d_month l)). induction F as [|a d ls l H F IH]; intros [|b g] L; cbn [length] in L; try lia; [constructor|]. cbn [combine map fst snd]. constructor; [apply S, H|apply IH; lia].
Qed.
Lemma months_adjusted (P : Q -> Z -> Prop) l : Forall (fun d => P (d_time d) (d_month d)) l -> months_by P (adjusted l).
Proof.
  intros F. destruct (adjusted_ok l) as (H1 & _ & H3). exists (map d_month l). split; [exact H1|]. rewrite H3. clear - F. induction F; cbn [map]; constructor; auto.
Qed.
Lemma colname_eqb_ok a b : colname_eqb a b = true <-> a = b.
Proof. destruct a, b; cbn; split; intros H; try discriminate; try reflexivity; [apply Nat.eqb_eq in H; congruence|injection H as ->; apply Nat.eqb_refl]. Qed.
Lemma col_index_ok c cols k : first_at cols c k -> col_index c cols = Ok k.
Proof.
  revert k. induction cols as [|x cols IH]; intros k [H1 H2]; [destruct k; discriminate|]. cbn [col_index]. destruct (colname_eqb c x) eqn:E.
  - apply colname_eqb_ok in E. subst x. destruct k; [reflexivity|]. exfalso. apply (H2 0%nat); [lia|reflexivity].
  - destruct k as [|k]; [cbn in H1; injection H1 as ->; assert (X : colname_eqb c c = true) by (apply colname_eqb_ok; reflexivity); congruence|]. rewrite (IH k); [reflexivity|]. split; [exact H1|]. intros j Hj. apply (H2 (S j)). lia.
Qed.
Lemma named_ok cols l c k : first_at cols c k -> (k < length (nums l))%nat -> named cols l c = Ok (num l k).
Proof. intros F L. unfold named. rewrite (col_index_ok _ _ _ F). cbn [bind]. apply (py_get_ok _ _ 0%Q L). Qed.
Lemma cart_ok r v : cart r v = degree_one r v.
Proof. unfold cart, degree_one. rewrite Rplus_0_r, Rmult_1_l. reflexivity. Qed.
Lemma time_date_ok t : exists Y M, time_date t = Ok (Y, M) /\ day_before_month t (12 * (Y - 2002) + M).
Proof.
  unfold time_date. destruct (calendar_to_julian t) as [JD|] eqn:EJ.
  2:{ exfalso. unfold calendar_to_julian in EJ. destruct (calendar_days_total (Qfloor t)) as [l E]. rewrite E in EJ. discriminate. }
  destruct (convert_julian JD) as [[[[[Y M] D] h] mi] s] eqn:EC. exists Y, M. split; [reflexivity|]. intros x c V T G Y4 E.
  pose proof (calendar_to_julian_comp _ _ E) as C. rewrite EJ in C. destruct (calendar_to_julian_decimal x c V T Y4) as (J & E2 & VJ). rewrite E2 in C.
  destruct (prev_valid x V) as [VP NP]. pose proof (gday_next _ VP) as GN. rewrite NP in GN.
  destruct (convert_julian_greg (prev_greg x) c VP ltac:(lia) T JD) as (s' & E3 & _).
  - rewrite C, VJ. replace (gday x) with (gday (prev_greg x) + 1) by lia. rewrite inject_Z_plus. change (inject_Z 1) with 1%Q. ring.
  - rewrite EC in E3. injection E3 as -> -> -> -> -> ->. reflexivity.
Qed.
Lemma month_ok Y M : calendar_to_grace (inject_Z Y) M = 12 * (Y - 2002) + M.
Proof. apply TimeProofs.calendar_to_grace_Z. Qed.

(** ** from_SLR without dealiasing *)
Definition slr_line (radius : R) (pos : colname -> nat) (l : line) (d : deg1) : Prop :=
  d_time d = num l (pos c_time') /\ d_C10 d = degree_one radius (num l (pos c_Z)) /\ d_C11 d = degree_one radius (num l (pos c_X)) /\ d_S11 d = degree_one radius (num l (pos c_Y)) /\
  d_eC10 d = degree_one radius (num l (pos c_Zs)) /\ d_eC11 d = degree_one radius (num l (pos c_Xs)) /\ d_eS11 d = degree_one radius (num l (pos c_Ys)).
Theorem C85_slr : forall radius cols pos hdr data, (forall c, In c needed -> first_at cols c (pos c)) -> (forall l c, In l data -> In c needed -> (pos c < length (nums l))%nat) ->
  exists out, from_SLR radius cols None true true (length hdr) (hdr ++ data) = Ok out /\ Forall2 (slr_line radius pos) data out /\ months_by day_before_month out.
Proof.
  intros radius cols pos hdr data F L. unfold from_SLR. cbn [negb]. replace (length (hdr ++ data) <? length hdr)%nat with false by (symmetry; apply Nat.ltb_ge; rewrite app_length; lia).
  rewrite skipn_app, skipn_all, Nat.sub_diag. cbn [skipn app].
  assert (X : forall l, In l data -> exists d, slr_row radius cols None l = Ok d /\ slr_line radius pos l d /\ day_before_month (d_time d) (d_month d)).
  { intros l Hl. assert (Q : forall c, In c needed -> named cols l c = Ok (num l (pos c))) by (intros c Hc; apply named_ok; auto). unfold slr_row. unfold needed in Q.
    repeat (rewrite Q by (cbn; tauto); cbn [bind]). destruct (time_date_ok (num l (pos c_time'))) as (Y & M & -> & D). cbn [bind]. eexists. split; [reflexivity|]. rewrite !cart_ok. split; [repeat split|]. cbn [d_time d_month]. rewrite month_ok. exact D. }
  destruct (mapM_ex (slr_row radius cols None) data) as [r E]; [intros l Hl; destruct (X l Hl) as (d & H & _); eauto|]. rewrite E. cbn [bind]. eexists. split; [reflexivity|].
  apply mapM_F2 in E. assert (F2 : Forall2 (fun l d => slr_line radius pos l d /\ day_before_month (d_time d) (d_month d)) data r).
  { clear - E X. induction E as [|l d ls ds H E IH]; constructor; [|apply IH; intros; apply X; right; auto]. destruct (X l (or_introl eq_refl)) as (d' & H' & P). rewrite H in H'. injection H' as ->. exact P. }
  split; [apply adjusted_F2; [intros a d m H; exact H|]; clear - F2; induction F2; constructor; tauto|]. apply months_adjusted. clear - F2. induction F2; constructor; tauto.
Qed.
(** Refuted: "the month is that of the date" - the first day of a month is given to the month before *)
Theorem C85_first_day_refuted : forall y m c t g, 1 <= m <= 12 -> valid_tod c -> 2299162 <= gday (mkdate y m 1) -> y mod 4000 <> 0 -> (t == decimal (mkdate y m 1) c)%Q ->
  day_before_month t g -> g = 12 * (y - 2002) + m - 1.
Proof.
  intros y m c t g Hm T G Y E D. rewrite (D (mkdate y m 1) c); [|unfold valid_greg; cbn [dy dm dd]; pose proof (month_len_pos (greg_leap y) m); lia|auto..].
  unfold prev_greg. cbn [dy dm dd]. change (1 <? 1) with false. cbv iota. destruct (1 <? m) eqn:M; cbn [dy dm dd]; lia.
Qed.
(** Refuted: "the dealiasing directory is only needed with AOD" *)
Theorem C85_directory_refuted : forall radius cols n ls, from_SLR radius cols None true false n ls = Err FileNotFound.
Proof. reflexivity. Qed.
Theorem C85_errors : forall radius cols hdr data aod, data <> [] ->
  (forall c, In c needed -> ~ In c cols -> exists e, from_SLR radius cols aod true true (length hdr) (hdr ++ data) = Err e) /\
  (forall n, (length (hdr ++ data) < n)%nat -> from_SLR radius cols aod true true n (hdr ++ data) = Err ValueError) /\
  (forall n, (n <= length (hdr ++ data))%nat -> from_SLR radius cols aod false true n (hdr ++ data) = Err TypeError).
Proof.
  intros radius cols hdr data aod NE. split; [|split].
  - intros c Hc Nc. unfold from_SLR. cbn [negb]. replace (length (hdr ++ data) <? length hdr)%nat with false by (symmetry; apply Nat.ltb_ge; rewrite app_length; lia).
    rewrite skipn_app, skipn_all, Nat.sub_diag. cbn [skipn app]. destruct data as [|l data]; [congruence|]. cbn [mapM].
    assert (NI : forall cols, ~ In c cols -> exists e, col_index c cols = Err e).
    { clear. induction cols as [|x cols IH]; intros H; cbn [col_index]; [eauto|]. destruct (colname_eqb c x) eqn:E; [apply colname_eqb_ok in E; subst; exfalso; apply H; left; auto|]. destruct IH as [e ->]; [intros X; apply H; right; auto|]. cbn [bind]. eauto. }
    destruct (NI cols Nc) as [e Ne]. assert (NN : named cols l c = Err e) by (unfold named; rewrite Ne; reflexivity). assert (S : exists e', slr_row radius cols aod l = Err e').
    { destruct (slr_row radius cols aod l) as [d|e'] eqn:S; [exfalso|eauto]. unfold slr_row in S.
      repeat (match type of S with (do x <- named cols l ?q; _) = _ => destruct (named cols l q) eqn:?; cbn [bind] in S; [|discriminate] end).
      clear S. cbn in Hc. decompose [or] Hc; subst; try contradiction; congruence. }
    destruct S as [e' ->]. cbn [bind]. eauto.
  - intros n H. unfold from_SLR. cbn [negb]. replace (_ <? n)%nat with true by (symmetry; apply Nat.ltb_lt; exact H). reflexivity.
  - intros n H. reflexivity.
Qed.

(** ** from_SLR with dealiasing: the mean over the dealiasing file of the month is removed; it is converted with the default radius *)
Definition aod_good (Y M : Z) (rows : list aod_line) (xyz : list (Q * Q * Q)) : Prop := rows <> [] /\ rows = map (fun p => (Y, M, [fst (fst p); snd (fst p); snd p])) xyz.
Definition rsum_list (l : list R) : R := fold_right Rplus 0%R l.
Definition mean_of (l : list R) (m : R) : Prop := (m * INR (length l) = rsum_list l)%R.
Theorem C85_dealiased : forall radius cols pos files l, (forall c, In c needed -> first_at cols c (pos c)) -> (forall c, In c needed -> (pos c < length (nums l))%nat) ->
  exists Y M, day_before_month (num l (pos c_time')) (12 * (Y - 2002) + M) /\
    (files Y M = None -> from_SLR radius cols (Some files) true true 0 [l] = Err FileNotFound) /\
    forall rows xyz, files Y M = Some rows -> aod_good Y M rows xyz ->
    exists d a b c, from_SLR radius cols (Some files) true true 0 [l] = Ok [d] /\ d_month d = 12 * (Y - 2002) + M /\ d_time d = num l (pos c_time') /\
      mean_of (map (fun p => degree_one default_radius (snd p)) xyz) a /\ mean_of (map (fun p => degree_one default_radius (fst (fst p))) xyz) b /\ mean_of (map (fun p => degree_one default_radius (snd (fst p))) xyz) c /\
      d_C10 d = (degree_one radius (num l (pos c_Z)) - a)%R /\ d_C11 d = (degree_one radius (num l (pos c_X)) - b)%R /\ d_S11 d = (degree_one radius (num l (pos c_Y)) - c)%R.
Proof.
  intros radius cols pos files l F L. assert (NQ : forall c, In c needed -> named cols l c = Ok (num l (pos c))) by (intros c Hc; apply named_ok; auto). unfold needed in NQ.
  destruct (time_date_ok (num l (pos c_time'))) as (Y & M & ET & D). exists Y, M. split; [exact D|].
  unfold from_SLR. cbn [negb length skipn]. change (1 <? 0)%nat with false. cbv iota. cbn [mapM].
  assert (S : slr_row radius cols (Some files) l = do a <- from_AOD1B Y M (files Y M);
    do m10 <- rmean (map (fun p => fst (fst p)) a); do m11 <- rmean (map (fun p => snd (fst p)) a); do s11 <- rmean (map snd a);
    Ok (mkdeg1 (num l (pos c_time')) (calendar_to_grace (inject_Z Y) M) (cart radius (num l (pos c_Z)) - m10) (cart radius (num l (pos c_X)) - m11) (cart radius (num l (pos c_Y)) - s11) (cart radius (num l (pos c_Zs))) (cart radius (num l (pos c_Xs))) (cart radius (num l (pos c_Ys))))).
  { unfold slr_row. repeat (rewrite NQ by (cbn; tauto); cbn [bind]). rewrite ET. cbn [bind]. reflexivity. }
  rewrite S. split; [intros ->; reflexivity|]. intros rows xyz EF [NE ER]. rewrite EF. cbn [from_AOD1B].
  assert (ME : mapM (aod_row Y M) rows = Ok xyz).
  { rewrite ER. clear. induction xyz as [|[[x y] z] xyz IH]; [reflexivity|]. cbn [map mapM fst snd aod_row]. rewrite !Z.eqb_refl. cbn [negb bind]. rewrite IH. reflexivity. }
  rewrite ME. cbn [bind]. rewrite !map_map. cbn [fst snd].
  assert (RM : forall f : Q * Q * Q -> R, exists m, rmean (map f xyz) = Ok m /\ mean_of (map f xyz) m).
  { intros f. assert (NX : xyz <> []) by (intros ->; apply NE; rewrite ER; reflexivity). destruct xyz as [|p xyz]; [congruence|]. unfold rmean. cbn [map]. eexists. split; [reflexivity|]. unfold mean_of, rsum_list. field. apply not_0_INR. cbn [length]. lia. }
  destruct (RM (fun x => cart default_radius (snd x))) as (a & -> & Ha). cbn [bind]. destruct (RM (fun x => cart default_radius (fst (fst x)))) as (b & -> & Hb). cbn [bind]. destruct (RM (fun x => cart default_radius (snd (fst x)))) as (c & -> & Hc). cbn [bind].
  eexists. exists a, b, c. rewrite adjusted_one. split; [reflexivity|]. cbn [fst snd set_month d_month d_time d_C10 d_C11 d_S11].
  assert (EX : forall f g : Q * Q * Q -> R, (forall x, f x = g x) -> map f xyz = map g xyz) by (intros f g H; apply map_ext; exact H).
  rewrite (EX _ (fun p => degree_one default_radius (snd p))) in Ha by (intros; apply cart_ok). rewrite (EX _ (fun p => degree_one default_radius (fst (fst p)))) in Hb by (intros; apply cart_ok). rewrite (EX _ (fun p => degree_one default_radius (snd (fst p)))) in Hc by (intros; apply cart_ok).
  rewrite !cart_ok. split; [apply month_ok|tauto].
Qed.
(** a dealiasing file with a line of another month, or a line without three coordinates, is rejected *)
Theorem C85_dealiasing_dates : forall Y M rows, Exists (fun r => fst (fst r) <> Y \/ snd (fst r) <> M \/ length (snd r) <> 3%nat) rows -> exists e, from_AOD1B Y M (Some rows) = Err e.
Proof.
  intros Y M rows H. cbn [from_AOD1B]. assert (X : exists e, mapM (aod_row Y M) rows = Err e).
  { induction H as [r rows H|r rows H [e IH]]; cbn [mapM].
    - destruct r as [[y m] c]. cbn [fst snd] in H. unfold aod_row. destruct (Z.eqb_spec y Y) as [->|]; cbn [negb bind]; [|eauto]. destruct (Z.eqb_spec m M) as [->|]; cbn [negb bind]; [|eauto].
      destruct H as [H|[H|H]]; try congruence. destruct c as [|a [|b [|d [|? ?]]]]; cbn [bind]; eauto. cbn in H. congruence.
    - destruct (aod_row Y M r); cbn [bind]; [|eauto]. rewrite IH. cbn [bind]. eauto. }
  destruct X as [e ->]. cbn [bind]. eauto.
Qed.
(** Refuted: "dealiasing and observation are converted alike" - with another radius the same displacement does not cancel *)
Theorem C85_radius_refuted : forall radius cols pos files l z, (forall c, In c needed -> first_at cols c (pos c)) -> (forall c, In c needed -> (pos c < length (nums l))%nat) ->
  (0 < radius)%R -> radius <> default_radius -> z = num l (pos c_Z) -> ~ (z == 0)%Q -> (forall Y M, files Y M = Some [(Y, M, [0; 0; z]%Q)]) ->
  exists d, from_SLR radius cols (Some files) true true 0 [l] = Ok [d] /\ d_C10 d <> 0%R.
Proof.
  intros radius cols pos files l z F L R1 R2 -> Z FI. assert (R3 : (0 < default_radius)%R) by (unfold default_radius, Rpower; apply Rmult_lt_0_compat; [Lra.lra|apply exp_pos]). destruct (C85_dealiased radius cols pos files l F L) as (Y & M & _ & _ & H). destruct (H _ [(0, 0, num l (pos c_Z))]%Q (FI Y M)) as (d & a & b & c & E & _ & _ & Ma & _ & _ & H10 & _); [split; [discriminate|reflexivity]|].
  exists d. split; [exact E|]. rewrite H10. unfold mean_of, rsum_list in Ma. cbn [map fst snd length fold_right INR] in Ma. rewrite Rmult_1_r, Rplus_0_r in Ma. subst a.
  pose proof (sqrt_lt_R0 3 ltac:(Lra.lra)) as S3. unfold degree_one. set (z := num l (pos c_Z)) in *. assert (Hz : Q2R z <> 0%R) by (intros X; apply Z; apply eqR_Qeq; rewrite X; unfold Q2R; cbn; Lra.lra).
  intros X. apply R2. assert (E1 : (Q2R z / (radius * sqrt 3) = Q2R z / (default_radius * sqrt 3))%R) by Lra.lra. unfold Rdiv in E1. apply Rmult_eq_reg_l in E1; [|exact Hz].
  assert (E2 : (radius * sqrt 3 = default_radius * sqrt 3)%R) by (rewrite <- (Rinv_inv (radius * sqrt 3)), E1, Rinv_inv; reflexivity). apply Rmult_eq_reg_r in E2; Lra.lra.
Qed.

(** ** from_swenson: mm water equivalent to coefficients; the fifth of five numbers is the month *)
Definition water_mm (v : Q) : R := (Q2R v / 10 / (5517 / 1000 * 637100000))%R.
Definition swenson_line (l : line) (d : deg1) : Prop := d_time d = num l 0 /\ d_C10 d = water_mm (num l 1) /\ d_C11 d = water_mm (num l 2) /\ d_S11 d = water_mm (num l 3).
Definition swenson_month (l : line) (g : Z) : Prop := (length (nums l) = 5%nat -> (num l 4 == inject_Z g)%Q) /\ (length (nums l) <> 5%nat -> day_before_month (num l 0) g).
Lemma cmwe_ok v : cmwe v = water_mm v.
Proof. unfold cmwe, water_mm, rho_e, rad_e. rewrite Q2R_mult. unfold Q2R at 1. cbn [Qnum Qden]. Lra.lra. Qed.
Lemma skip_io_ok hdr last data : is_file hdr last -> skip_or_io (hdr ++ last :: data) = Ok data.
Proof. intros [F E]. induction F as [|a l H F IH]; cbn [app skip_or_io]; [rewrite E; reflexivity|]. rewrite H. exact IH. Qed.
Theorem C85_swenson : forall hdr last data, is_file hdr last -> (forall l, In l data -> (4 <= length (nums l))%nat /\ (length (nums l) = 5%nat -> exists k, (num l 4 == inject_Z k)%Q)) ->
  exists out g, from_swenson (hdr ++ last :: data) = Ok out /\ Forall2 swenson_line data out /\ map d_month out = adjust_months g /\ Forall2 swenson_month data g.
Proof.
  intros hdr last data F G. unfold from_swenson. rewrite skip_io_ok by exact F. cbn [bind].
  assert (X : forall l, In l data -> exists d, swenson_row l = Ok d /\ swenson_line l d /\ swenson_month l (d_month d)).
  { intros l Hl. destruct (G l Hl) as [G1 G2]. unfold swenson_row. change 0 with (Z.of_nat 0) at 1. change 1 with (Z.of_nat 1) at 1. change 2 with (Z.of_nat 2) at 1. change 3 with (Z.of_nat 3) at 1. rewrite !col_ok by lia. cbn [bind].
    destruct (Nat.eqb_spec (length (nums l)) 5) as [E|E].
    - destruct (G2 E) as [k K]. change 4 with (Z.of_nat 4). rewrite col_ok by lia. cbn [bind]. rewrite (to_int_ok _ _ K). cbn [bind]. rewrite !cmwe_ok. eexists. split; [reflexivity|]. split; [repeat split|]. split; [intros _; exact K|congruence].
    - destruct (time_date_ok (num l 0)) as (Y & M & ET & D). unfold time_date in ET. unfold time_month. destruct (calendar_to_julian (num l 0)); [|discriminate]. destruct (convert_julian q) as [[[[[Y' M'] ?] ?] ?] ?]. injection ET as -> ->. cbn [bind]. rewrite !cmwe_ok.
      eexists. split; [reflexivity|]. split; [repeat split|]. cbn [d_month]. rewrite month_ok. split; [congruence|intros _; exact D]. }
  destruct (mapM_ex swenson_row data) as [r E]; [intros l Hl; destruct (X l Hl) as (d & H & _); eauto|]. rewrite E. cbn [bind]. exists (adjusted r), (map d_month r). split; [reflexivity|].
  apply mapM_F2 in E. assert (F2 : Forall2 (fun l d => swenson_line l d /\ swenson_month l (d_month d)) data r).
  { clear - E X. induction E as [|l d ls ds H E IH]; constructor; [|apply IH; intros; apply X; right; auto]. destruct (X l (or_introl eq_refl)) as (d' & H' & P). rewrite H in H'. injection H' as ->. exact P. }
  split; [apply adjusted_F2; [intros a d m H; exact H|]; clear - F2; induction F2; constructor; tauto|]. split; [apply adjusted_ok|]. clear - F2. induction F2; cbn [map]; constructor; tauto.
Qed.
(** a file without the header line is an input error *)
Theorem C85_no_header : forall ls, Forall (fun l => h_end l = false) ls -> from_swenson ls = Err IOErr /\ (forall a b c, from_UCI a b c ls = Err IOErr) /\ (forall J, from_tellus J ls = Err IndexError).
Proof.
  intros ls F. assert (E : skip_or_io ls = Err IOErr) by (induction F as [|a l H F IH]; cbn [skip_or_io]; [reflexivity|]; rewrite H; exact IH). assert (E2 : skip_header ls = Err IndexError) by (clear E; induction F as [|a l H F IH]; cbn [skip_header]; [reflexivity|]; rewrite H; exact IH).
  unfold from_swenson, from_UCI, from_tellus. rewrite E, E2. auto.
Qed.

(** ** from_UCI: the columns named in the header; the month is the last number *)
Theorem C85_uci : forall hdr last data ks, is_file hdr last -> (forall l k, In l data -> In k ks -> (1 <= k <= length (nums l))%nat) -> (forall l, In l data -> exists g, (num l (length (nums l) - 1) == inject_Z g)%Q /\ nums l <> []) ->
  exists out, from_UCI true true (map (fun k => [inject_Z (Z.of_nat k)]) ks) (hdr ++ last :: data) = Ok out /\
    Forall2 (fun l r => fst (fst r) = num l 0 /\ (num l (length (nums l) - 1) == inject_Z (snd (fst r)))%Q /\ snd r = map (fun k => num l (k - 1)) ks) data out.
Proof.
  intros hdr last data ks F K G. unfold from_UCI. rewrite skip_io_ok by exact F. cbn [bind negb].
  assert (C : mapM uci_column (map (fun k => [inject_Z (Z.of_nat k)]) ks) = Ok (map (fun k => Z.of_nat k - 1) ks)).
  { clear. induction ks as [|k ks IH]; [reflexivity|]. cbn [map mapM uci_column]. rewrite (to_int_ok (inject_Z (Z.of_nat k)) (Z.of_nat k)) by reflexivity. cbn [bind]. rewrite IH. reflexivity. }
  rewrite C. cbn [bind].
  assert (X : forall l, In l data -> exists r, uci_row (map (fun k => Z.of_nat k - 1) ks) l = Ok r /\ (fst (fst r) = num l 0 /\ (num l (length (nums l) - 1) == inject_Z (snd (fst r)))%Q /\ snd r = map (fun k => num l (k - 1)) ks)).
  { intros l Hl. destruct (G l Hl) as (g & Gg & NE). assert (LP : (1 <= length (nums l))%nat) by (destruct (nums l); [congruence|cbn [length]; lia]). unfold uci_row. change 0 with (Z.of_nat 0) at 1. rewrite col_ok by lia. cbn [bind].
    assert (E1 : col l (-1) = Ok (num l (length (nums l) - 1))).
    { unfold col. change (num l (length (nums l) - 1)) with (nth (length (nums l) - 1) (nums l) 0%Q). rewrite <- (py_get_ok (nums l) (length (nums l) - 1) 0%Q) by lia. unfold py_get. f_equal. change (-1 <? 0) with true. replace (Z.of_nat (length (nums l) - 1) <? 0) with false by lia. cbv iota. replace (-1 + Z.of_nat (length (nums l))) with (Z.of_nat (length (nums l) - 1)) by lia. reflexivity. }
    rewrite E1. cbn [bind]. rewrite (to_int_ok _ _ Gg). cbn [bind].
    assert (E2 : mapM (col l) (map (fun k => Z.of_nat k - 1) ks) = Ok (map (fun k => num l (k - 1)) ks)).
    { clear - K Hl. assert (K' : forall k, In k ks -> (1 <= k <= length (nums l))%nat) by (intros; apply (K l); auto). clear K. induction ks as [|k ks IH]; [reflexivity|]. cbn [map mapM]. specialize (K' k (or_introl eq_refl)) as K1. replace (Z.of_nat k - 1) with (Z.of_nat (k - 1)) by lia. rewrite col_ok by lia. cbn [bind]. rewrite IH by (intros; apply K'; right; auto). reflexivity. }
    rewrite E2. cbn [bind]. eexists. split; [reflexivity|]. cbn [fst snd]. auto. }
  destruct (mapM_ex (uci_row (map (fun k => Z.of_nat k - 1) ks)) data) as [r E]; [intros l Hl; destruct (X l Hl) as (d & H & _); eauto|]. exists r. split; [exact E|].
  apply mapM_F2 in E. clear - E X. induction E as [|l d ls ds H E IH]; constructor; [|apply IH; intros; apply X; right; auto]. destruct (X l (or_introl eq_refl)) as (d' & H' & P). rewrite H in H'. injection H' as ->. exact P.
Qed.

(** ** from_tellus *)
Ltac Zify.zify_post_hook ::= Z.to_euclidean_division_equations.
(** the digits of a date in a column *)
Definition shows (q : Q) (x : date) : Prop := Qfloor q = 10000 * dy x + 100 * dm x + dd x /\ valid_greg x.
Definition midnight : tod := mktod 0 0 0.
(** time of a line: JPL the middle of the first and last day, CSR and GFZ the middle of the month; month in which it lies *)
Definition tellus_time (JPL : bool) (l : line) (t : Q) (g : Z) : Prop :=
  if JPL then exists x y, shows (num l 7) x /\ shows (num l 8) y /\ (t == (decimal x midnight + decimal y midnight) / 2)%Q /\ (inject_Z (g - 1) <= 12 * (t - 2002) < inject_Z g)%Q
  else exists y m, Qfloor (num l 0) = 100 * y + m /\ 1 <= m <= 12 /\ g = 12 * (y - 2002) + m /\
    (y mod 4000 <> 0 -> (t == inject_Z y + (inject_Z (gday (mkdate y m 1) - gday (mkdate y 1 1)) + inject_Z (month_len (greg_leap y) m) / 2) / inject_Z (gday (mkdate (y + 1) 1 1) - gday (mkdate y 1 1)))%Q).
Definition dated_line (JPL : bool) (l : line) : Prop :=
  if JPL then (9 <= length (nums l))%nat /\ exists x y, shows (num l 7) x /\ shows (num l 8) y else (7 <= length (nums l))%nat /\ exists y m, Qfloor (num l 0) = 100 * y + m /\ 1 <= m <= 12.
Definition order (m : Z) (l : line) : Prop := (num l 2 == inject_Z m)%Q.
Lemma strptime8_ok q x : shows q x -> strptime8 q = Ok (dy x, dm x, dd x).
Proof.
  intros [E [V1 V2]]. unfold strptime8, ymd. rewrite E. pose proof (month_len_pos (greg_leap (dy x)) (dm x)) as MP.
  replace ((10000 * dy x + 100 * dm x + dd x) / 10000) with (dy x) by lia. replace ((10000 * dy x + 100 * dm x + dd x) / 100 mod 100) with (dm x) by lia. replace ((10000 * dy x + 100 * dm x + dd x) mod 100) with (dd x) by lia.
  replace ((1 <=? dm x) && (dm x <=? 12) && (1 <=? dd x) && (dd x <=? month_len (greg_leap (dy x)) (dm x)))%bool with true by lia. reflexivity.
Qed.
Lemma tellus_date_ok JPL l : dated_line JPL l -> exists t g, tellus_date JPL l = Ok (t, g) /\ tellus_time JPL l t g.
Proof.
  unfold dated_line, tellus_date, tellus_time. destruct JPL.
  - intros (L & x & y & X & Y). change 7 with (Z.of_nat 7) at 1. change 8 with (Z.of_nat 8) at 1. rewrite !col_ok by lia. cbn [bind]. rewrite (strptime8_ok _ _ X). cbn [bind]. rewrite (strptime8_ok _ _ Y). cbn [bind].
    change (day0 (dy x, dm x, dd x)) with (decimal x midnight). change (day0 (dy y, dm y, dd y)) with (decimal y midnight). set (t := ((decimal x midnight + decimal y midnight) / 2)%Q). eexists. eexists. split; [reflexivity|]. exists x, y. split; [exact X|]. split; [exact Y|]. split; [reflexivity|].
    rewrite month_ok. set (yr := Qfloor t). set (u := (12 * (t - inject_Z yr) + 1)%Q). pose proof (Qfloor_le u) as U1. pose proof (Qlt_floor u) as U2. rewrite inject_Z_plus in U2. change (inject_Z 1) with 1%Q in U2. set (f := Qfloor u) in *.
    replace (12 * (yr - 2002) + f - 1) with (12 * yr + (f + -24025)) by lia. replace (12 * (yr - 2002) + f) with (12 * yr + (f + -24024)) by lia. rewrite !inject_Z_plus, !inject_Z_mult. change (inject_Z 12) with 12%Q. change (inject_Z (-24025)) with (-24025)%Q. change (inject_Z (-24024)) with (-24024)%Q.
    unfold u in *. clearbody f yr t. split; Lqa.lra.
  - intros (L & y & m & E & Hm). change 0 with (Z.of_nat 0) at 1. rewrite col_ok by lia. cbn [bind]. unfold strptime6. rewrite E. replace ((100 * y + m) mod 100) with m by lia. replace ((100 * y + m) / 100) with y by lia. replace ((1 <=? m) && (m <=? 12))%bool with true by lia. cbn [bind].
    eexists. eexists. split; [reflexivity|]. exists y, m. split; [reflexivity|]. split; [exact Hm|]. split; [apply month_ok|]. intros Y. apply mid_month; auto.
Qed.
(** one month: order 0 on the first line, order 1 on the second *)
Definition tellus_pair (JPL : bool) (p : line * line) : Prop := dated_line JPL (fst p) /\ dated_line JPL (snd p) /\ order 0 (fst p) /\ order 1 (snd p).
Definition pair_value (p : line * line) (d : deg1) : Prop :=
  d_C10 d = Q2R (num (fst p) 3) /\ d_eC10 d = Q2R (num (fst p) 5) /\ d_C11 d = Q2R (num (snd p) 3) /\ d_S11 d = Q2R (num (snd p) 4) /\ d_eC11 d = Q2R (num (snd p) 5) /\ d_eS11 d = Q2R (num (snd p) 6).
Lemma dated_len JPL l : dated_line JPL l -> (7 <= length (nums l))%nat.
Proof. destruct JPL; intros [L _]; lia. Qed.
Lemma step0 JPL l t a : dated_line JPL l -> order 0 l -> (t < length a)%nat -> exists d, tellus_step JPL (t, a) l = Ok (t, upd a t d) /\ d_C10 d = Q2R (num l 3) /\ d_eC10 d = Q2R (num l 5).
Proof.
  intros D O L. pose proof (dated_len _ _ D) as L7. destruct (tellus_date_ok _ _ D) as (tm & g & E & _). unfold tellus_step. change 2 with (Z.of_nat 2) at 1. rewrite col_ok by lia. cbn [bind]. rewrite (to_int_ok _ _ O). cbn [bind]. change (0 =? 0) with true. cbv iota.
  change 3 with (Z.of_nat 3) at 1. change 5 with (Z.of_nat 5) at 1. rewrite !col_ok by lia. cbn [bind]. rewrite (py_get_ok _ _ dzero) by exact L. cbn [bind]. rewrite E. cbn [bind]. rewrite Nat.add_0_r. eexists. split; [reflexivity|]. split; reflexivity.
Qed.
Lemma step1 JPL l t a : dated_line JPL l -> order 1 l -> (t < length a)%nat -> exists d, tellus_step JPL (t, a) l = Ok ((t + 1)%nat, upd a t d) /\ d_C11 d = Q2R (num l 3) /\ d_S11 d = Q2R (num l 4) /\ d_eC11 d = Q2R (num l 5) /\ d_eS11 d = Q2R (num l 6) /\
  d_C10 d = d_C10 (nth t a dzero) /\ d_eC10 d = d_eC10 (nth t a dzero) /\ tellus_time JPL l (d_time d) (d_month d).
Proof.
  intros D O L. pose proof (dated_len _ _ D) as L7. destruct (tellus_date_ok _ _ D) as (tm & g & E & TT). unfold tellus_step. change 2 with (Z.of_nat 2) at 1. rewrite col_ok by lia. cbn [bind]. rewrite (to_int_ok _ _ O). cbn [bind]. change (1 =? 0) with false. change (1 =? 1) with true. cbv iota.
  change 3 with (Z.of_nat 3) at 1. change 4 with (Z.of_nat 4) at 1. change 5 with (Z.of_nat 5) at 1. change 6 with (Z.of_nat 6) at 1. rewrite !col_ok by lia. cbn [bind]. rewrite (py_get_ok _ _ dzero) by exact L. cbn [bind]. rewrite E. cbn [bind].
  eexists. split; [reflexivity|]. cbn [fst snd d_C10 d_eC10 d_C11 d_S11 d_eC11 d_eS11 d_time d_month]. auto 12.
Qed.
Definition flat (ps : list (line * line)) : list line := flat_map (fun p => [fst p; snd p]) ps.
Theorem C85_tellus : forall JPL hdr last ps, is_file hdr last -> Forall (tellus_pair JPL) ps ->
  exists out g, from_tellus JPL (hdr ++ last :: flat ps) = Ok out /\ Forall2 pair_value ps out /\ map d_month out = adjust_months g /\
    length g = length ps /\ length out = length ps /\ forall k, (k < length ps)%nat -> exists p, nth_error ps k = Some p /\ tellus_time JPL (snd p) (d_time (nth k out dzero)) (nth k g 0).
Proof.
  intros JPL hdr last ps F G. unfold from_tellus. rewrite skip_ok by exact F. cbn [bind].
  assert (LF : length (flat ps) = (length ps * 2)%nat) by (clear; induction ps as [|p ps IH]; [reflexivity|]; cbn [flat flat_map app length] in *; unfold flat in IH; rewrite IH; lia).
  rewrite LF, Nat.div_mul by lia. set (n := length ps).
  assert (X : forall qs rest, ps = qs ++ rest -> exists a, foldM (tellus_step JPL) (flat qs) (0%nat, repeat dzero n) = Ok (length qs, a) /\ length a = n /\
    forall k p, nth_error qs k = Some p -> pair_value p (nth k a dzero) /\ tellus_time JPL (snd p) (d_time (nth k a dzero)) (d_month (nth k a dzero))).
  { induction qs as [|p qs IH] using rev_ind; intros rest EP; [exists (repeat dzero n); split; [reflexivity|]; split; [apply repeat_length|]; intros [|k] p; discriminate|].
    rewrite <- app_assoc in EP. destruct (IH _ EP) as (a & E & La & H). assert (Lq : (length qs < n)%nat) by (unfold n; rewrite EP, app_length; cbn [app length]; lia).
    rewrite Forall_forall in G. destruct (G p) as (D0 & D1 & O0 & O1); [rewrite EP; apply in_or_app; right; left; auto|].
    assert (FL : flat (qs ++ [p]) = (flat qs ++ [fst p]) ++ [snd p]) by (unfold flat; rewrite flat_map_app; cbn [flat_map app]; rewrite <- app_assoc; reflexivity).
    rewrite FL, !foldM_snoc, E. cbn [bind]. destruct (step0 JPL (fst p) (length qs) a D0 O0 ltac:(lia)) as (d & -> & A1 & A2). cbn [bind].
    destruct (step1 JPL (snd p) (length qs) (upd a (length qs) d) D1 O1 ltac:(rewrite upd_length; lia)) as (d' & -> & B1 & B2 & B3 & B4 & B5 & B6 & B7). eexists. split; [rewrite app_length; reflexivity|]. rewrite !upd_length. split; [exact La|].
    assert (N1 : nth (length qs) (upd a (length qs) d) dzero = d) by (rewrite upd_nth, Nat.eqb_refl; replace (length qs <? length a)%nat with true by lia; reflexivity). rewrite N1 in B5, B6.
    intros k q Hk. destruct (Nat.lt_trichotomy k (length qs)) as [Lk|[Lk|Lk]].
    - rewrite nth_error_app1 in Hk by lia. rewrite !upd_nth; replace (length qs =? k)%nat with false by lia. apply H. exact Hk.
    - subst k. rewrite nth_error_app2, Nat.sub_diag in Hk by lia. cbn in Hk. injection Hk as <-. rewrite upd_nth, Nat.eqb_refl, upd_length. replace (length qs <? length a)%nat with true by lia. split; [|exact B7]. repeat split; try assumption; congruence.
    - exfalso. assert (HH : nth_error (qs ++ [p]) k <> None) by congruence. apply nth_error_Some in HH. rewrite app_length in HH. cbn [length] in HH. lia. }
  destruct (X ps [] ltac:(rewrite app_nil_r; reflexivity)) as (a & E & La & H). rewrite E. cbn [bind snd]. exists (adjusted a), (map d_month a). split; [reflexivity|]. destruct (adjusted_ok a) as (J1 & J2 & J3).
  assert (F2 : Forall2 pair_value ps a).
  { clear - La H. assert (H' : forall k p, nth_error ps k = Some p -> pair_value p (nth k a dzero)) by (intros; apply H; auto). clear H. subst n. revert a La H'. induction ps as [|p ps IH]; intros [|d a] La H'; cbn [length] in La; try lia; constructor; [apply (H' 0%nat); reflexivity|]. apply IH; [lia|]. intros k q Hk. apply (H' (S k)). exact Hk. }
  split; [apply adjusted_F2; [intros p d m HP; exact HP|exact F2]|]. split; [exact J1|]. rewrite map_length. split; [exact La|]. split; [rewrite J2; exact La|]. intros k Hk. destruct (nth_error ps k) as [p|] eqn:EK; [|apply nth_error_None in EK; lia]. exists p. split; [reflexivity|].
  change 0 with (d_month dzero). rewrite (map_nth d_month). assert (T : d_time (nth k (adjusted a) dzero) = d_time (nth k a dzero)) by (rewrite <- !(map_nth d_time), J3; reflexivity). rewrite T. apply H. exact EK.
Qed.
(** Refuted: "the order of the two lines of a month does not matter" *)
Theorem C85_tellus_order_refuted : exists last a b, is_file [] last /\ tellus_pair true (a, b) /\ from_tellus true [last; b; a] = Err IndexError.
Proof.
  exists (mkline true [] false false), (mkline false [0; 1; 0; 1; 0; 1; 0; 20050301; 20050331]%Q false false), (mkline false [0; 1; 1; 1; 0; 1; 0; 20050301; 20050331]%Q false false).
  assert (S1 : shows 20050301 (mkdate 2005 3 1)) by (split; [reflexivity|unfold valid_greg; cbn; lia]). assert (S2 : shows 20050331 (mkdate 2005 3 31)) by (split; [reflexivity|unfold valid_greg; cbn; lia]).
  split; [split; [constructor|reflexivity]|]. split.
  - split; [|split; [|split; reflexivity]]; (split; [cbn; lia|]; exists (mkdate 2005 3 1), (mkdate 2005 3 31); auto).
  - unfold from_tellus. cbn [skip_header h_end bind length Nat.div Nat.divmod fst repeat]. unfold foldM. cbn [fold_left bind]. unfold tellus_step at 2. cbn [nums col]. cbn. reflexivity.
Qed.
(** orders other than 0 and 1 are refused *)
Theorem C85_tellus_bad_order : forall JPL hdr last data l k, is_file hdr last -> (3 <= length (nums l))%nat -> order k l -> k <> 0 -> k <> 1 -> from_tellus JPL (hdr ++ last :: l :: data) = Err ValueError.
Proof.
  intros JPL hdr last data l k F L O K0 K1. unfold from_tellus. rewrite skip_ok by exact F. cbn [bind]. unfold foldM. cbn [fold_left bind]. assert (S : tellus_step JPL (0%nat, repeat dzero (length (l :: data) / 2)) l = Err ValueError).
  { unfold tellus_step. change 2 with (Z.of_nat 2) at 1. rewrite col_ok by lia. cbn [bind]. rewrite (to_int_ok _ _ O). cbn [bind]. replace (k =? 0) with false by lia. replace (k =? 1) with false by lia. reflexivity. }
  rewrite S. replace (fold_left _ data (Err ValueError)) with (@Err (nat * list deg1) ValueError); [reflexivity|]. clear. induction data as [|x d IH]; [reflexivity|exact IH].
Qed.
(** concrete table and files *)
Example C85_nonvacuous : let cols := [c_time'; c_X; c_Y; c_Z; c_Xs; c_Ys; c_Zs] in let l := mkline false [2005; 1; 2; 3; 4; 5; 6]%Q false false in
  let pos := fun c => match c with c_time' => 0 | c_X => 1 | c_Y => 2 | c_Z => 3 | c_Xs => 4 | c_Ys => 5 | c_Zs => 6 | c_other _ => 0 end%nat in
  (forall c, In c needed -> first_at cols c (pos c)) /\ (forall c, In c needed -> (pos c < length (nums l))%nat) /\ (2005 == decimal (mkdate 2005 1 1) midnight)%Q /\
  (forall k, In k [2; 3]%nat -> (1 <= k <= length (nums l))%nat).
Proof.
  cbv zeta. split.
  - intros c [<-|[<-|[<-|[<-|[<-|[<-|[<-|[]]]]]]]]; (split; [reflexivity|]); intros j Hj; cbn beta iota in Hj; do 6 (destruct j as [|j]; [cbn; try discriminate; lia|]); lia.
  - split; [intros c [<-|[<-|[<-|[<-|[<-|[<-|[<-|[]]]]]]]]; cbn; lia|]. split; [vm_compute; reflexivity|]. intros k [<-|[<-|[]]]; cbn; lia.
Qed.
