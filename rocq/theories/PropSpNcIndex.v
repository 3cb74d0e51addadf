(** C124: index files of spatial fields. *)
From Coq Require Import Reals Lra String Ascii Bool Permutation Sorted.
From Verif Require Import Base TimeModel Arr HarmModel AdjustProofs.
From Verif Require NcModel PropTrendMap UtilModel PropSpNc5.
From Verif Require Import NcIndexModel PropNcIndex SpatialModel SpatialSpec SpatialProofs3 SpatialProofs4 SpNcModel PropSpNc PropSpNc2 SpNcIndexModel.
Close Scope Z_scope.
Close Scope R_scope.
Open Scope nat_scope.
Open Scope list_scope.

Notation place := PropNcIndex.place.
(** ** specification *)
(** n fields on a grid with their dates; at least two latitudes and two longitudes *)
Definition fields_series (x : sp) (n : nat) (ts : list R) : Prop :=
  swf x /\ clean x /\ depth (sdata x) = Some n /\ stime x = TArr ts /\ List.length (slat x) <> 1 /\ List.length (slon x) <> 1.
(** what is in the cell afterwards: without a fill value there is no mask *)
Definition shown (x : sp) (i j t : nat) : option R := match sfill x with Some _ => seen x i j t | None => get (sdata x) i j t end.
(** the first k fields of it, with the months of their dates.  [turned]: latitudes and longitudes of the values are exchanged *)
Definition first_fields (turned : bool) (x q : sp) (k : nat) (ts : list R) : Prop :=
  rows (sdata q) = rows (sdata x) /\ cols (sdata q) = cols (sdata x) /\ depth (sdata q) = Some k /\ slon q = slon x /\ slat q = slat x /\ sfill q = sfill x /\
  stime q = TArr (firstn k ts) /\ smonth q = tsqueeze (TArr (adjust_months (map grace_month (firstn k ts)))) /\
  forall i j t, i < rows (sdata x) -> j < cols (sdata x) -> t < k -> seen q i j t = if turned then shown x j i t else shown x i j t.
(** the options: names of the variables, replacing files *)
Definition options (o : opts) (r : ropts) : Prop := plain o /\ PropSpNc.good_names o /\ w_date o = true /\ w_clobber o = true /\ same_names o r.

(** ** a single file *)
Definition turned (x : sp) : bool := List.length (slat x) =? List.length (slon x).
Definition one_field (x : sp) (ts : list R) (t : nat) (g : sp) : Prop :=
  single_grid (rows (sdata x)) (cols (sdata x)) false g /\ slon g = slon x /\ slat g = slat x /\ sfill g = sfill x /\ stime g = TScalar (nth t ts 0%R) /\ smonth g = TScalar (grace_month (nth t ts 0%R)) /\
  forall i j, i < rows (sdata x) -> j < cols (sdata x) -> seen g i j 0 = if turned x then shown x j i t else shown x i j t.

Lemma axis_list_ok l a : axis_back l a -> axis_list a = Ok l.
Proof.
  intros (d & -> & H). unfold axis_list.
  assert (G : forall l, is_axis l d -> mapM (fun i => match cell d [i] with Some t => Ok t | None => Err OtherExn end) (seq 0 (List.length l)) = Ok l).
  { clear. intros l (_ & C). assert (G : forall k l0, (forall i, i < List.length l0 -> cell d [k + i] = Some (nth i l0 0%R)) -> mapM (fun i => match cell d [i] with Some t => Ok t | None => Err OtherExn end) (seq k (List.length l0)) = Ok l0).
    { intros k l0. revert k. induction l0 as [|z l0 IH]; intros k HC; [reflexivity|]. cbn [List.length seq mapM]. pose proof (HC 0 ltac:(cbn; lia)) as H0. rewrite Nat.add_0_r in H0. rewrite H0. cbn [nth bind]. rewrite (IH (S k)); [reflexivity|].
      intros i L. replace (S k + i) with (k + S i) by lia. apply (HC (S i)). cbn. lia. }
    apply G. exact C. }
  destruct l as [|x [|y l]].
  - pose proof H as (SH & _). rewrite SH. now apply (G []).
  - destruct H as (SH & C). now rewrite SH, C.
  - pose proof H as (SH & _). rewrite SH. now apply G.
Qed.
Lemma slice_writable k x n ts ms t r : fields_series x n ts -> smonth x = TArr ms -> sheq r (slice_sp x t ts ms) -> swf r /\ writable k true r.
Proof.
  intros ((W1 & W2 & W3 & W4 & W5) & C & D & T & _) M (((S1 & S2 & S3) & _) & ((K1 & K2 & K3) & _) & SE & L1 & L2 & L3 & _). cbn in *.
  assert (W : swf r). { pose proof W1 as (P1 & P2 & P3). split; [repeat split; congruence|]. split.
    - intros e E. rewrite E in SE. destruct (serr x) as [e'|] eqn:EX; [|destruct SE]. destruct SE as ((E1 & E2 & E3) & _). destruct (W2 e' eq_refl) as (Q1 & Q2 & Q3). cbn in *. repeat split; congruence.
    - split; [congruence|]. split; [congruence|]. rewrite S3. exact Logic.I. }
  split; [exact W|]. split; [exact W|]. split; [intros _ _; eauto|discriminate].
Qed.
Lemma shown_slice x n ts ms t r i j : fields_series x n ts -> smonth x = TArr ms -> t < n -> sheq r (slice_sp x t ts ms) -> i < rows (sdata x) -> j < cols (sdata x) ->
  (if absent true r i j 0 then None else came_back true r i j 0) = shown x i j t.
Proof.
  intros ((W1 & W2 & W3 & W4 & W5) & C & D & T & _) M TN (((S1 & S2 & S3) & GD) & ((K1 & K2 & K3) & GK) & _ & _ & _ & _ & _ & SF) I J. cbn in S1, S2, S3.
  cbn in SF, K1, K2, K3. pose proof W1 as (P1 & P2 & P3).
  assert (ED : get (sdata r) i j 0 = get (sdata x) i j t). { rewrite GD; [reflexivity|]. repeat split; [lia|lia|]. unfold nslice. rewrite S3. lia. }
  assert (EK : get (smask r) i j 0 = get (smask x) i j t). { rewrite GK; [reflexivity|]. repeat split; [lia|lia|]. unfold nslice. rewrite K3. lia. }
  unfold absent, came_back, absent, shown, seen. rewrite SF, ED, EK. destruct (sfill x) as [f|] eqn:F; [|reflexivity]. cbn [andb].
  destruct (C f F i j t) as (C1 & C2). { repeat split; [exact I|exact J|]. unfold nslice. now rewrite D. }
  destruct (get (smask x) i j t); [reflexivity|]. destruct (C2 eq_refl) as (C3 & C4). rewrite C3, C4. cbn [orb]. reflexivity.
Qed.
Lemma month_file k s o r x n ts ms t p fs : options o r -> fields_series x n ts -> smonth x = TArr ms -> t < n ->
  exists g fs' x' y h, sindex x (Z.of_nat t) = Ok g /\ write_file k s o (mksobj g (Some [])) p fs = (fs', x', Ok tt) /\ (forall q, q <> p -> fs' q = fs q) /\
    read_file r p fs' = Ok y /\ as_grid y = Ok h /\ one_field x ts t h.
Proof.
  intros (P & GN & DT & CL & SN) SE M TN. pose proof SE as (W & C & D & T & NA & NO). pose proof W as (_ & _ & W3 & W4 & _).
  destruct (sindex_spec x n ts ms t W C D T M TN) as (g & EG & SH); [congruence|congruence|]. destruct (slice_writable k x n ts ms t g SE M SH) as (WG & WR).
  pose proof (C122_written k s o (mksobj g (Some [])) [] p fs P GN) as WT. pose proof (C122_roundtrip k s o r (mksobj g (Some [])) [] p fs P GN) as RT. rewrite DT in WT, RT. cbn [x_sp x_attrs] in *.
  assert (FR : free o fs p) by now left. assert (ST : storable (root [])) by (split; constructor).
  destruct (WT FR eq_refl ST WR) as (f & x' & EW & _). specialize (RT FR eq_refl ST WR SN). rewrite EW in RT.
  pose proof SH as (((S1 & S2 & S3) & _) & _ & _ & L1 & L2 & L3 & L4 & L5). cbn in S1, S2, S3, L1, L2, L3, L4, L5. rewrite L1, L2 in RT.
  assert (NS : nslice (sdata g) = 1) by (unfold nslice; now rewrite S3). rewrite NS in RT.
  assert (SHW := shown_slice x n ts ms t g).
  assert (ADJ : adjust_months [grace_month (nth t ts 0%R)] = [grace_month (nth t ts 0%R)]) by (apply adjust_nodup; constructor; [intros []|constructor]).
  exists g, (put fs p f), x'.
  unfold layout in RT. rewrite (proj2 (Nat.eqb_neq _ _) NA), (proj2 (Nat.eqb_neq _ _) NO) in RT. cbn [Nat.eqb] in RT. destruct (List.length (slat x) =? List.length (slon x)) eqn:SQ.
  - apply Nat.eqb_eq in SQ. destruct RT as (y & RD & (Q1 & Q2 & QV & QF & QE & QL & QA & QT & QM & _)).
    exists y. eexists. split; [exact EG|]. split; [exact EW|]. split. { intros q NQ. unfold put. destruct (String.eqb_spec q p); congruence. } split; [exact RD|]. rewrite L1 in QL. rewrite L2 in QA.
    split; [unfold as_grid; rewrite Q1, (axis_list_ok _ _ QL), (axis_list_ok _ _ QA); cbn [bind]; reflexivity|].
    rewrite DT in QT, QM. unfold times in QT, QM. rewrite L3 in QT, QM. cbn [map] in QM. rewrite ADJ in QM. cbn [tsqueeze] in QT, QM. cbn [tsqueeze] in QM.
    split; [|cbn [slon slat sfill stime smonth]; repeat split; [congruence|exact QT|exact QM|]].
    + split; [|cbn; repeat split; [congruence|congruence|do 2 eexists; split; [exact QT|exact QM]|now rewrite QE]]. refine (conj _ (conj _ (conj _ (conj _ Logic.I)))); [repeat split|intros e' E'; cbn in E'; rewrite QE in E'; discriminate|cbn; congruence|cbn; congruence].
    + intros i j I J. unfold seen, turned. cbn [smask sdata get]. rewrite (proj2 (Nat.eqb_eq _ _) SQ). rewrite <- (SHW j i SE M TN SH) by congruence.
      destruct (QV j i 0) as (V1 & V2). { repeat split; [congruence|congruence|rewrite NS; lia]. } rewrite DT in V1, V2. rewrite V1, V2. reflexivity.
  - pose proof SQ as SQ'. apply Nat.eqb_neq in SQ. destruct RT as (y & RD & (Q1 & Q2 & QV & QF & QE & QL & QA & QT & QM & _)).
    exists y. eexists. split; [exact EG|]. split; [exact EW|]. split. { intros q NQ. unfold put. destruct (String.eqb_spec q p); congruence. } split; [exact RD|]. rewrite L1 in QL. rewrite L2 in QA.
    split; [unfold as_grid; rewrite Q1, (axis_list_ok _ _ QL), (axis_list_ok _ _ QA); cbn [bind]; reflexivity|].
    rewrite DT in QT, QM. unfold times in QT, QM. rewrite L3 in QT, QM. cbn [map] in QM. rewrite ADJ in QM. cbn [tsqueeze] in QT, QM. cbn [tsqueeze] in QM.
    split; [|cbn [slon slat sfill stime smonth]; repeat split; [congruence|exact QT|exact QM|]].
    + split; [|cbn; repeat split; [congruence|congruence|do 2 eexists; split; [exact QT|exact QM]|now rewrite QE]]. refine (conj _ (conj _ (conj _ (conj _ Logic.I)))); [repeat split|intros e' E'; cbn in E'; rewrite QE in E'; discriminate|cbn; congruence|cbn; congruence].
    + intros i j I J. unfold seen, turned. cbn [smask sdata get]. rewrite SQ'. rewrite <- (SHW i j SE M TN SH) by congruence.
      destruct (QV i j 0) as (V1 & V2). { repeat split; [congruence|congruence|rewrite NS; lia]. } rewrite DT in V1, V2. rewrite V1, V2. reflexivity.
Qed.

(** ** the files of an index *)
Lemma read_same r p fs fs' : fs p = fs' p -> read_file r p fs = read_file r p fs'.
Proof. intros H. unfold read_file. now rewrite H. Qed.
Lemma series_months x n ts : fields_series x n ts -> exists ms, smonth x = TArr ms /\ List.length ts = n /\ List.length ms = n.
Proof. intros ((_ & _ & _ & _ & W) & _ & D & T & _). rewrite D in W. destruct W as (ts' & ms & T' & M & L1 & L2). rewrite T in T'. injection T' as <-. eauto. Qed.
Lemma write_index_ok home cwd k s o r x n ts : place home cwd -> fields_series x n ts -> options o r ->
  forall names i fs, NoDup (map (absolute home cwd) names) -> i + List.length names <= n -> exists fs',
    to_index home cwd (Some k) s o x names i fs = (flat_map (fun f => app (compress home cwd f) [newline]) names, fs', Ok tt) /\
    (forall q, ~ In q (map (fun f => key (absolute home cwd f)) names) -> fs' q = fs q) /\
    forall j f, nth_error names j = Some f -> exists y h, read_file r (key (absolute home cwd f)) fs' = Ok y /\ as_grid y = Ok h /\ one_field x ts (i + j) h.
Proof.
  intros PL SE OP. destruct (series_months x n ts SE) as (ms & M & _). induction names as [|f names IH]; intros i fs ND LE.
  - exists fs. split; [reflexivity|]. split; [reflexivity|]. intros [|j] f H; discriminate.
  - cbn [List.length map] in LE, ND. inversion ND as [|? ? NI ND']; subst. cbn [to_index flat_map].
    destruct (month_file k s o r x n ts ms i (key (absolute home cwd f)) fs OP SE M) as (g & fs1 & x1 & y & h & EG & W & OT & R & AG & OF); [lia|].
    rewrite EG, W. destruct (IH (S i) fs1 ND') as (fs' & E & OT' & RD); [lia|]. rewrite E. exists fs'. split; [reflexivity|]. split.
    + intros q NQ. cbn [map In] in NQ. rewrite OT' by tauto. apply OT. intros ->. tauto.
    + intros [|j] g' H; cbn [nth_error] in H.
      * injection H as <-. exists y, h. rewrite Nat.add_0_r. split; [|split; [exact AG|exact OF]]. rewrite <- R. apply read_same. apply OT'. intros X. apply NI. apply in_map_iff in X as (g' & KE & IG). apply key_inj in KE. rewrite <- KE. now apply in_map.
      * destruct (RD j g' H) as (y' & h' & R' & A' & O'). exists y', h'. split; [exact R'|]. split; [exact A'|]. now replace (i + S j) with (S i + j) by lia.
Qed.
Lemma search_found ls fs p f : fs (key p) = Some f -> search ls fs p = Ok p.
Proof. intros H. unfold search, resolve. now rewrite H. Qed.
Lemma read_index_ok home cwd ls r x ts fs : place home cwd -> forall names i,
  (forall j f, nth_error names j = Some f -> exists y h, read_file r (key (absolute home cwd f)) fs = Ok y /\ as_grid y = Ok h /\ one_field x ts (i + j) h) ->
  exists ys hs, mapM (read_entry home cwd ls fs r) (map (compress home cwd) names) = Ok ys /\ mapM as_grid ys = Ok hs /\ List.length hs = List.length names /\
    forall j, j < List.length names -> one_field x ts (i + j) (nth j hs sdummy).
Proof.
  intros PL. induction names as [|f names IH]; intros i H.
  - exists [], []. split; [reflexivity|]. split; [reflexivity|]. split; [reflexivity|]. intros j J. cbn in J. lia.
  - destruct (H 0 f eq_refl) as (y & h & R & AG & SF). rewrite Nat.add_0_r in SF. destruct (IH (S i)) as (ys & hs & E & E2 & L & V). { intros j g G. destruct (H (S j) g G) as (y' & h' & R' & A' & S'). exists y', h'. split; [exact R'|]. split; [exact A'|]. now replace (S i + j) with (i + S j) by lia. }
    exists (y :: ys), (h :: hs). cbn [map mapM]. unfold read_entry at 1. rewrite (absolute_compress _ _ _ PL).
    assert (X : exists g, fs (key (absolute home cwd f)) = Some g). { unfold read_file in R. destruct (fs (key (absolute home cwd f))); [eauto|discriminate]. } destruct X as (g & G). rewrite (search_found ls fs _ g G). cbn [bind]. rewrite R. cbn [bind]. rewrite E. cbn [bind]. split; [reflexivity|].
    rewrite AG, E2. cbn [bind]. split; [reflexivity|]. split; [cbn; now rewrite L|].
    intros [|j] J; cbn [nth List.length] in *; [now rewrite Nat.add_0_r|]. replace (i + S j) with (S i + j) by lia. apply V. lia.
Qed.
Lemma hide_shown x i j t : clean x -> i < rows (sdata x) -> j < cols (sdata x) -> t < nslice (sdata x) -> hide (sfill x) (shown x i j t) = shown x i j t.
Proof.
  intros C I J T. unfold hide, shown. destruct (sfill x) as [f|] eqn:F; [|now destruct (get (sdata x) i j t)]. destruct (C f F i j t) as (_ & C2); [repeat split; assumption|].
  unfold seen. destruct (get (smask x) i j t); [reflexivity|]. destruct (C2 eq_refl) as (_ & V). destruct (get (sdata x) i j t) as [y|]; [|reflexivity]. destruct f as [z|]; [|reflexivity]. cbn in V. destruct (Req_EM_T y z); [discriminate|reflexivity].
Qed.

(** ** C124: the files of an index give the fields again; with fewer names than fields, the first ones.  The order is that of the list (sort=False) or of the times.
    On a square grid the values come back with latitudes and longitudes exchanged *)
Theorem C124_index : forall home cwd ls k s o r x n ts names fs order, place home cwd -> PropNcIndex.good_names home cwd names -> fields_series x n ts -> options o r -> 1 <= List.length names <= n ->
  (order = seq 0 (List.length names) \/ (Permutation order (seq 0 (List.length names)) /\ StronglySorted Rle (map (fun i => nth i ts 0%R) order) /\ forall a b, a < b < n -> (nth a ts 0 < nth b ts 0)%R)) ->
  exists index_file fs' q, to_index home cwd (Some k) s o x names 0 fs = (index_file, fs', Ok tt) /\ from_index home cwd ls (Some k) order r index_file fs' = Ok q /\
    (forall p, ~ In p (map (fun f => key (absolute home cwd f)) names) -> fs' p = fs p) /\
    first_fields (List.length (slat x) =? List.length (slon x)) x q (List.length names) ts.
Proof.
  intros home cwd ls k s o r x n ts names fs order PL (GC & GN) SE OP LN OR.
  destruct (write_index_ok home cwd k s o r x n ts PL SE OP names 0 fs GN) as (fs' & E & OT & RD); [lia|].
  destruct (read_index_ok home cwd ls r x ts fs' PL names 0 RD) as (ys & hs & EY & EH & LH & VH). cbn [Nat.add] in VH.
  pose proof SE as (W & C & D & T & NA & NO). destruct (series_months x n ts SE) as (ms & M & LT & LM).
  exists (flat_map (fun f => app (compress home cwd f) [newline]) names), fs'. unfold from_index. rewrite (lines_of _ _ _ PL GC), EY. cbn [bind]. rewrite EH. cbn [bind].
  set (kk := List.length names) in *. clearbody kk.
  assert (OI : order = seq 0 kk). { destruct OR as [->|(PM & SO & IN)]; [reflexivity|]. apply (PropTrendMap.argsort_id (fun i => nth i ts 0%R)); [|exact PM|exact SO]. intros a b AB. apply IN. lia. }
  subst order. clear OR. destruct hs as [|h0 hs0] eqn:EHS; [cbn in LH; lia|]. rewrite <- EHS in *.
  assert (ALL : forall h, In h hs -> exists j, j < kk /\ h = nth j hs sdummy). { intros h H. destruct (In_nth _ _ sdummy H) as (j & J & <-). exists j. split; [lia|reflexivity]. }
  destruct (sfrom_list_spec hs (seq 0 kk) h0 hs0 (rows (sdata x)) (cols (sdata x)) false EHS) as (q & EQ & _ & QR & QC & QD & QL & QA & QF & _ & QT & QM & QV).
  { intros h H. destruct (ALL h H) as (j & J & ->). apply VH, J. }
  { rewrite LH. apply Permutation_refl. }
  exists q. split; [exact E|]. split; [exact EQ|]. split; [exact OT|].
  assert (SORT : map (fun i => nth i hs sdummy) (seq 0 kk) = hs) by (rewrite firstn_nth by lia; rewrite <- LH; apply firstn_all). rewrite SORT in QT, QM, QV.
  assert (H0 : h0 = nth 0 hs sdummy) by (rewrite EHS; reflexivity). destruct (VH 0) as (_ & O1 & O2 & O3 & _); [lia|]. rewrite <- H0 in O1, O2, O3.
  assert (TT : map stime_of hs = firstn kk ts). { rewrite <- (firstn_nth 0%R) by lia. rewrite <- SORT, map_map. apply map_ext_in. intros j J. apply in_seq in J. destruct (VH j) as (_ & _ & _ & _ & A & _); [lia|]. unfold stime_of. now rewrite A. }
  assert (MM : map smonth_of hs = map grace_month (firstn kk ts)). { rewrite <- (firstn_nth 0%R) by lia. rewrite <- SORT, !map_map. apply map_ext_in. intros j J. apply in_seq in J. destruct (VH j) as (_ & _ & _ & _ & _ & A & _); [lia|]. unfold smonth_of. now rewrite A. }
  rewrite TT in QT. rewrite MM in QM. unfold first_fields. rewrite QR, QC, QD, QL, QA, QF, O1, O2, O3, LH, QT, QM. do 8 (split; [reflexivity|]).
  intros i j t I J L. destruct (QV i j t I J) as (V & _); [lia|]. rewrite V. destruct (VH t L) as (_ & _ & _ & _ & _ & _ & SN). rewrite (SN i j I J), O3. fold (turned x). destruct W as (_ & _ & W3 & W4 & _).
  assert (NT : t < nslice (sdata x)) by (unfold nslice; rewrite D; lia). unfold turned in *. destruct (List.length (slat x) =? List.length (slon x)) eqn:SQ; apply hide_shown; try assumption. all: apply Nat.eqb_eq in SQ; congruence.
Qed.
(** on a grid that is not square, with a fill value and months that go with the dates, nothing changes *)
Theorem C124_same : forall home cwd ls k s o r x n ts ms names fs, place home cwd -> PropNcIndex.good_names home cwd names -> fields_series x n ts -> options o r -> 1 <= List.length names -> List.length names = n ->
  List.length (slat x) <> List.length (slon x) -> sfill x <> None -> smonth x = TArr ms -> map grace_month ts = ms -> NoDup ms -> 2 <= n ->
  exists index_file fs' q, to_index home cwd (Some k) s o x names 0 fs = (index_file, fs', Ok tt) /\ from_index home cwd ls (Some k) (seq 0 n) r index_file fs' = Ok q /\
    slon q = slon x /\ slat q = slat x /\ sfill q = sfill x /\ stime q = stime x /\ smonth q = smonth x /\ same_shape (sdata q) (sdata x) /\ forall i j t, has x i j t -> seen q i j t = seen x i j t.
Proof.
  intros home cwd ls k s o r x n ts ms names fs PL GN SE OP L1 LN SQ F M MS ND N2.
  destruct (C124_index home cwd ls k s o r x n ts names fs (seq 0 n) PL GN SE OP) as (t & fs' & q & E & E2 & _ & (Q1 & Q2 & Q3 & Q4 & Q5 & Q6 & Q7 & Q8 & Q9)); [lia|left; now rewrite LN|].
  exists t, fs', q. split; [exact E|]. split; [exact E2|]. pose proof SE as (_ & _ & D & T & _). destruct (series_months x n ts SE) as (ms' & M' & LT & LM). rewrite LN in *.
  assert (FT : firstn n ts = ts) by (rewrite <- LT; apply firstn_all). rewrite FT in *. rewrite MS, adjust_nodup in Q8 by exact ND.
  assert (X : tsqueeze (TArr ms) = TArr ms). { assert (LMS : List.length ms = n) by (rewrite <- MS, map_length; exact LT). destruct ms as [|a [|b ms0]]; cbn in LMS; try lia; reflexivity. } rewrite X in Q8.
  rewrite T, M. do 5 (split; [assumption|]). split; [repeat split; congruence|]. intros i j t' (I & J & K). unfold nslice in K. rewrite D in K. rewrite Q9 by assumption. rewrite (proj2 (Nat.eqb_neq _ _) SQ). unfold shown. destruct (sfill x); [reflexivity|congruence].
Qed.
(** REFUTED: on a square grid the values are exchanged, the coordinates are not *)
Theorem C124_square_refuted : forall home cwd ls k s o r x n ts names fs, place home cwd -> PropNcIndex.good_names home cwd names -> fields_series x n ts -> options o r -> 1 <= List.length names <= n ->
  List.length (slat x) = List.length (slon x) -> sfill x <> None ->
  exists index_file fs' q, to_index home cwd (Some k) s o x names 0 fs = (index_file, fs', Ok tt) /\ from_index home cwd ls (Some k) (seq 0 (List.length names)) r index_file fs' = Ok q /\
    slon q = slon x /\ slat q = slat x /\ forall i j t, i < rows (sdata x) -> j < cols (sdata x) -> t < List.length names -> seen q i j t = seen x j i t.
Proof.
  intros home cwd ls k s o r x n ts names fs PL GN SE OP LN SQ F.
  destruct (C124_index home cwd ls k s o r x n ts names fs _ PL GN SE OP LN (or_introl eq_refl)) as (t & fs' & q & E & E2 & _ & (Q1 & Q2 & Q3 & Q4 & Q5 & Q6 & Q7 & Q8 & Q9)).
  exists t, fs', q. do 2 (split; [assumption|]). do 2 (split; [assumption|]). intros i j t' I J K. rewrite Q9 by assumption. rewrite (proj2 (Nat.eqb_eq _ _) SQ). unfold shown. destruct (sfill x); [reflexivity|congruence].
Qed.
(** more names than fields: the call fails after all fields have been written, and the index lists one file too many *)
Theorem C124_too_many_names : forall home cwd k s o r x n ts names more fs f, place home cwd -> PropNcIndex.good_names home cwd names -> fields_series x n ts -> options o r -> List.length names = n ->
  exists fs', to_index home cwd (Some k) s o x (app names (f :: more)) 0 fs = (flat_map (fun f => app (compress home cwd f) [newline]) (app names [f]), fs', Err IndexError) /\
    forall j g, nth_error names j = Some g -> exists y h, read_file r (key (absolute home cwd g)) fs' = Ok y /\ as_grid y = Ok h /\ one_field x ts j h.
Proof.
  intros home cwd k s o r x n ts names more fs f PL (_ & GN) SE OP LN.
  destruct (write_index_ok home cwd k s o r x n ts PL SE OP names 0 fs GN) as (fs' & E & _ & RD); [lia|]. exists fs'. split; [|exact RD].
  pose proof SE as (_ & _ & D & _). assert (G : forall names i fs fs' t, to_index home cwd (Some k) s o x names i fs = (t, fs', Ok tt) -> i + List.length names = n ->
    to_index home cwd (Some k) s o x (app names (f :: more)) i fs = (app t (app (compress home cwd f) [newline]), fs', Err IndexError)).
  { clear - D. induction names as [|g names IH]; intros i fs fs' t H L; cbn [app to_index List.length] in *.
    - injection H as <- <-. unfold sindex. rewrite D. unfold py_index. replace (_ && _)%bool with false; [reflexivity|]. symmetry. apply andb_false_iff. right. apply Z.ltb_ge. destruct (Z.of_nat i <? 0)%Z eqn:X; [apply Z.ltb_lt in X; lia|]. lia.
    - destruct (sindex x (Z.of_nat i)) as [h|e]; [|discriminate]. destruct (write_file k s o (mksobj h (Some [])) (key (absolute home cwd g)) fs) as [[fs1 x1] [u|e]]; [|discriminate].
      destruct (to_index home cwd (Some k) s o x names (S i) fs1) as [[t2 fs2] r2] eqn:E2. injection H as <- <- ->. rewrite (IH _ _ _ _ E2) by lia. rewrite <- !app_assoc. reflexivity. }
  rewrite (G names 0 fs fs' _ E) by lia. rewrite flat_map_app. cbn [flat_map]. now rewrite app_nil_r.
Qed.
(** REFUTED: an unknown format is not reported on writing: the index lists files that were not written.  Reading an index of no files, or with an unknown format, is an IndexError *)
Theorem C124_unknown_format_refuted : forall home cwd ls k s o r x n ts names fs order index_file, fields_series x n ts -> List.length names <= n ->
  to_index home cwd None s o x names 0 fs = (flat_map (fun f => app (compress home cwd f) [newline]) names, fs, Ok tt) /\
  from_index home cwd ls None order r index_file fs = Err IndexError /\ from_index home cwd ls (Some k) order r [] fs = Err IndexError.
Proof.
  intros home cwd ls k s o r x n ts names fs order index_file SE LN. split; [|split; reflexivity]. destruct (series_months x n ts SE) as (ms & M & _). pose proof SE as (W & C & D & T & NA & NO). pose proof W as (_ & _ & W3 & W4 & _).
  assert (G : forall names i, i + List.length names <= n -> to_index home cwd None s o x names i fs = (flat_map (fun f => app (compress home cwd f) [newline]) names, fs, Ok tt)); [|apply G; lia].
  clear names LN. induction names as [|f names IH]; intros i H; cbn [to_index flat_map List.length] in *; [reflexivity|].
  destruct (sindex_spec x n ts ms i W C D T M) as (g & EG & _); [lia|congruence|congruence|]. rewrite EG. rewrite IH by lia. reflexivity.
Qed.
(** the hypotheses are met: two names of files for two fields on a grid of 2 latitudes and 3 longitudes, with a masked cell *)
Definition hole (i j t : nat) : bool := (i =? 1) && (j =? 2) && (t =? 0).
Definition two_fields : sp :=
  mksp (mkarr 2 3 (Some 2) (fun i j t => if hole i j t then Some (-9999)%R else Some (INR (i + 2 * j + 6 * t)))) (mkarr 2 3 (Some 2) hole) None [0; 1; 2]%R [1; 0]%R (TArr [2010; 2011]%R) (TArr [97; 109]%Z) (Some (Some (-9999)%R)).
Example C124_example : place (UtilModel.chars "/home/user") (UtilModel.chars "/data") /\ PropNcIndex.good_names (UtilModel.chars "/home/user") (UtilModel.chars "/data") [UtilModel.chars "~/Z_001.nc"; UtilModel.chars "#2.nc"] /\ fields_series two_fields 2 [2010; 2011]%R /\
  options default_opts default_ropts /\ shown two_fields 1 2 0 = None /\ shown two_fields 1 2 1 = Some 11%R /\ (forall a b, a < b < 2 -> (nth a [2010; 2011] 0 < nth b [2010; 2011] 0)%R).
Proof.
  split; [split; [eexists; reflexivity|split; [eexists; reflexivity|split; repeat constructor]]|]. split; [split; [repeat constructor|cbn; repeat constructor; cbn; intuition discriminate]|]. split; [|split; [|split; [reflexivity|split]]].
  - split. { unfold swf, same_shape, two_fields; cbn [sdata smask serr slon slat stime smonth rows cols depth List.length]. split; [auto|]. split; [discriminate|]. split; [reflexivity|]. split; [reflexivity|]. exists [2010; 2011]%R, [97; 109]%Z. auto. }
    split; [|repeat split; cbn; discriminate].
    intros f F i j t _. unfold two_fields in *. cbn [sdata smask serr sfill get] in *. injection F as <-. destruct (hole i j t); (split; [intros E; try discriminate E|intros E; try discriminate E]).
    + split; [reflexivity|discriminate].
    + split; [reflexivity|]. cbn [veqb]. destruct (Req_EM_T (INR (i + 2 * j + 6 * t)) (-9999)) as [X|]; [|reflexivity]. pose proof (pos_INR (i + 2 * j + 6 * t)). exfalso. lra.
  - split; [split; reflexivity|]. split; [|repeat split]. unfold PropSpNc.good_names, PropSpNc.names, default_opts; cbn [app w_lon w_lat w_var w_time w_date]; repeat constructor; cbn [In]; intuition discriminate.
  - unfold shown, seen, two_fields. cbn. f_equal. lra.
  - intros a b H. assert (a = 0) as -> by lia. assert (b = 1) as -> by lia. cbn. lra.
Qed.

Lemma lines_of_run : forall home cwd fmt s o x names i fs t fs' r, to_index home cwd fmt s o x names i fs = (t, fs', r) ->
  let lines k := flat_map (fun f => app (compress home cwd f) [newline]) (firstn k names) in
  match r with Ok _ => t = lines (List.length names) | Err _ => exists k, 1 <= k <= List.length names /\ t = lines k end.
Proof.
  intros home cwd fmt s o x names. induction names as [|f rest IH]; intros i fs t fs' r H; cbn [to_index] in H; cbv zeta.
  - injection H as <- <- <-. reflexivity.
  - set (line := app (compress home cwd f) [newline]) in *. destruct (sindex x (Z.of_nat i)) as [g|e].
    + destruct (match fmt with Some k => _ | None => _ end) as [fs1 [u|e]].
      * destruct (to_index home cwd fmt s o x rest (S i) fs1) as [[t2 fs2] r2] eqn:E. injection H as <- <- <-. specialize (IH _ _ _ _ _ E). cbv zeta in IH. destruct r2 as [u2|e].
        -- rewrite IH. reflexivity.
        -- destruct IH as (k & Lk & ->). exists (S k). split; [cbn [List.length]; lia|]. reflexivity.
      * injection H as <- <- <-. exists 1. split; [cbn [List.length]; lia|]. cbn [firstn flat_map]. rewrite app_nil_r. reflexivity.
    + injection H as <- <- <-. exists 1. split; [cbn [List.length]; lia|]. cbn [firstn flat_map]. rewrite app_nil_r. reflexivity.
Qed.
(** whenever writing stops, the index lists the files up to the one that failed, including it; after a complete run it lists all *)
Theorem C124_lines_of_a_run : forall home cwd fmt s o x names fs t fs' r, to_index home cwd fmt s o x names 0 fs = (t, fs', r) ->
  let lines k := flat_map (fun f => app (compress home cwd f) [newline]) (firstn k names) in
  match r with Ok _ => t = lines (List.length names) | Err _ => exists k, 1 <= k <= List.length names /\ t = lines k end.
Proof. intros home cwd fmt s o x names fs t fs' r. apply lines_of_run. Qed.
(** files whose data have not two axes: IndexError if they have fewer, ValueError if they have more; the first such file counts *)
Theorem C124_axes_of_the_files : forall home cwd ls k order o index_file fs good r rest gs,
  mapM (read_entry home cwd ls fs o) (filter is_entry (splitlines index_file)) = Ok (good ++ r :: rest) -> mapM as_grid good = Ok gs -> List.length (shape (q_data r)) <> 2 ->
  from_index home cwd ls (Some k) order o index_file fs = Err (if List.length (shape (q_data r)) <? 2 then IndexError else ValueError).
Proof.
  intros home cwd ls k order o index_file fs good r rest gs E G L. unfold from_index. rewrite E. cbn [bind].
  assert (A : as_grid r = Err (if List.length (shape (q_data r)) <? 2 then IndexError else ValueError)).
  { unfold as_grid. destruct (shape (q_data r)) as [|a [|b [|c l]]]; cbn [List.length] in *; try reflexivity. destruct L. reflexivity. }
  assert (M : forall good gs, mapM as_grid good = Ok gs -> mapM as_grid (good ++ r :: rest) = Err (if List.length (shape (q_data r)) <? 2 then IndexError else ValueError)).
  { clear - A. induction good as [|y good IH]; intros gs G; cbn [app mapM] in *; [rewrite A; reflexivity|]. destruct (as_grid y) as [h|]; [|discriminate]. cbn [bind] in *. destruct (mapM as_grid good) as [hs|] eqn:F; [|discriminate]. rewrite (IH hs eq_refl). reflexivity. }
  rewrite (M _ _ G). reflexivity.
Qed.
