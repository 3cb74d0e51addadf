(** Files of [spatial] objects *)
From Coq Require Import Reals Lra ZifyBool ZifyNat Permutation Sorted.
From Verif Require Import Base TimeModel Arr HarmModel AdjustProofs HarmProofs HarmProofs2 HarmProofs3 SpatialModel SpatialSpec SpatialProofs SpatialProofs2 SpatialProofs3 SpatialProofs4.
Close Scope Z_scope.
Open Scope nat_scope.

(** * integer parts *)
Lemma Rfloor_eq x n : (IZR n <= x < IZR n + 1)%R -> Rfloor x = n.
Proof.
  intros H. unfold Rfloor. destruct (base_Int_part x) as [B1 B2].
  apply Z.le_antisymm.
  - apply Z.lt_succ_r. apply lt_IZR. rewrite succ_IZR. lra.
  - apply Z.lt_succ_r. apply lt_IZR. rewrite succ_IZR. lra.
Qed.
Lemma Rtrunc_eq x n : (0 <= x)%R -> (IZR n <= x < IZR n + 1)%R -> Rtrunc x = n.
Proof. intros H0 H. unfold Rtrunc. destruct (Rlt_dec x 0); [lra|]. now apply Rfloor_eq. Qed.


Lemma grid_col dlon dlat a b lon lat j : global_grid dlon dlat a b lon lat -> j < length lon ->
  Rtrunc (nth j lon 0 / dlon)%R = Z.of_nat j.
Proof.
  intros (H1 & H2 & H3 & H4 & H5 & H6) Hj. rewrite H5 by exact Hj.
  replace ((INR j + a) * dlon / dlon)%R with (INR j + a)%R by (field; lra).
  pose proof (pos_INR j). apply Rtrunc_eq; [lra|]. rewrite <- INR_IZR_INZ. lra.
Qed.
Lemma grid_row dlon dlat a b lon lat i : global_grid dlon dlat a b lon lat -> i < length lat ->
  Rfloor ((90 - nth i lat 0) / dlat)%R = Z.of_nat i.
Proof.
  intros (H1 & H2 & H3 & H4 & H5 & H6) Hj. rewrite H6 by exact Hj.
  replace ((90 - (90 - (INR i + b) * dlat)) / dlat)%R with (INR i + b)%R by (field; lra).
  apply Rfloor_eq. rewrite <- INR_IZR_INZ. lra.
Qed.
Lemma py_index_nat n i : i < n -> py_index n (Z.of_nat i) = Ok i.
Proof.
  intros H. unfold py_index. replace (Z.of_nat i <? 0)%Z with false by lia.
  replace ((0 <=? Z.of_nat i)%Z && (Z.of_nat i <? Z.of_nat n)%Z) with true by lia. now rewrite Nat2Z.id.
Qed.

Lemma upd_same {A} (l : list A) i d : i < length l -> upd l i (nth i l d) = l.
Proof. revert i. induction l as [|x l IH]; intros [|i] H; cbn in *; try lia; auto. f_equal. apply IH. lia. Qed.

Lemma dict_no_time columns nums : ~ In CTime columns -> dict_get CTime (combine columns nums) = None.
Proof.
  revert nums. induction columns as [|c cs IH]; intros [|x xs] H; cbn [combine dict_get]; auto.
  rewrite IH by (intros X; apply H; now right). destruct c; cbn [column_eqb]; auto. exfalso. apply H. now left.
Qed.

Lemma cells_in {A} (a : arr val) (b : arr A) i j : rows a = rows b -> cols a = cols b -> In (i, j) (cells a) <-> i < rows b /\ j < cols b.
Proof.
  intros H1 H2. unfold cells. rewrite in_flat_map. split.
  - intros (x & Hx & H). apply in_map_iff in H as (y & E & Hy). injection E as -> ->. rewrite in_seq in Hx, Hy. lia.
  - intros [K1 K2]. exists i. split; [apply in_seq; lia|]. apply in_map_iff. exists j. split; [reflexivity|]. apply in_seq. lia.
Qed.

(** reading the lines written for a list of cells *)
Lemma read_cells dlon dlat a b s fillv extra : forall ps st,
  global_grid dlon dlat a b (slon s) (slat s) -> slon st = slon s -> slat st = slat s ->
  (forall p, In p ps -> fst p < length (slat s) /\ snd p < length (slon s) /\ exists v, get (sdata s) (fst p) (snd p) 0 = Some v) ->
  serr st = None -> stime st = TNone -> smonth st = TNone -> sfill st = fillv ->
  exists st', read_lines [CLon; CLat; CData] dlon dlat false st
      (map (fun p => [nth (snd p) (slon s) 0%R; nth (fst p) (slat s) 0%R; val_of (get (sdata s) (fst p) (snd p) 0)] ++ extra p) ps) = Ok st' /\
    slon st' = slon s /\ slat st' = slat s /\ serr st' = None /\ stime st' = TNone /\ smonth st' = TNone /\ sfill st' = fillv /\
    same_shape (sdata st') (sdata st) /\ same_shape (smask st') (smask st) /\
    (forall i j t, In (i, j) ps -> get (sdata st') i j t = get (sdata s) i j 0 /\ get (smask st') i j t = false) /\
    (forall i j t, ~ In (i, j) ps -> get (sdata st') i j t = get (sdata st) i j t /\ get (smask st') i j t = get (smask st) i j t).
Proof.
  induction ps as [|[i0 j0] ps IH]; intros st G L1 L2 Hp E1 E2 E3 E4; cbn [map read_lines].
  - exists st. repeat (split; [assumption || reflexivity|]). split; [repeat split|]. split; [repeat split|]. split; [intros i j t []|]. split; reflexivity.
  - destruct (Hp (i0, j0) (or_introl eq_refl)) as (Hi & Hj & v & Hv). cbn [fst snd] in *. rewrite Hv. cbn [val_of].
    unfold read_line. cbn [app combine dict_req].
    assert (dict_get CLon ((CLon, nth j0 (slon s) 0%R) :: (CLat, nth i0 (slat s) 0%R) :: (CData, v) :: []) = Some (nth j0 (slon s) 0%R)) as D1 by reflexivity.
    assert (dict_get CLat ((CLon, nth j0 (slon s) 0%R) :: (CLat, nth i0 (slat s) 0%R) :: (CData, v) :: []) = Some (nth i0 (slat s) 0%R)) as D2 by reflexivity.
    assert (dict_get CData ((CLon, nth j0 (slon s) 0%R) :: (CLat, nth i0 (slat s) 0%R) :: (CData, v) :: []) = Some v) as D3 by reflexivity.
    unfold dict_req. rewrite D1, D2, D3. cbn [bind].
    rewrite (grid_col _ _ _ _ _ _ j0 G Hj), (grid_row _ _ _ _ _ _ i0 G Hi), L1, L2.
    rewrite (py_index_nat _ j0 Hj), (py_index_nat _ i0 Hi). cbn [bind].
    rewrite !upd_same by assumption.
    set (st1 := mksp _ _ _ _ _ _ _ _).
    destruct (IH st1) as (st' & E & A1 & A2 & A3 & A4 & A5 & A6 & A7 & A8 & A9 & A10); auto.
    { intros p Hin. apply Hp. now right. }
    exists st'. split; [exact E|]. do 6 (split; [assumption|]).
    split; [eapply same_shape_trans; [exact A7|apply set_lm_shape]|]. split; [eapply same_shape_trans; [exact A8|apply set_lm_shape]|].
    assert (DEC : forall i j, In (i, j) ps \/ ~ In (i, j) ps).
    { intros i j. destruct (in_dec (fun x y : nat * nat => ltac:(decide equality; apply Nat.eq_dec)) (i, j) ps); auto. }
    split.
    + intros i j t Hin. destruct (DEC i j) as [K|K]; [now apply A9|].
      destruct Hin as [Hin|Hin]; [injection Hin as -> ->|contradiction].
      destruct (A10 i j t K) as [-> ->]. cbn. rewrite !Nat.eqb_refl. cbn. now rewrite Hv.
    + intros i j t Hin. destruct (A10 i j t) as [-> ->]; [intros X; apply Hin; now right|]. cbn.
      assert ((i =? i0) && (j =? j0) = false) as -> by (destruct (Nat.eqb_spec i i0), (Nat.eqb_spec j j0); auto; subst; exfalso; apply Hin; now left).
      split; reflexivity.
Qed.

(** what a value becomes through the file: missing cells are not written, and the
    reader's array starts from zeros with an all-False mask *)
Lemma s_ascii_roundtrip rd grace fillv dlon dlat a b s : swf s -> clean s -> sfill s <> None -> depth (sdata s) = None ->
  global_grid dlon dlat a b (slon s) (slat s) ->
  (forall x, In x (slon s) \/ In x (slat s) -> rd x = x) ->
  (forall i j v, i < rows (sdata s) -> j < cols (sdata s) -> seen s i j 0 = Some v -> rd v = v) ->
  exists ls r, s_to_ascii rd false s = Ok ls /\
    s_from_ascii grace [CLon; CLat; CData; CTime] (slon s) (slat s) dlon dlat false fillv ls = Ok r /\
    clean r /\ sfill r = fillv /\ slon r = slon s /\ slat r = slat s /\ same_shape (sdata r) (sdata s) /\
    forall i j, i < rows (sdata s) -> j < cols (sdata s) ->
      seen r i j 0 = hide fillv (match seen s i j 0 with Some v => Some v | None => Some 0%R end).
Proof.
  intros W C Hf D G Hc Hd. pose proof W as (Wm & We & W3 & W4 & W5).
  destruct (sfill s) as [f|] eqn:Ef; [|contradiction].
  unfold s_to_ascii. rewrite D, Ef. cbn [bind].
  set (ok := fun p : nat * nat => differs (get (sdata s) (fst p) (snd p) 0) (Some f) && negb (get (smask s) (fst p) (snd p) 0)).
  set (valid := filter _ (cells (sdata s))).
  assert (V : forall i j, i < rows (sdata s) -> j < cols (sdata s) -> (In (i, j) valid <-> seen s i j 0 <> None)).
  { intros i j Hi Hj. unfold valid. rewrite filter_In, (cells_in (sdata s) (sdata s)) by reflexivity. cbn [fst snd].
    assert (has s i j 0) as Hh by (repeat split; auto; unfold nslice; rewrite D; lia).
    destruct (C f Ef i j 0 Hh) as (C1 & C2). unfold seen, differs.
    destruct (get (smask s) i j 0) eqn:K; cbn [negb].
    - split; [intros [_ X]; unfold ok in X; cbn [fst snd] in X; rewrite K, Bool.andb_comm in X; discriminate|congruence].
    - split.
      + intros _ X. destruct (C2 eq_refl) as [X1 X2]. rewrite X in X1. discriminate.
      + intros X. split; [tauto|]. destruct (C2 eq_refl) as [X1 X2]. unfold ok, differs; cbn [fst snd]; rewrite K, X2. reflexivity. }
  assert (VV : forall i j, In (i, j) valid -> i < rows (sdata s) /\ j < cols (sdata s)).
  { intros i j H. apply filter_In in H as [H _]. now apply (cells_in (sdata s) (sdata s)) in H. }
  eexists. 
  assert (EQ : exists extra, map (fun p : nat * nat => [rd (nth (snd p) (slon s) 0%R); rd (nth (fst p) (slat s) 0%R)] ++
        tok rd (get (sdata s) (fst p) (snd p) 0) ++ match serr s with None => [] | Some e => tok rd (get e (fst p) (snd p) 0) end ++ []) valid =
        map (fun p => [nth (snd p) (slon s) 0%R; nth (fst p) (slat s) 0%R; val_of (get (sdata s) (fst p) (snd p) 0)] ++ extra p) valid).
  { exists (fun p => match serr s with None => [] | Some e => tok rd (get e (fst p) (snd p) 0) end ++ []).
    apply map_ext_in. intros [i j] H. destruct (VV i j H) as [H1 H2]. apply (V i j H1 H2) in H. cbn [fst snd].
    rewrite (Hc (nth j (slon s) 0%R)) by (left; apply nth_In; lia). rewrite (Hc (nth i (slat s) 0%R)) by (right; apply nth_In; lia).
    unfold seen in H. destruct (get (smask s) i j 0) eqn:K; [congruence|]. destruct (get (sdata s) i j 0) as [v|] eqn:Q; [|congruence].
    cbn [tok val_of app]. rewrite (Hd i j v) by (auto; unfold seen; now rewrite K). reflexivity. }
  destruct EQ as (extra & EQ).
  set (st := mksp (full (length (slat s)) (length (slon s)) None (Some 0%R)) (full (length (slat s)) (length (slon s)) None false) None (slon s) (slat s) TNone TNone fillv).
  destruct (read_cells dlon dlat a b s fillv extra valid st) as (st' & E & A1 & A2 & A3 & A4 & A5 & A6 & A7 & A8 & A9 & A10); auto.
  { intros [i j] H. destruct (VV i j H) as [H1 H2]. cbn [fst snd]. split; [lia|]. split; [lia|].
    apply (V i j H1 H2) in H. unfold seen in H. destruct (get (smask s) i j 0); [congruence|]. destruct (get (sdata s) i j 0); [eauto|congruence]. }
  exists (um (mksp (sdata st') (smask st') (serr st') (slon st') (slat st') (stime st') TNone (sfill st'))).
  split; [reflexivity|].
  set (p := mksp (sdata st') _ _ _ _ _ _ _).
  assert (Sp : shaped p). { split; [destruct A7 as (X1 & X2 & X3), A8 as (Y1 & Y2 & Y3); repeat split; cbn [p smask sdata]; cbn in *; congruence|]. cbn [p serr]. rewrite A3. discriminate. }
  split. { unfold s_from_ascii. cbn [filter column_eqb negb]. fold st. rewrite EQ, E. cbn [bind]. now apply um_ok. }
  split; [apply um_clean|]. destruct (um_coord p) as (U1 & U2 & U3 & U4 & U5). destruct (um_shape p Sp) as (_ & V1).
  rewrite U1, U2, U5. cbn [p slon slat sfill]. split; [exact A6|]. split; [exact A1|]. split; [exact A2|].
  split. { eapply same_shape_trans; [exact V1|]. cbn [p sdata]. destruct A7 as (X1 & X2 & X3). cbn in X1, X2, X3. repeat split; congruence. }
  intros i j Hi Hj. rewrite um_seen. cbn [p sfill]. rewrite A6. f_equal. unfold seen at 1. cbn [p smask sdata].
  destruct (seen s i j 0) as [v|] eqn:Q.
  - destruct (A9 i j 0) as [-> ->]; [apply V; auto; congruence|]. unfold seen in Q. now destruct (get (smask s) i j 0).
  - destruct (A10 i j 0) as [-> ->]; [intros X; apply V in X; auto; congruence|]. reflexivity.
Qed.

(** with a date the time column is dropped before it is looked up *)
Lemma s_from_ascii_date grace columns lon0 lat0 dlon dlat fillv l ls r :
  s_from_ascii grace columns lon0 lat0 dlon dlat true fillv (l :: ls) <> Ok r.
Proof.
  unfold s_from_ascii. set (cs := filter _ columns). cbn [read_lines]. unfold read_line.
  assert (N : ~ In CTime cs). { intros X. apply filter_In in X as [_ X]. discriminate. }
  destruct (dict_req CLon _); cbn [bind]; [|discriminate]. destruct (dict_req CLat _); cbn [bind]; [|discriminate].
  destruct (py_index _ _); cbn [bind]; [|discriminate]. destruct (py_index _ _); cbn [bind]; [|discriminate].
  destruct (dict_req CData _); cbn [bind]; [|discriminate].
  unfold dict_req. rewrite (dict_no_time cs l N). cbn. discriminate.
Qed.
(** the exact outcome on a file that is otherwise readable *)
Lemma s_from_ascii_date_key grace lon0 lat0 dlon dlat fillv x y v rest ls i j : 
  py_index (length lon0) (Rtrunc (x / dlon)) = Ok j -> py_index (length lat0) (Rfloor ((90 - y) / dlat)) = Ok i ->
  s_from_ascii grace [CLon; CLat; CData; CTime] lon0 lat0 dlon dlat true fillv ((x :: y :: v :: rest) :: ls) = Err KeyError.
Proof. intros H1 H2. unfold s_from_ascii. cbn [filter column_eqb negb read_lines]. unfold read_line. cbn. rewrite H1. cbn. rewrite H2. reflexivity. Qed.

(** * netCDF4 and HDF5 *)
Lemma nc_roundtrip_spatial date s : swf s -> clean s -> sfill s <> None -> rows (sdata s) <> 1 -> cols (sdata s) <> 1 ->
  exists w r, nc_write date s = Ok w /\ nc_read w = Ok r /\ clean r /\ slon r = slon s /\ slat r = slat s /\ sfill r = sfill s /\
    let transposed := match depth (sdata s) with Some 1 | None => length (slat s) =? length (slon s) | _ => false end in
    rows (sdata r) = rows (sdata s) /\ cols (sdata r) = cols (sdata s) /\
    depth (sdata r) = (match depth (sdata s) with Some 1 => None | d => d end) /\
    forall i j t, has s i j t -> seen r i j t = if transposed then seen s j i t else seen s i j t.
Proof.
  intros W C Hf N1 N2. pose proof W as (Wm & We & W3 & W4 & W5). pose proof (swf_shaped s W) as Sh.
  destruct (sfill s) as [f|] eqn:Ef; [|contradiction].
  (* the stored object: same data, depth 1 added for a dated single grid *)
  assert (exists w, nc_write date s = Ok w /\ rows (sdata w) = rows (sdata s) /\ cols (sdata w) = cols (sdata s) /\
     (depth (sdata w) = depth (sdata s) \/ (depth (sdata s) = None /\ depth (sdata w) = Some 1)) /\
     slon w = slon s /\ slat w = slat s /\ sfill w = Some f /\
     (forall i j t, has s i j t -> get (sdata w) i j t = get (sdata s) i j t)) as (w & Ew & R1 & R2 & R3 & L1 & L2 & F1 & G).
  { unfold nc_write. destruct date; [|exists s; repeat split; auto].
    unfold sexpand. set (p := mksp _ _ _ _ _ _ _ _).
    assert (GX : forall A (a : arr A), rows (gexpand a) = rows a /\ cols (gexpand a) = cols a /\
       (depth (gexpand a) = match depth a with None => Some 1 | d => d end)) by (intros A a; unfold gexpand; destruct (depth a) eqn:Q; cbn; rewrite ?Q; auto).
    assert (Sp : shaped p).
    { destruct Wm as (M1 & M2 & M3). destruct (GX _ (smask s)) as (X1 & X2 & X3), (GX _ (sdata s)) as (Y1 & Y2 & Y3).
      split; [repeat split; cbn [p smask sdata]; try congruence; rewrite X3, Y3, M3; reflexivity|]. cbn [p serr sdata]. intros e He. destruct (serr s) as [e0|] eqn:Q; [|discriminate]. injection He as <-.
      destruct (We e0 eq_refl) as (E1 & E2 & E3). destruct (GX _ e0) as (Z1 & Z2 & Z3). repeat split; try congruence; rewrite Z3, Y3, E3; reflexivity. }
    exists (um p). split; [now apply um_ok|]. destruct (um_coord p) as (U1 & U2 & U3 & U4 & U5). destruct (um_shape p Sp) as (_ & V1 & V2 & V3).
    rewrite U1, U2, U5, V1, V2, V3. cbn [p sdata slon slat sfill]. destruct (GX _ (sdata s)) as (Y1 & Y2 & Y3). rewrite Y1, Y2, Y3.
    do 2 (split; [reflexivity|]). split; [destruct (depth (sdata s)); auto|]. do 2 (split; [reflexivity|]). split; [exact Ef|].
    intros i j t Hh. unfold um. cbn [p sfill]. rewrite Ef. cbn [sdata masked_set get um_mask smask p].
    assert (get (gexpand (sdata s)) i j t = get (sdata s) i j t /\ get (gexpand (smask s)) i j t = get (smask s) i j t) as [-> ->].
    { destruct Hh as (_ & _ & Ht). destruct Wm as (M1 & M2 & M3). unfold gexpand, nslice in *. rewrite M3. destruct (depth (sdata s)); [split; reflexivity|]. cbn. assert (t = 0) as -> by lia. split; reflexivity. }
    destruct (C f Ef i j t Hh) as (C1 & C2). destruct (get (smask s) i j t) eqn:K; cbn [orb]; [symmetry; now destruct (C1 eq_refl)|].
    destruct (C2 eq_refl) as [X1 X2]. now rewrite X1, X2. }
  exists w. unfold nc_read.
  destruct (gsqueeze_ok (sdata w)) as (d & Gq & Gr & Gc & Gd & Gv); [congruence|congruence|]. rewrite Gq. cbn [bind].
  set (sq := match depth (sdata s) with Some 1 | None => true | _ => false end).
  assert (Dd : depth d = if sq then None else depth (sdata s)).
  { rewrite Gd. unfold sq. destruct R3 as [->|[-> ->]]; [|reflexivity]. destruct (depth (sdata s)) as [[|[|n]]|]; reflexivity. }
  set (tr := match depth (sdata s) with Some 1 | None => length (slat s) =? length (slon s) | _ => false end).
  set (d' := match depth d with None => if length (slon w) =? rows d then gtrans d else d | Some _ => d end).
  assert (rows d' = rows (sdata s) /\ cols d' = cols (sdata s) /\ depth d' = depth d /\
    forall i j t, has s i j t -> get d' i j t = if tr then get (sdata s) j i t else get (sdata s) i j t) as (D1 & D2 & D3 & D4).
  { assert (GV : forall i j t, has s i j t -> get d i j t = get (sdata s) i j t).
    { intros i j t Hh. rewrite <- (G i j t Hh). apply Gv. destruct Hh as (_ & _ & Ht). unfold nslice in *.
      destruct R3 as [->|[K ->]]; [exact Ht|]. rewrite K in Ht. exact Ht. }
    unfold d'. rewrite Dd. rewrite L1, Gr, R1. unfold sq, tr.
    destruct (depth (sdata s)) as [[|[|n]]|] eqn:Dp; rewrite ?W3, ?W4, ?Gc, ?R2.
    - repeat split; auto; try congruence; try exact Dd.
    - rewrite (Nat.eqb_sym (length (slon s))). destruct (Nat.eqb_spec (length (slat s)) (length (slon s))) as [Q|Q].
      + cbn. repeat split; try congruence; try exact Dd. intros i j t (H1 & H2 & H3). apply GV. repeat split; try lia; exact H3.
      + repeat split; auto; try congruence; exact Dd.
    - repeat split; auto; try congruence; try exact Dd.
    - rewrite (Nat.eqb_sym (length (slon s))). destruct (Nat.eqb_spec (length (slat s)) (length (slon s))) as [Q|Q].
      + cbn. repeat split; try congruence; try exact Dd. intros i j t (H1 & H2 & H3). apply GV. repeat split; try lia; exact H3.
      + repeat split; auto; try congruence; exact Dd. }
  rewrite F1. set (p := mksp _ _ _ _ _ _ _ _).
  assert (Sp : shaped p) by (split; [repeat split|discriminate]).
  exists (um p). split; [exact Ew|]. split; [now apply um_ok|]. split; [apply um_clean|].
  destruct (um_coord p) as (U1 & U2 & U3 & U4 & U5). destruct (um_shape p Sp) as (_ & V1 & V2 & V3).
  rewrite U1, U2, U5, V1, V2, V3. cbn [p sdata slon slat sfill]. split; [exact L1|]. split; [exact L2|]. split; [congruence|].
  fold tr. cbn zeta. split; [exact D1|]. split; [exact D2|]. split.
  { rewrite D3, Dd. unfold sq. destruct (depth (sdata s)) as [[|[|n]]|]; reflexivity. }
  assert (SE : forall i j t, has s i j t -> hide (Some f) (if veqb (get (sdata s) i j t) f then None else get (sdata s) i j t) = seen s i j t).
  { intros i j t Hh. destruct (C f Ef i j t Hh) as (C1 & C2). unfold seen. destruct (get (smask s) i j t) eqn:K.
    - destruct (C1 eq_refl) as [-> _]. destruct f as [fv|]; [|reflexivity]. unfold veqb. destruct (Req_EM_T fv fv); [reflexivity|congruence].
    - destruct (C2 eq_refl) as [X1 X2]. rewrite X2. destruct (get (sdata s) i j t) as [v|]; [|discriminate]. unfold hide.
      destruct f as [fv|]; [|reflexivity]. unfold veqb in X2. destruct (Req_EM_T v fv); [discriminate|reflexivity]. }
  intros i j t Hh. rewrite um_seen. cbn [p sfill]. unfold seen at 1. cbn [p smask sdata get]. rewrite D4 by exact Hh.
  destruct tr eqn:Tr; [|now apply SE].
  apply SE. destruct Hh as (H1 & H2 & H3). unfold tr in Tr. destruct (depth (sdata s)) as [[|[|n]]|]; try discriminate; apply Nat.eqb_eq in Tr; repeat split; try lia; exact H3.
Qed.
