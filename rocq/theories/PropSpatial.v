(** Properties C33-C38 and C65-C67: class spatial and scaling_factors
    (gravity_toolkit/spatial.py).  [seen s i j t] is what the user reads in a
    cell (a number, or nothing if masked or NaN), [clean s] says that masked cells
    hold the fill value and other cells are numbers different from it, [hide f v]
    is v unless v equals the fill value (see SpatialSpec.v). *)
From Coq Require Import Reals Lra ZifyBool ZifyNat Permutation Sorted.
From Verif Require Import Base TimeModel Arr HarmModel AdjustProofs HarmProofs HarmProofs2 HarmProofs3 SpatialModel SpatialSpec
  SpatialProofs SpatialProofs2 SpatialProofs3 SpatialProofs4 SpatialProofs5 SpatialProofs6 SpatialHeap.
Close Scope Z_scope.
Open Scope nat_scope.

(** ** concrete objects: a 2 x 3 grid and a 2-epoch series with a masked cell (0,1) *)
Definition ngrid {A} (d : A) (l : list (list A)) : arr A :=
  mkarr (length l) (match l with r :: _ => length r | [] => 0 end) None (fun i j _ => nth j (nth i l []) d).
Definition ex_sp : sp := mksp
  (ngrid None [[Some 1%R; Some (-99)%R; Some 3%R]; [Some 4%R; Some 5%R; Some 6%R]])
  (ngrid false [[false; true; false]; [false; false; false]]) None
  [1/2; 3/2; 5/2]%R [89 + 1/2; 88 + 1/2]%R (TScalar 2005%R) (TScalar 37%Z) (Some (Some (-99)%R)).
Definition ex_ser : sp := mksp
  (mkarr 2 2 (Some 2) (fun i j t => nth t (nth (2 * i + j) [[Some 1; Some 2]; [Some (-99); Some (-99)]; [Some 3; Some 5]; [Some 4; Some 8]]%R []) None))
  (mkarr 2 2 (Some 2) (fun i j t => (i =? 0) && (j =? 1))) None
  [1/2; 3/2]%R [89 + 1/2; 88 + 1/2]%R (TArr [2005; 2006]%R) (TArr [37; 49]%Z) (Some (Some (-99)%R)).

Ltac two i := destruct i as [|[|i]]; [| |exfalso; lia].
Ltac three i := destruct i as [|[|[|i]]]; [| | |exfalso; lia].
Lemma ex_sp_ok : swf ex_sp /\ clean ex_sp /\ sfill ex_sp <> None /\ depth (sdata ex_sp) = None /\ rows (sdata ex_sp) = 2 /\ cols (sdata ex_sp) = 3.
Proof.
  split; [repeat split; discriminate|]. split; [|repeat split; discriminate].
  intros f F i j t (H1 & H2 & H3). injection F as <-. cbn in H1, H2, H3. two i; three j; cbn; split; intros K; try discriminate; split; try reflexivity; try discriminate;
    unfold veqb; (destruct (Req_EM_T _ _); [lra|reflexivity]).
Qed.
Lemma ex_ser_ok : swf ex_ser /\ clean ex_ser /\ sfill ex_ser <> None /\ depth (sdata ex_ser) = Some 2.
Proof.
  split. { split; [repeat split|]. split; [discriminate|]. split; [reflexivity|]. split; [reflexivity|]. do 2 eexists. repeat split. }
  split; [|repeat split; discriminate].
  intros f F i j t (H1 & H2 & H3). injection F as <-. cbn in H1, H2, H3. two i; two j; two t; cbn; split; intros K; try discriminate; split; try reflexivity; try discriminate;
    unfold veqb; (destruct (Req_EM_T _ _); [lra|reflexivity]).
Qed.

(** ** C33 *)
Theorem C33_update_mask : forall s, swf s -> exists r r', update_mask s = Ok r /\ update_mask r = Ok r' /\ sheq r' r /\ clean r /\
  same_shape (sdata r) (sdata s) /\ slon r = slon s /\ slat r = slat s /\ stime r = stime s /\ smonth r = smonth s /\ sfill r = sfill s /\
  (forall i j t, seen r i j t = hide (sfill s) (seen s i j t)) /\
  (forall i j t, get (smask r) i j t = false -> get (sdata r) i j t = get (sdata s) i j t) /\
  (forall e, serr s = Some e -> exists e', serr r = Some e' /\ forall i j t, get (smask r) i j t = false -> get e' i j t = get e i j t).
Proof.
  intros s W. pose proof (swf_shaped s W) as Sh. destruct (um_shape s Sh) as [S1 S2]. destruct (um_coord s) as (U1 & U2 & U3 & U4 & U5).
  exists (um s), (um (um s)). split; [now apply um_ok|]. split; [now apply um_ok|]. split; [apply um_clean_id; [exact S1|apply um_clean]|].
  split; [apply um_clean|]. split; [exact S2|]. do 5 (split; [assumption|]). split; [intros; apply um_seen|]. split.
  - intros i j t. unfold um. destruct (sfill s); [|reflexivity]. cbn. intros ->. reflexivity.
  - intros e E. destruct (um_err s e E) as (e' & E1 & E2). exists e'. split; [exact E1|]. exact E2.
Qed.
Print Assumptions C33_update_mask.

Theorem C33_replace_invalid : forall f extra s, swf s -> (forall x, extra = Some x -> extra_fits s x) ->
  exists r, replace_invalid f extra s = Ok r /\ sfill r = Some f /\ same_shape (sdata r) (sdata s) /\
    slon r = slon s /\ slat r = slat s /\ stime r = stime s /\ smonth r = smonth s /\
    forall i j t, has s i j t ->
      seen r i j t = (if match extra with Some x => extra_at s x i j t | None => false end then None else hide (sfill s) (seen s i j t)) /\
      (get (smask r) i j t = true -> get (sdata r) i j t = f /\ forall e, serr r = Some e -> get e i j t = f) /\
      (get (smask r) i j t = false -> get (sdata r) i j t = get (sdata s) i j t).
Proof. exact replace_invalid_spec. Qed.
Print Assumptions C33_replace_invalid.

(** offset and scale by a number, a series, a grid or a series of grids *)
Theorem C33_offset_scale : forall s v, swf s -> arg_fits s v ->
  (exists r, offset s v = Ok r /\ clean r /\ sfill r = sfill s /\ rows (sdata r) = rows (sdata s) /\ cols (sdata r) = cols (sdata s) /\
     depth (sdata r) = out_depth s v /\ slon r = slon s /\ slat r = slat s /\ stime r = stime s /\ smonth r = smonth s /\
     forall i j t, has r i j t -> seen r i j t = hide (sfill s)
       (match arg_at v i j t, seen s i j (src s t) with Some x, Some y => Some (y + x)%R | _, _ => None end)) /\
  (exists r, sscale s v = Ok r /\ clean r /\ sfill r = sfill s /\ rows (sdata r) = rows (sdata s) /\ cols (sdata r) = cols (sdata s) /\
     depth (sdata r) = out_depth s v /\ slon r = slon s /\ slat r = slat s /\ stime r = stime s /\ smonth r = smonth s /\
     forall i j t, has r i j t -> seen r i j t = hide (sfill s)
       (match arg_at v i j t, seen s i j (src s t) with Some x, Some y => Some (x * y)%R | _, _ => None end)).
Proof. intros s v W F. split; [exact (data_op_spec _ s v W F)|exact (data_op_spec _ s v W F)]. Qed.
Print Assumptions C33_offset_scale.

(** a series of grids as argument for a single grid is ignored silently *)
Theorem C33_offset_ignored_refuted : forall s a n, swf s -> clean s -> depth (sdata s) = None -> depth a = Some n ->
  exists r, offset s (VArr a) = Ok r /\ sheq r s.
Proof.
  intros s a n W C D A. unfold offset, data_op. rewrite D, A. cbn zeta.
  assert (mksp (sdata (scopy s)) (smask (scopy s)) (serr (scopy s)) (slon (scopy s)) (slat (scopy s)) (stime (scopy s)) (smonth (scopy s)) (sfill (scopy s)) = scopy s) as -> by (destruct (scopy s); reflexivity).
  destruct (scopy_shape s W) as (Wc & _). pose proof (swf_shaped _ Wc) as Sc. rewrite um_ok by exact Sc.
  eexists; split; [reflexivity|]. pose proof (scopy_clean_id s (swf_shaped s W) C) as E.
  eapply sheq_trans; [apply um_clean_id; [exact Sc|]|exact E].
  (* scopy s is clean *)
  intros f F i j t H. assert (F' : sfill s = Some f) by (destruct (scopy_shape s W) as (_ & _ & F0 & _); congruence).
  destruct E as ((S1 & E1) & (S2 & E2) & E3 & _).
  assert (Hs : has s i j t) by (eapply same_shape_inb; [exact S1|exact H]).
  rewrite E1 by exact H. rewrite E2 by (eapply same_shape_inb; [apply same_shape_sym, Sc|exact H]).
  destruct (C f F' i j t Hs) as [C1 C2]. split; [|exact C2]. intros K. destruct (C1 K) as [C3 C4]. split; [exact C3|].
  intros e He. rewrite He in E3. destruct (serr s) as [e0|] eqn:Q; [|contradiction]. destruct E3 as [S3 E3]. rewrite E3; [now apply C4|].
  eapply same_shape_inb; [|exact H]. apply same_shape_sym. destruct Sc as [_ Sc]. now apply Sc.
Qed.
Print Assumptions C33_offset_ignored_refuted.

(** a valid cell whose new value happens to be the fill value is lost *)
Theorem C33_offset_collision_refuted : exists s x r, swf s /\ clean s /\ seen s 1 0 0 = Some 4%R /\ offset s (VScalar x) = Ok r /\ seen r 1 0 0 = None.
Proof.
  destruct ex_sp_ok as (W & C & _). exists ex_sp, (-103)%R.
  destruct (C33_offset_scale ex_sp (VScalar (-103)%R) W I) as [(r & E & _ & _ & R1 & R2 & R3 & _ & _ & _ & _ & G) _].
  exists r. split; [exact W|]. split; [exact C|]. split; [reflexivity|]. split; [exact E|].
  rewrite G. 2:{ repeat split; [rewrite R1; cbn; lia|rewrite R2; cbn; lia|unfold nslice; rewrite R3; cbn; lia]. }
  cbn. destruct (Req_EM_T _ _); [reflexivity|]. exfalso. lra.
Qed.
Print Assumptions C33_offset_collision_refuted.

(** power does not restore the fill value in masked cells *)
Theorem C33_power_refuted : exists s, swf s /\ clean s /\ get (smask (spower 2 s)) 0 1 0 = true /\
  sfill (spower 2 s) = Some (Some (-99)%R) /\ get (sdata (spower 2 s)) 0 1 0 = Some 9801%R.
Proof. destruct ex_sp_ok as (W & C & _). exists ex_sp. split; [exact W|]. split; [exact C|]. split; [reflexivity|]. split; [reflexivity|]. cbn. f_equal. ring. Qed.
Print Assumptions C33_power_refuted.
(** on the other cells power acts pointwise *)
Theorem C33_power_valid : forall p s i j t, swf s -> get (smask s) i j t = false ->
  seen (spower p s) i j t = match seen s i j t with Some x => Some (pow x p) | None => None end.
Proof. intros p s i j t W K. unfold seen, spower, scopy, replace_masked. destruct (sfill s); cbn; rewrite K; destruct (get (sdata s) i j t); reflexivity. Qed.
Print Assumptions C33_power_valid.

Example C33_example : swf ex_sp /\ (exists r, update_mask ex_sp = Ok r /\ seen r 0 1 0 = None /\ seen r 0 0 0 = Some 1%R) /\
  arg_fits ex_sp (VScalar 2) /\ arg_fits ex_ser (VSeries [1; 2]%R) /\ extra_fits ex_sp (ngrid false [[true; false; false]; [false; false; false]]).
Proof.
  destruct ex_sp_ok as (W & C & _). split; [exact W|]. split.
  { exists (um ex_sp). split; [now apply um_ok, swf_shaped|]. rewrite !um_seen. cbn. split; [reflexivity|]. destruct (Req_EM_T _ _); [exfalso; lra|reflexivity]. }
  split; [exact I|]. split; [reflexivity|]. repeat split. left. reflexivity.
Qed.

(** ** C34 *)
Theorem C34_extend : forall s, swf s -> clean s -> 2 <= length (slat s) -> 2 <= length (slon s) ->
  let nx := length (slon s) in
  let dlon := Rabs (nth 1 (slon s) 0 - nth 0 (slon s) 0)%R in
  let dlat := Rabs (nth 1 (slat s) 0 - nth 0 (slat s) 0)%R in
  exists r, extend_matrix s = Ok r /\ clean r /\ sfill r = sfill s /\
    rows (sdata r) = rows (sdata s) /\ cols (sdata r) = nx + 2 /\ depth (sdata r) = depth (sdata s) /\
    slat r = slat s /\ stime r = stime s /\ smonth r = smonth s /\
    length (slon r) = nx + 2 /\
    (forall j, j < nx -> nth (S j) (slon r) 0%R = nth j (slon s) 0%R) /\
    nth 0 (slon r) 0%R = (nth 0 (slon s) 0 - dlon)%R /\
    nth (nx + 1) (slon r) 0%R = (nth (nx - 1) (slon s) 0 + dlat)%R /\
    forall i t, i < rows (sdata s) -> t < nslice (sdata s) ->
      seen r i 0 t = seen s i (nx - 1) t /\ seen r i (nx + 1) t = seen s i 0 t /\
      (forall j, j < nx -> seen r i (S j) t = seen s i j t).
Proof. exact extend_spec. Qed.
Print Assumptions C34_extend.

(** the last longitude advances by one longitude step exactly when both steps agree *)
Theorem C34_last_longitude_refuted : forall s, swf s -> clean s -> 2 <= length (slat s) -> 2 <= length (slon s) ->
  exists r, extend_matrix s = Ok r /\
    (nth (length (slon s) + 1) (slon r) 0%R = (nth (length (slon s) - 1) (slon s) 0 + Rabs (nth 1 (slon s) 0 - nth 0 (slon s) 0))%R <->
     Rabs (nth 1 (slat s) 0 - nth 0 (slat s) 0)%R = Rabs (nth 1 (slon s) 0 - nth 0 (slon s) 0)%R).
Proof.
  intros s W C H1 H2. destruct (extend_spec s W C H1 H2) as (r & E & _ & _ & _ & _ & _ & _ & _ & _ & _ & _ & _ & L & _).
  exists r. split; [exact E|]. rewrite L. split; intros X; lra.
Qed.
Print Assumptions C34_last_longitude_refuted.
Example C34_example : swf ex_sp /\ clean ex_sp /\ 2 <= length (slat ex_sp) /\ 2 <= length (slon ex_sp).
Proof. destruct ex_sp_ok as (W & C & _). split; [exact W|]. split; [exact C|]. cbn; lia. Qed.

(** ** C35 *)
Theorem C35_flip_twice : forall ax s, swf s -> clean s -> (ax = AxTime -> depth (sdata s) <> None) ->
  exists r r', sflip ax s = Ok r /\ sflip ax r = Ok r' /\ sheq r' s.
Proof. exact flip_involution. Qed.
Print Assumptions C35_flip_twice.

(** every cell of the result is a cell of the original with the same latitude,
    longitude and time, in reversed order along the axis *)
Theorem C35_flip_attached : forall ax s, swf s -> clean s -> (ax = AxTime -> depth (sdata s) <> None) ->
  exists r, sflip ax s = Ok r /\ clean r /\ same_shape (sdata r) (sdata s) /\ smonth r = smonth s /\ sfill r = sfill s /\
    length (slat r) = length (slat s) /\ length (slon r) = length (slon s) /\
    forall i j t, has s i j t -> exists i' j' t', has s i' j' t' /\
      (i', j', t') = match ax with
        | AxLat => (rows (sdata s) - 1 - i, j, t) | AxLon => (i, cols (sdata s) - 1 - j, t)
        | AxTime => (i, j, match depth (sdata s) with None => t | Some n => n - 1 - t end) end /\
      seen r i j t = seen s i' j' t' /\
      nth i (slat r) 0%R = nth i' (slat s) 0%R /\ nth j (slon r) 0%R = nth j' (slon s) 0%R /\
      (forall ts, stime s = TArr ts -> depth (sdata s) <> None -> exists ts', stime r = TArr ts' /\ nth t ts' 0%R = nth t' ts 0%R).
Proof.
  intros ax s W C H. destruct (flip_attached ax s W C H) as (r & E & A1 & A2 & A3 & A4 & A5 & A6 & G).
  exists r. repeat (split; [assumption|]). intros i j t Hh. destruct (G i j t Hh) as (i' & j' & t' & B1 & B2 & B3). exists i', j', t'.
  split; [exact B1|]. split; [symmetry; exact B2|exact B3].
Qed.
Print Assumptions C35_flip_attached.

(** flipping the time axis leaves the month numbers in the old order *)
Theorem C35_flip_time_month_refuted : exists s r, swf s /\ clean s /\ sflip AxTime s = Ok r /\
  stime s = TArr [2005; 2006]%R /\ smonth s = TArr [37; 49]%Z /\ stime r = TArr [2006; 2005]%R /\ smonth r = TArr [37; 49]%Z.
Proof.
  destruct ex_ser_ok as (W & C & _). exists ex_ser.
  exists (um (flipped AxTime ex_ser (TArr [2006; 2005]%R))). split; [exact W|]. split; [exact C|].
  split; [apply sflip_ok; [now apply swf_shaped|reflexivity]|]. destruct (um_coord (flipped AxTime ex_ser (TArr [2006; 2005]%R))) as (_ & _ & -> & -> & _).
  repeat split.
Qed.
Print Assumptions C35_flip_time_month_refuted.
Example C35_example : swf ex_ser /\ clean ex_ser /\ (AxTime = AxTime -> depth (sdata ex_ser) <> None).
Proof. destruct ex_ser_ok as (W & C & _ & D). split; [exact W|]. split; [exact C|]. intros _. rewrite D. discriminate. Qed.

(** ** C36.  [rd]: print with the file's format and parse; the numbers of the
    object are representable in that format.  The grid starts at the Greenwich
    meridian and the north pole. *)
Theorem C36_ascii_roundtrip : forall rd grace fillv dlon dlat a b s, swf s -> clean s -> sfill s <> None -> depth (sdata s) = None ->
  global_grid dlon dlat a b (slon s) (slat s) ->
  (forall x, In x (slon s) \/ In x (slat s) -> rd x = x) ->
  (forall i j v, i < rows (sdata s) -> j < cols (sdata s) -> seen s i j 0 = Some v -> rd v = v) ->
  exists ls r, s_to_ascii rd false s = Ok ls /\
    s_from_ascii grace [CLon; CLat; CData; CTime] (slon s) (slat s) dlon dlat false fillv ls = Ok r /\
    clean r /\ sfill r = fillv /\ slon r = slon s /\ slat r = slat s /\ same_shape (sdata r) (sdata s) /\
    forall i j, i < rows (sdata s) -> j < cols (sdata s) ->
      seen r i j 0 = hide fillv (match seen s i j 0 with Some v => Some v | None => Some 0%R end).
Proof. exact s_ascii_roundtrip. Qed.
Print Assumptions C36_ascii_roundtrip.

(** hence missing cells come back as missing iff the reader's fill value is 0 *)
Theorem C36_missing_cells_refuted : exists s r ls, swf s /\ clean s /\ seen s 0 1 0 = None /\ s_to_ascii (fun x => x) false s = Ok ls /\
  s_from_ascii (fun _ => 0%Z) [CLon; CLat; CData; CTime] (slon s) (slat s) 1 1 false (sfill s) ls = Ok r /\ seen r 0 1 0 = Some 0%R.
Proof.
  destruct ex_sp_ok as (W & C & F & D & R1 & R2).
  destruct (s_ascii_roundtrip (fun x => x) (fun _ => 0%Z) (sfill ex_sp) 1 1 (1/2) (1/2) ex_sp W C F D) as (ls & r & E1 & E2 & _ & _ & _ & _ & _ & G).
  { repeat split; try lra; cbn; intros k Hk; [three k|two k]; cbn; lra. }
  { auto. } { auto. }
  exists ex_sp, r, ls. split; [exact W|]. split; [exact C|]. split; [reflexivity|]. split; [exact E1|]. split; [exact E2|].
  rewrite (G 0 1) by (rewrite ?R1, ?R2; lia). cbn. destruct (Req_EM_T _ _); [exfalso; lra|reflexivity].
Qed.
Print Assumptions C36_missing_cells_refuted.

(** with date=True no non-empty file can be read *)
Theorem C36_date_refuted : forall grace columns lon0 lat0 dlon dlat fillv l ls r,
  s_from_ascii grace columns lon0 lat0 dlon dlat true fillv (l :: ls) <> Ok r.
Proof. exact s_from_ascii_date. Qed.
Print Assumptions C36_date_refuted.
Theorem C36_date_keyerror : forall grace lon0 lat0 dlon dlat fillv x y v rest ls i j,
  py_index (length lon0) (Rtrunc (x / dlon)) = Ok j -> py_index (length lat0) (Rfloor ((90 - y) / dlat)) = Ok i ->
  s_from_ascii grace [CLon; CLat; CData; CTime] lon0 lat0 dlon dlat true fillv ((x :: y :: v :: rest) :: ls) = Err KeyError.
Proof. exact s_from_ascii_date_key. Qed.
Print Assumptions C36_date_keyerror.

(** cells on both sides of the Greenwich meridian fall into the same column *)
Theorem C36_negative_longitude_refuted : exists r,
  s_from_ascii (fun _ => 0%Z) [CLon; CLat; CData; CTime] [-1/2; 1/2]%R [89 + 1/2]%R 1 1 false None
    [[-1/2; 89 + 1/2; 7]; [1/2; 89 + 1/2; 8]]%R = Ok r /\
  get (sdata r) 0 0 0 = Some 8%R /\ get (sdata r) 0 1 0 = Some 0%R.
Proof.
  unfold s_from_ascii. cbn [filter column_eqb negb length]. cbn [read_lines]. unfold read_line. cbn [combine dict_req dict_get column_eqb bind slon slat length].
  assert (T1 : Rtrunc (-1/2/1)%R = 0%Z).
  { unfold Rtrunc. destruct (Rlt_dec _ _); [|exfalso; lra]. replace (- (-1/2/1))%R with (1/2)%R by field.
    change (Int_part (1/2)%R) with (Rfloor (1/2)%R). rewrite (Rfloor_eq (1/2)%R 0%Z) by (cbn; lra). reflexivity. }
  assert (T2 : Rtrunc (1/2/1)%R = 0%Z) by (apply Rtrunc_eq; cbn; lra).
  assert (T3 : Rfloor ((90 - (89 + 1/2))/1)%R = 0%Z) by (apply Rfloor_eq; cbn; lra).
  assert (P1 : py_index 2 0 = Ok 0) by reflexivity. assert (P2 : py_index 1 0 = Ok 0) by reflexivity.
  unfold dict_req. cbn [dict_get column_eqb]. cbn [bind]. rewrite T1, T3, P1, P2. cbn [bind upd slon slat length].
  rewrite ?T2, ?T3, ?P1, ?P2. cbn [bind]. eexists; split; [reflexivity|]. split; reflexivity.
Qed.
Print Assumptions C36_negative_longitude_refuted.

Example C36_example : global_grid 1 1 (1/2) (1/2) (slon ex_sp) (slat ex_sp).
Proof. repeat split; try lra; cbn; intros k Hk; [three k|two k]; cbn; lra. Qed.

(** ** C37: [transposed] says when the reader swaps the axes *)
Theorem C37_netcdf_orientation : forall date s, swf s -> clean s -> sfill s <> None -> rows (sdata s) <> 1 -> cols (sdata s) <> 1 ->
  exists w r, nc_write date s = Ok w /\ nc_read w = Ok r /\ clean r /\ slon r = slon s /\ slat r = slat s /\ sfill r = sfill s /\
    let transposed := match depth (sdata s) with Some 1 | None => length (slat s) =? length (slon s) | _ => false end in
    rows (sdata r) = rows (sdata s) /\ cols (sdata r) = cols (sdata s) /\
    depth (sdata r) = (match depth (sdata s) with Some 1 => None | d => d end) /\
    forall i j t, has s i j t -> seen r i j t = if transposed then seen s j i t else seen s i j t.
Proof. exact nc_roundtrip_spatial. Qed.
Print Assumptions C37_netcdf_orientation.

Theorem C37_not_square : forall date s, swf s -> clean s -> sfill s <> None -> rows (sdata s) <> 1 -> cols (sdata s) <> 1 -> length (slat s) <> length (slon s) ->
  exists w r, nc_write date s = Ok w /\ nc_read w = Ok r /\ slon r = slon s /\ slat r = slat s /\
    forall i j t, has s i j t -> seen r i j t = seen s i j t.
Proof.
  intros date s W C F N1 N2 N3. destruct (nc_roundtrip_spatial date s W C F N1 N2) as (w & r & E1 & E2 & _ & L1 & L2 & _ & _ & _ & _ & G).
  exists w, r. repeat (split; [assumption|]). intros i j t H. rewrite (G i j t H).
  replace (length (slat s) =? length (slon s)) with false by lia. destruct (depth (sdata s)) as [[|[|n]]|]; reflexivity.
Qed.
Print Assumptions C37_not_square.

Definition ex_square : sp := mksp (ngrid None [[Some 1%R; Some 2%R]; [Some 3%R; Some 4%R]]) (ngrid false [[false; false]; [false; false]]) None
  [1/2; 3/2]%R [89 + 1/2; 88 + 1/2]%R (TScalar 2005%R) (TScalar 37%Z) (Some (Some (-99)%R)).
Lemma ex_square_ok : swf ex_square /\ clean ex_square /\ sfill ex_square <> None.
Proof.
  split; [repeat split; discriminate|]. split; [|discriminate].
  intros f F i j t (H1 & H2 & H3). injection F as <-. cbn in H1, H2, H3. two i; two j; cbn; split; intros K; try discriminate; split; try reflexivity; try discriminate;
    unfold veqb; (destruct (Req_EM_T _ _); [lra|reflexivity]).
Qed.
(** for every square single-epoch grid the values come back transposed *)
Theorem C37_square_refuted : (forall date s, swf s -> clean s -> sfill s <> None -> depth (sdata s) = None -> length (slat s) = length (slon s) -> rows (sdata s) <> 1 ->
    exists w r, nc_write date s = Ok w /\ nc_read w = Ok r /\ slon r = slon s /\ slat r = slat s /\
      forall i j t, has s i j t -> seen r i j t = seen s j i t) /\
  exists s w r, swf s /\ clean s /\ nc_write false s = Ok w /\ nc_read w = Ok r /\ seen s 0 1 0 = Some 2%R /\ seen r 0 1 0 = Some 3%R.
Proof.
  assert (A : forall date s, swf s -> clean s -> sfill s <> None -> depth (sdata s) = None -> length (slat s) = length (slon s) -> rows (sdata s) <> 1 ->
    exists w r, nc_write date s = Ok w /\ nc_read w = Ok r /\ slon r = slon s /\ slat r = slat s /\
      forall i j t, has s i j t -> seen r i j t = seen s j i t).
  { intros date s W C F D L N. pose proof W as (_ & _ & W3 & W4 & _).
    destruct (nc_roundtrip_spatial date s W C F N ltac:(lia)) as (w & r & E1 & E2 & _ & L1 & L2 & _ & _ & _ & _ & G).
    exists w, r. repeat (split; [assumption|]). intros i j t H. rewrite (G i j t H). rewrite D, L, Nat.eqb_refl. reflexivity. }
  split; [exact A|]. destruct ex_square_ok as (W & C & F).
  destruct (A false ex_square W C F) as (w & r & E1 & E2 & _ & _ & G); [reflexivity|reflexivity|discriminate|].
  exists ex_square, w, r. repeat (split; [assumption|]). split; [reflexivity|]. rewrite G by (repeat split; cbn; lia). reflexivity.
Qed.
Print Assumptions C37_square_refuted.
Example C37_example : swf ex_sp /\ clean ex_sp /\ sfill ex_sp <> None /\ rows (sdata ex_sp) <> 1 /\ cols (sdata ex_sp) <> 1 /\ length (slat ex_sp) <> length (slon ex_sp).
Proof. destruct ex_sp_ok as (W & C & F & _). do 3 (split; [assumption|]). cbn; lia. Qed.

(** ** C38 *)
Theorem C38_mean : forall s n apply indices, swf s -> depth (sdata s) = Some n ->
  let idx := match indices with None => seq 0 n | Some l => l end in
  (forall t, In t idx -> t < n) -> idx <> [] ->
  exists s' r, smean s apply indices = Ok (s', r) /\ clean r /\ depth (sdata r) = None /\ (apply = false -> s' = s) /\
    (forall i j, (forall xs, values s i j idx xs -> seen r i j 0 = hide (sfill s) (Some (Rmean xs))) /\
       ((exists t, In t idx /\ seen s i j t = None) -> seen r i j 0 = None)) /\
    (apply = true -> forall i j ys xs, values s i j (seq 0 n) ys -> values s i j idx xs ->
       values s' i j (seq 0 n) (map (fun y => (y - Rmean xs)%R) ys) /\
       exists zs, values s' i j idx zs /\ Rmean zs = 0%R).
Proof.
  intros s n apply indices W D idx Hi Hne. destruct (mean_field s n apply indices W D Hi) as (s' & r & E & C & Dr & _ & _ & A & B & G).
  exists s', r. repeat (split; [assumption|]). intros Ha i j ys xs Hy Hx. destruct (G Ha i j ys xs Hy Hx) as [G1 G2]. split; [exact G1|].
  eexists; split; [exact G2|]. apply values_length in Hx. assert (xs <> []) as Nx by (intros ->; destruct idx; cbn in Hx; congruence).
  unfold Rmean. rewrite map_length.
  assert (Rsum (map (fun y => (y - Rsum xs / INR (length xs))%R) xs) = 0%R) as ->; [|unfold Rdiv; ring].
  assert (Ln : INR (length xs) <> 0%R) by (apply not_0_INR; destruct xs; cbn; congruence).
  assert (forall c l, Rsum (map (fun y => (y - c)%R) l) = (Rsum l - INR (length l) * c)%R) as ->.
  { intros c l. induction l as [|x l IH]; [cbn; ring|]. cbn [map Rsum length]. rewrite IH, S_INR. ring. }
  field. exact Ln.
Qed.
Print Assumptions C38_mean.

(** sum, max, min, mean of a cell with valid values xs; a missing epoch masks the cell *)
Theorem C38_statistics : forall s n, swf s -> depth (sdata s) = Some n -> n <> 0 ->
  exists su mx mi s' me, ssum 1 s = Ok su /\ smax s = Ok mx /\ smin s = Ok mi /\ smean s false None = Ok (s', me) /\ s' = s /\
    clean su /\ clean mx /\ clean mi /\ clean me /\
    forall i j,
      ((exists t, t < n /\ seen s i j t = None) -> seen su i j 0 = None /\ seen mx i j 0 = None /\ seen mi i j 0 = None /\ seen me i j 0 = None) /\
      forall xs, values s i j (seq 0 n) xs -> exists a b c d,
        seen su i j 0 = hide (sfill s) (Some a) /\ seen mx i j 0 = hide (sfill s) (Some b) /\
        seen mi i j 0 = hide (sfill s) (Some c) /\ seen me i j 0 = hide (sfill s) (Some d) /\
        a = Rsum xs /\ (In b xs /\ forall x, In x xs -> (x <= b)%R) /\ (In c xs /\ forall x, In x xs -> (c <= x)%R) /\
        a = (INR n * d)%R /\ (c <= d <= b)%R.
Proof.
  intros s n W D Nn.
  set (fs := fun l => vsum (map (lift1 (fun x => (x ^ 1)%R)) l)).
  destruct (reduce_spec fs s (seq 0 n) TNone W) as (su & E1 & C1 & _).
  destruct (reduce_spec (vfold1 Rmax) s (seq 0 n) TNone W) as (mx & E2 & C2 & _).
  destruct (reduce_spec (vfold1 Rmin) s (seq 0 n) TNone W) as (mi & E3 & C3 & _).
  destruct (mean_field s n false None W D) as (s' & me & E4 & C4 & _ & _ & _ & A & B & _). { intros t Ht. apply in_seq in Ht. lia. }
  assert (fs_none : forall l, In None l -> fs l = None).
  { intros l Hl. unfold fs. apply vsum_none. apply in_map_iff. exists None. split; [reflexivity|exact Hl]. }
  exists su, mx, mi, s', me. unfold ssum, smax, smin. rewrite D. destruct n as [|n]; [congruence|].
  do 4 (split; [assumption|]). split; [now apply A|]. do 4 (split; [assumption|]). intros i j.
  destruct (stat_spec fs s (S n) _ _ su W D E1 fs_none i j) as [S1 S1'].
  destruct (stat_spec (vfold1 Rmax) s (S n) _ _ mx W D E2 (vfold1_none Rmax) i j) as [S2 S2'].
  destruct (stat_spec (vfold1 Rmin) s (S n) _ _ mi W D E3 (vfold1_none Rmin) i j) as [S3 S3'].
  destruct (B i j) as [S4 S4']. split.
  - intros (t & Ht & Hn). assert (X : exists t, In t (seq 0 (S n)) /\ seen s i j t = None) by (exists t; split; [apply in_seq; lia|exact Hn]). auto.
  - intros xs V. pose proof (values_length _ _ _ _ _ V) as L. rewrite seq_length in L.
    assert (Nx : xs <> []) by (intros ->; discriminate).
    destruct (vfold1_some Rmax xs Nx) as (b & Eb). destruct (vfold1_some Rmin xs Nx) as (c & Ec).
    exists (Rsum xs), b, c, (Rmean xs). rewrite (S1 xs V), (S2 xs V), (S3 xs V), (S4 xs V), Eb, Ec.
    split. { f_equal. unfold fs. rewrite map_map. cbn [lift1]. rewrite <- vsum_some. f_equal. apply map_ext. intros x. f_equal. ring. }
    do 4 (split; [reflexivity|]). pose proof (vmax_spec xs b Eb) as [Hb1 Hb2]. pose proof (vmin_spec xs c Ec) as [Hc1 Hc2].
    split; [split; assumption|]. split; [split; assumption|]. split.
    + unfold Rmean. rewrite L. field. apply not_0_INR. lia.
    + apply Rmean_bounds; [exact Nx|]. intros x Hx. split; auto.
Qed.
Print Assumptions C38_statistics.

(** mean(apply=True): a cell that is masked everywhere no longer holds the fill
    value afterwards, although its mask and the fill value are unchanged *)
Theorem C38_apply_masked_refuted : exists s s' r, swf s /\ clean s /\ smean s true None = Ok (s', r) /\
  get (smask s') 0 1 0 = true /\ sfill s' = Some (Some (-99)%R) /\ get (sdata s') 0 1 0 = Some 0%R.
Proof.
  destruct ex_ser_ok as (W & C & F & D). destruct (reduce_spec vmean ex_ser (seq 0 2) (tmean (seq 0 2) (stime ex_ser)) W) as (r & E & _).
  exists ex_ser. unfold smean. rewrite D. cbn [forallb seq Nat.ltb Nat.leb andb negb]. change (stime ex_ser) with (TArr [2005; 2006]%R) at 1 2. cbn [tlen bind length Nat.ltb Nat.leb].
  change (TArr [2005; 2006]%R) with (stime ex_ser). cbn [seq] in E. rewrite E. cbn [bind].
  do 2 eexists. split; [exact W|]. split; [exact C|]. split; [reflexivity|]. split; [reflexivity|]. split; [reflexivity|].
  cbn. f_equal. field.
Qed.
Print Assumptions C38_apply_masked_refuted.

(** and a valid epoch of a cell that is masked at another epoch is destroyed:
    the mean taken includes the fill value *)
Definition ex_gap : sp := mksp
  (mkarr 1 1 (Some 2) (fun i j t => nth t [Some 1; Some (-99)]%R None))
  (mkarr 1 1 (Some 2) (fun i j t => t =? 1)) None [1/2]%R [1/2]%R (TArr [2005; 2006]%R) (TArr [37; 49]%Z) (Some (Some (-99)%R)).
Theorem C38_apply_gap_refuted : exists s s' r, swf s /\ clean s /\ seen s 0 0 0 = Some 1%R /\ seen s 0 0 1 = None /\
  smean s true None = Ok (s', r) /\ seen r 0 0 0 = None /\ seen s' 0 0 0 = Some 50%R.
Proof.
  assert (W : swf ex_gap). { split; [repeat split|]. split; [discriminate|]. split; [reflexivity|]. split; [reflexivity|]. do 2 eexists. repeat split. }
  assert (C : clean ex_gap).
  { intros f F i j t (H1 & H2 & H3). injection F as <-. cbn in H1, H2, H3. two t; cbn; split; intros K; try discriminate; split; try reflexivity; try discriminate;
    unfold veqb; (destruct (Req_EM_T _ _); [lra|reflexivity]). }
  destruct (reduce_spec vmean ex_gap (seq 0 2) (tmean (seq 0 2) (stime ex_gap)) W) as (r & E & _ & _ & _ & _ & _ & _ & _ & _ & G).
  exists ex_gap. unfold smean. change (depth (sdata ex_gap)) with (Some 2). cbn [forallb seq Nat.ltb Nat.leb andb negb].
  change (stime ex_gap) with (TArr [2005; 2006]%R) at 1 2. cbn [tlen bind length Nat.ltb Nat.leb].
  change (TArr [2005; 2006]%R) with (stime ex_gap). cbn [seq] in E. rewrite E. cbn [bind].
  do 2 eexists. split; [exact W|]. split; [exact C|]. split; [reflexivity|]. split; [reflexivity|]. split; [reflexivity|].
  split; [rewrite G; cbn; reflexivity|]. cbn. f_equal. field.
Qed.
Print Assumptions C38_apply_gap_refuted.
Example C38_example : swf ex_ser /\ values ex_ser 1 0 (seq 0 2) [3; 5]%R /\ (exists t, t < 2 /\ seen ex_ser 0 1 t = None).
Proof. destruct ex_ser_ok as (W & _). split; [exact W|]. split; [reflexivity|]. exists 0. split; [lia|reflexivity]. Qed.

(** ** C65: scaling factors *)
Theorem C65_kfactor : forall s1 s2 n, swf s1 -> swf s2 -> clean s1 -> clean s2 -> sfill s1 <> None -> sfill s2 <> None ->
  depth (sdata s1) = Some n -> same_shape (sdata s2) (sdata s1) ->
  exists gain mask err mag, kfactor s1 s2 = Ok (gain, mask, err, mag) /\
    rows gain = rows (sdata s1) /\ cols gain = cols (sdata s1) /\ depth gain = None /\
    forall i j, i < rows (sdata s1) -> j < cols (sdata s1) ->
      ((exists t, t < n /\ (seen s1 i j t = None \/ seen s2 i j t = None)) ->
         get mask i j 0 = true /\ get gain i j 0 = Some 0%R /\ get err i j 0 = Some 0%R /\ get mag i j 0 = Some 0%R) /\
      (forall xs ys, values s1 i j (seq 0 n) xs -> values s2 i j (seq 0 n) ys -> dot xs xs <> 0%R ->
         exists k, get gain i j 0 = Some k /\
         (* k is the unique minimiser of the squared misfit *)
         (forall k', (rss k xs ys <= rss k' xs ys)%R) /\ (forall k', rss k' xs ys = rss k xs ys -> k' = k) /\
         (get mask i j 0 = true <-> k = 0%R) /\
         (k <> 0%R -> get mag i j 0 = Some (sqrt (dot ys ys))) /\
         (k <> 0%R -> (forall t, t < n -> nth t xs 0%R <> 0%R /\ (k * nth t xs 0)%R <> nth t ys 0%R) -> get err i j 0 = Some (sqrt (rss k xs ys / INR n)))).
Proof.
  intros s1 s2 n W1 W2 C1 C2 F1 F2 D SH. destruct (kfactor_spec s1 s2 n W1 W2 C1 C2 F1 F2 D SH) as (g & m & e & a & E & R1 & R2 & R3 & G).
  exists g, m, e, a. repeat (split; [assumption|]). intros i j Hi Hj. destruct (G i j Hi Hj) as [G1 G2]. split; [exact G1|].
  intros xs ys V1 V2 N. destruct (G2 xs ys V1 V2 N) as (X1 & X2 & X3 & X4 & _). exists (dot xs ys / dot xs xs)%R.
  assert (L : length xs = length ys) by (rewrite (values_length _ _ _ _ _ V1), (values_length _ _ _ _ _ V2); reflexivity).
  split; [exact X1|]. split; [intros k'; now apply least_squares|]. split; [intros k' Hk; now apply least_squares_unique|]. auto.
Qed.
Print Assumptions C65_kfactor.

(** the reported error is 0 as soon as one epoch of the first series is zero or
    is fitted exactly, whatever the misfit at the other epochs *)
Theorem C65_kfactor_error_refuted : forall s1 s2 n, swf s1 -> swf s2 -> clean s1 -> clean s2 -> sfill s1 <> None -> sfill s2 <> None ->
  depth (sdata s1) = Some n -> same_shape (sdata s2) (sdata s1) ->
  exists gain mask err mag, kfactor s1 s2 = Ok (gain, mask, err, mag) /\
    forall i j xs ys t, i < rows (sdata s1) -> j < cols (sdata s1) -> values s1 i j (seq 0 n) xs -> values s2 i j (seq 0 n) ys -> dot xs xs <> 0%R ->
      t < n -> nth t xs 0%R = 0%R -> get err i j 0 = Some 0%R.
Proof.
  intros s1 s2 n W1 W2 C1 C2 F1 F2 D SH. destruct (kfactor_spec s1 s2 n W1 W2 C1 C2 F1 F2 D SH) as (g & m & e & a & E & R1 & R2 & R3 & G).
  exists g, m, e, a. split; [exact E|]. intros i j xs ys t Hi Hj V1 V2 N Ht Hz. destruct (G i j Hi Hj) as [_ G2].
  destruct (G2 xs ys V1 V2 N) as (_ & _ & _ & _ & X). apply X. exists t. split; [exact Ht|]. now left.
Qed.
Print Assumptions C65_kfactor_error_refuted.
Example C65_example : swf ex_ser /\ clean ex_ser /\ sfill ex_ser <> None /\ depth (sdata ex_ser) = Some 2 /\ same_shape (sdata ex_ser) (sdata ex_ser) /\
  values ex_ser 1 0 (seq 0 2) [3; 5]%R /\ dot [3; 5]%R [3; 5]%R <> 0%R.
Proof. destruct ex_ser_ok as (W & C & F & D). repeat (split; [assumption|]). split; [repeat split|]. split; [reflexivity|]. unfold dot. cbn. lra. Qed.

(** ** C66 *)
Theorem C66_index : forall s n ts ms k, swf s -> clean s -> depth (sdata s) = Some n -> stime s = TArr ts -> smonth s = TArr ms -> k < n ->
  rows (sdata s) <> 1 -> cols (sdata s) <> 1 ->
  exists r, sindex s (Z.of_nat k) = Ok r /\ stime r = TScalar (nth k ts 0%R) /\ smonth r = TScalar (nth k ms 0%Z) /\
    slon r = slon s /\ slat r = slat s /\ sfill r = sfill s /\ rows (sdata r) = rows (sdata s) /\ cols (sdata r) = cols (sdata s) /\ depth (sdata r) = None /\
    forall i j, i < rows (sdata s) -> j < cols (sdata s) -> seen r i j 0 = seen s i j k.
Proof.
  intros s n ts ms k W C D T M Hk N1 N2. destruct (sindex_spec s n ts ms k W C D T M Hk N1 N2) as (r & E & (S1 & E1) & (S2 & E2) & _ & L1 & L2 & L3 & L4 & L5).
  exists r. split; [exact E|]. cbn in L1, L2, L3, L4, L5. destruct S1 as (Q1 & Q2 & Q3), S2 as (P1 & P2 & P3). cbn in Q1, Q2, Q3.
  repeat (split; [assumption|]). intros i j Hi Hj. pose proof W as ((M1 & M2 & M3) & _). cbn in P1, P2, P3. unfold seen.
  rewrite E1, E2; [reflexivity| |]; repeat split; try lia; unfold nslice; rewrite ?Q3, ?P3; lia.
Qed.
Print Assumptions C66_index.
(** on a grid with a single row or a single column the result is not a grid *)
Theorem C66_index_thin_refuted : forall s n ts ms k, swf s -> depth (sdata s) = Some n -> stime s = TArr ts -> smonth s = TArr ms -> k < n ->
  rows (sdata s) = 1 \/ cols (sdata s) = 1 -> sindex s (Z.of_nat k) = Err OtherExn.
Proof. exact sindex_thin. Qed.
Print Assumptions C66_index_thin_refuted.

Theorem C66_iterate : forall s n ts ms, depth (sdata s) = Some n -> stime s = TArr ts -> smonth s = TArr ms -> length ts = n -> length ms = n ->
  sfor (S n) (mksobj s 0) [] = Ok (Some (map (fun i => slice_sp s i ts ms) (seq 0 n), mksobj s n)).
Proof. intros s n ts ms D T M Lt Lm. rewrite (sfor_spec s n ts ms D T M Lt Lm n 0 []) by lia. reflexivity. Qed.
Print Assumptions C66_iterate.

Theorem C66_subset : forall s ts ms months, swf s -> clean s -> depth (sdata s) = Some (length ms) -> stime s = TArr ts -> smonth s = TArr ms ->
  rows (sdata s) <> 1 -> cols (sdata s) <> 1 ->
  NoDup ms -> NoDup months -> (forall x, In x months -> In x ms) -> months <> [] ->
  exists r idx, ssubset s months = Ok r /\ StronglySorted lt idx /\ length idx = length months /\
    (forall i, In i idx <-> i < length ms /\ In (nth i ms 0%Z) months) /\
    atleast_1d (smonth r) = TArr (filter (fun x => memZ x months) ms) /\
    atleast_1d (stime r) = TArr (map (fun i => nth i ts 0%R) idx) /\
    rows (sdata r) = rows (sdata s) /\ cols (sdata r) = cols (sdata s) /\ nslice (sdata r) = length months /\
    slon r = slon s /\ slat r = slat s /\ sfill r = sfill s /\
    forall k i j, k < length months -> i < rows (sdata s) -> j < cols (sdata s) -> seen r i j k = seen s i j (nth k idx 0).
Proof. exact ssubset_ok. Qed.
Print Assumptions C66_subset.
Theorem C66_subset_missing_month : forall s ts ms months, stime s = TArr ts -> smonth s = TArr ms ->
  (exists x, In x months /\ ~ In x ms) -> ssubset s months = Err IOErr.
Proof. exact ssubset_missing. Qed.
Print Assumptions C66_subset_missing_month.

(** from_list; [order] is np.argsort of the times: any permutation of the indices *)
Theorem C66_from_list : forall objs order o0 rest r c eb, objs = o0 :: rest -> (forall o, In o objs -> single_grid r c eb o) ->
  Permutation order (seq 0 (length objs)) ->
  let sorted := map (fun i => nth i objs sdummy) order in
  exists q, sfrom_list order objs = Ok q /\ clean q /\ rows (sdata q) = r /\ cols (sdata q) = c /\ depth (sdata q) = Some (length objs) /\
    slon q = slon o0 /\ slat q = slat o0 /\ sfill q = sfill o0 /\ Permutation sorted objs /\
    stime q = TArr (map stime_of sorted) /\ smonth q = tsqueeze (TArr (adjust_months (map smonth_of sorted))) /\
    (forall i j k, i < r -> j < c -> k < length objs -> seen q i j k = hide (sfill o0) (seen (nth k sorted sdummy) i j 0) /\
       (eb = true -> get (smask q) i j k = false -> err_at q i j k = err_at (nth k sorted sdummy) i j 0)).
Proof. exact sfrom_list_spec. Qed.
Print Assumptions C66_from_list.
Example C66_example : swf ex_ser /\ clean ex_ser /\ depth (sdata ex_ser) = Some 2 /\ rows (sdata ex_ser) <> 1 /\ cols (sdata ex_ser) <> 1 /\
  NoDup [37; 49]%Z /\ (forall x, In x [49]%Z -> In x [37; 49]%Z) /\ single_grid 2 3 false ex_sp /\ Permutation [1; 0] (seq 0 2).
Proof.
  destruct ex_ser_ok as (W & C & F & D). destruct ex_sp_ok as (W' & _). split; [exact W|]. split; [exact C|]. split; [exact D|]. split; [discriminate|]. split; [discriminate|].
  split. { constructor; [intros [H|[]]; discriminate|]. constructor; [intros []|constructor]. }
  split; [intros x [<-|[]]; right; now left|]. split; [|constructor].
  split; [exact W'|]. repeat split. cbn. eauto.
Qed.

(** ** C67: memory shared by flip and transpose *)
(** after any in-place calls on the two objects, each still shows the other's cells *)
Theorem C67_views_share_memory_refuted : forall v s o p, owned s o -> let (s1, r) := v_view v s o in
  aeq (odata (vrun o r s1 p) r) (through v (odata (vrun o r s1 p) o)) /\ aeq (omask (vrun o r s1 p) r) (through v (omask (vrun o r s1 p) o)).
Proof. exact view_shared. Qed.
Print Assumptions C67_views_share_memory_refuted.
(** replace_invalid on the flipped object writes the new fill value into the
    original's masked cells (whose fill_value attribute is unchanged) *)
Theorem C67_replace_invalid_leaks_refuted : forall v s o f f', owned s o -> ofill o = Some f -> let (s1, r) := v_view v s o in
  let s2 := in_place (m_replace_invalid f') s1 r in
  forall i j t, inb (odata s o) i j t -> get (omask s o) i j t = true ->
     get (omask s2 o) i j t = true /\ get (odata s2 o) i j t = f'.
Proof. exact view_replace_invalid. Qed.
Print Assumptions C67_replace_invalid_leaks_refuted.
(** a copy is independent: no in-place call on the copy changes the original *)
Theorem C67_copy_independent : forall s o p, owned s o -> Forall (fun c => fst c = Result) p -> let (s1, r) := v_copy s o in
  odata (vrun o r s1 p) o = odata s o /\ omask (vrun o r s1 p) o = omask s o.
Proof. exact copy_frame. Qed.
Print Assumptions C67_copy_independent.
Example C67_example : owned (mkvs [sdata ex_sp] [smask ex_sp]) (mkvo 0 0 Direct (sfill ex_sp)) /\
  inb (odata (mkvs [sdata ex_sp] [smask ex_sp]) (mkvo 0 0 Direct (sfill ex_sp))) 0 1 0 /\
  get (omask (mkvs [sdata ex_sp] [smask ex_sp]) (mkvo 0 0 Direct (sfill ex_sp))) 0 1 0 = true.
Proof. repeat split; cbn; lia. Qed.
