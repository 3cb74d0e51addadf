From Coq Require Import Reals Lra ZifyBool ZifyNat Permutation Sorted.
From Verif Require Import Base TimeModel Arr HarmModel AdjustProofs HarmProofs HarmProofs2 HarmProofs3 SpatialModel SpatialSpec SpatialProofs SpatialProofs2 SpatialProofs3.
Close Scope Z_scope.
Open Scope nat_scope.


Lemma upd_range_step {A} (dd : A) (l : list A) v vals t j d : length l = d -> t < d -> j < d ->
  upd_range dd (upd l t v) (S t) vals j = upd_range dd l t (v :: vals) j.
Proof.
  intros Ll Ht Hj. unfold upd_range. cbn [length]. rewrite upd_nth, Ll.
  destruct (Nat.eqb_spec t j) as [->|N].
  - replace ((S j <=? j) && (j <? S j + length vals)) with false by lia.
    replace ((j <=? j) && (j <? j + S (length vals))) with true by lia.
    replace (j <? d) with true by lia. rewrite Nat.sub_diag. reflexivity.
  - replace ((t <=? j) && (j <? t + S (length vals))) with ((S t <=? j) && (j <? S t + length vals)) by lia.
    destruct ((S t <=? j) && (j <? S t + length vals)) eqn:B; [|reflexivity].
    replace (j - t) with (S (j - S t)) by lia. reflexivity.
Qed.
Lemma slice_step {A} (g : nat -> A) (i0 : nat) idx (base : nat -> A) t j :
  (if (S t <=? j) && (j <? S t + length idx) then g (nth (j - S t) idx 0) else (if j =? t then g i0 else base j))
  = (if (t <=? j) && (j <? t + S (length idx)) then g (nth (j - t) (i0 :: idx) 0) else base j).
Proof.
  destruct (Nat.eqb_spec j t) as [->|N].
  - replace ((S t <=? t) && (t <? S t + length idx)) with false by lia.
    replace ((t <=? t) && (t <? t + S (length idx))) with true by lia. rewrite Nat.sub_diag. reflexivity.
  - replace ((t <=? j) && (j <? t + S (length idx))) with ((S t <=? j) && (j <? S t + length idx)) by lia.
    destruct ((S t <=? j) && (j <? S t + length idx)) eqn:B; [|reflexivity].
    replace (j - t) with (S (j - S t)) by lia. reflexivity.
Qed.

Lemma sload_spec objs r c eb : (forall o, In o objs -> single_grid r c eb o) ->
  forall order t acc at_ am d, (forall i, In i order -> i < length objs) ->
  rows (sdata acc) = r -> cols (sdata acc) = c -> (if eb then serr acc <> None else serr acc = None) ->
  stime acc = TArr at_ -> smonth acc = TArr am -> length at_ = d -> length am = d -> t + length order <= d ->
  exists q tt mm, sload objs order t acc = Ok q /\ same_shape (sdata q) (sdata acc) /\ same_shape (smask q) (smask acc) /\
    match serr q, serr acc with None, None => True | Some a, Some b => same_shape a b | _, _ => False end /\
    slon q = slon acc /\ slat q = slat acc /\ sfill q = sfill acc /\ stime q = TArr tt /\ smonth q = TArr mm /\ length tt = d /\ length mm = d /\
    (forall j, j < d -> nth j tt 0%R = upd_range 0%R at_ t (map (fun i => stime_of (nth i objs sdummy)) order) j) /\
    (forall j, j < d -> nth j mm 0%Z = upd_range 0%Z am t (map (fun i => smonth_of (nth i objs sdummy)) order) j) /\
    (forall a b j, get (sdata q) a b j = if (t <=? j) && (j <? t + length order) then get (sdata (nth (nth (j - t) order 0) objs sdummy)) a b 0 else get (sdata acc) a b j) /\
    (forall a b j, get (smask q) a b j = if (t <=? j) && (j <? t + length order) then get (smask (nth (nth (j - t) order 0) objs sdummy)) a b 0 else get (smask acc) a b j) /\
    (eb = true -> forall a b j, err_at q a b j = if (t <=? j) && (j <? t + length order) then err_at (nth (nth (j - t) order 0) objs sdummy) a b 0 else err_at acc a b j).
Proof.
  intros Ho. induction order as [|i order IH]; intros t acc at_ am d Hi R1 R2 Re T M Lt Lm Hle; cbn [sload].
  - exists acc, at_, am. cbn [length map]. unfold upd_range. cbn [length].
    split; [reflexivity|]. split; [repeat split|]. split; [repeat split|]. split; [destruct (serr acc); [repeat split|exact I]|].
    do 7 (split; [first [reflexivity|assumption]|]).
    split; [|split; [|split; [|split]]]; intros;
      (match goal with |- context[(t <=? ?j) && _] => destruct (Nat.leb_spec t j), (Nat.ltb_spec j (t+0)) end); cbn [andb]; try lia; reflexivity.
  - cbn [length] in Hle. pose proof (Hi i (or_introl eq_refl)) as Hi0.
    rewrite (nth_error_nth' objs sdummy Hi0).
    destruct (Ho (nth i objs sdummy) (nth_In _ _ Hi0)) as (Wo & O1 & O2 & O3 & (tt0 & mo0 & OT & OM) & Oe).
    rewrite O1, O2, O3, R1, R2, !Nat.eqb_refl. cbn [andb negb].
    assert (exists e1, match serr acc, serr (nth i objs sdummy) with
                  | Some ea, Some eo => Ok (Some (set_slice ea t (fun a b => get eo a b 0)))
                  | None, Some _ => Err AttributeError
                  | x, None => Ok x end = Ok e1 /\
       match e1, serr acc with None, None => True | Some a, Some b => same_shape a b | _, _ => False end /\
       (if eb then e1 <> None else e1 = None) /\
       (eb = true -> forall a b j, match e1 with Some e => get e a b j | None => Some 0%R end = if j =? t then err_at (nth i objs sdummy) a b 0 else err_at acc a b j)) as (e1 & -> & Se & Ne & Ge).
    { unfold err_at. destruct eb.
      - destruct (serr acc) as [ea|]; [|congruence]. destruct (serr (nth i objs sdummy)) as [eo|]; [|congruence].
        eexists; split; [reflexivity|]. split; [repeat split|]. split; [discriminate|]. intros _ a b j. reflexivity.
      - rewrite Re, Oe. eexists; split; [reflexivity|]. split; [exact I|]. split; [reflexivity|discriminate]. }
    cbn [bind]. rewrite OT, OM. cbn [scalar bind]. rewrite T, M.
    set (acc1 := mksp _ _ _ _ _ _ _ _).
    destruct (IH (S t) acc1 (upd at_ t tt0) (upd am t mo0) d) as
      (q & tt & mm & E & A1 & A2 & A3 & A4 & A5 & A6 & A7 & A8 & A9 & A10 & A11 & A12 & A13 & A14 & A15); auto;
      [intros; apply Hi; now right|now rewrite upd_length|now rewrite upd_length|lia|].
    exists q, tt, mm. split; [exact E|]. split; [exact A1|]. split; [exact A2|].
    split. { cbn [acc1 serr] in A3. destruct (serr q), e1, (serr acc); try contradiction; auto. eapply same_shape_trans; eassumption. }
    do 7 (split; [assumption|]).
    assert (Tt : tt0 = stime_of (nth i objs sdummy)) by (unfold stime_of; now rewrite OT).
    assert (Mm : mo0 = smonth_of (nth i objs sdummy)) by (unfold smonth_of; now rewrite OM).
    split; [intros j Hj; rewrite A11 by exact Hj; cbn [map]; rewrite <- Tt; apply upd_range_step with d; auto; lia|].
    split; [intros j Hj; rewrite A12 by exact Hj; cbn [map]; rewrite <- Mm; apply upd_range_step with d; auto; lia|].
    cbn [length]. split; [|split].
    + intros a b j. rewrite A13. unfold acc1. cbn [sdata set_slice get].
      apply (slice_step (fun k => get (sdata (nth k objs sdummy)) a b 0) i order (fun j => get (sdata acc) a b j)).
    + intros a b j. rewrite A14. unfold acc1. cbn [smask set_slice get].
      apply (slice_step (fun k => get (smask (nth k objs sdummy)) a b 0) i order (fun j => get (smask acc) a b j)).
    + intros Eb a b j. rewrite (A15 Eb).
      replace (err_at acc1 a b j) with (if j =? t then err_at (nth i objs sdummy) a b 0 else err_at acc a b j) by (symmetry; apply (Ge Eb)).
      apply (slice_step (fun k => err_at (nth k objs sdummy) a b 0) i order (fun j => err_at acc a b j)).
Qed.

Lemma perm_seq_objs {A} (objs : list A) (d : A) order : Permutation order (seq 0 (length objs)) ->
  Permutation (map (fun i => nth i objs d) order) objs.
Proof.
  intros Hp. transitivity (map (fun i => nth i objs d) (seq 0 (length objs))); [now apply Permutation_map|].
  assert (map (fun i => nth i objs d) (seq 0 (length objs)) = objs) as ->; [|apply Permutation_refl].
  apply (nth_ext _ _ d d); [rewrite map_length, seq_length; reflexivity|].
  intros k Hk. rewrite map_length, seq_length in Hk.
  rewrite (nth_indep _ d ((fun i => nth i objs d) 0)) by (rewrite map_length, seq_length; exact Hk).
  rewrite (map_nth (fun i => nth i objs d)), seq_nth by exact Hk. reflexivity.
Qed.

Lemma sfrom_list_spec objs order o0 rest r c eb : objs = o0 :: rest -> (forall o, In o objs -> single_grid r c eb o) ->
  Permutation order (seq 0 (length objs)) ->
  let sorted := map (fun i => nth i objs sdummy) order in
  exists q, sfrom_list order objs = Ok q /\ clean q /\ rows (sdata q) = r /\ cols (sdata q) = c /\ depth (sdata q) = Some (length objs) /\
    slon q = slon o0 /\ slat q = slat o0 /\ sfill q = sfill o0 /\ Permutation sorted objs /\
    stime q = TArr (map stime_of sorted) /\ smonth q = tsqueeze (TArr (adjust_months (map smonth_of sorted))) /\
    (forall i j k, i < r -> j < c -> k < length objs -> seen q i j k = hide (sfill o0) (seen (nth k sorted sdummy) i j 0) /\
       (eb = true -> get (smask q) i j k = false -> err_at q i j k = err_at (nth k sorted sdummy) i j 0)).
Proof.
  intros Eo Ho Hp sorted. unfold sfrom_list. rewrite Eo. rewrite <- Eo.
  destruct (Ho o0) as (W0 & O1 & O2 & O3 & _ & Oe); [rewrite Eo; now left|].
  set (n := length objs) in *.
  assert (Lo : length order = n) by (rewrite (Permutation_length Hp); apply seq_length).
  assert (Hi : forall i, In i order -> i < n). { intros i H. apply (Permutation_in _ Hp) in H. apply in_seq in H. lia. }
  set (acc := mksp _ _ _ _ _ _ _ _).
  destruct (sload_spec objs r c eb Ho order 0 acc (repeat 0%R n) (repeat 0%Z n) n Hi) as
    (q & tt & mm & E & A1 & A2 & A3 & A4 & A5 & A6 & A7 & A8 & A9 & A10 & A11 & A12 & A13 & A14 & A15); auto; try apply repeat_length; [|lia|].
  { cbn. destruct eb; [destruct (serr o0); congruence|now rewrite Oe]. }
  rewrite E. cbn [bind]. rewrite A8.
  assert (Ls : length sorted = n) by (unfold sorted; now rewrite map_length).
  assert (Etm : tt = map stime_of sorted).
  { apply (nth_ext _ _ 0%R 0%R); [rewrite map_length; lia|]. intros j Hj. rewrite A11 by lia.
    rewrite upd_range_all by (rewrite map_length; lia). unfold sorted. now rewrite map_map. }
  assert (Emm : mm = map smonth_of sorted).
  { apply (nth_ext _ _ 0%Z 0%Z); [rewrite map_length; lia|]. intros j Hj. rewrite A12 by lia.
    rewrite upd_range_all by (rewrite map_length; lia). unfold sorted. now rewrite map_map. }
  set (p := mksp _ _ _ _ _ _ _ _). destruct A1 as (S1 & S2 & S3). destruct A2 as (K1 & K2 & K3).
  assert (Sp : shaped p).
  { split; [repeat split; cbn; cbn in *; congruence|]. intros e He. cbn [p serr] in He. rewrite He in A3.
    assert (Acc : forall ea, serr acc = Some ea -> same_shape ea (sdata acc)).
    { intros ea Ea. unfold acc in Ea. cbn [serr] in Ea. destruct (serr o0); [|discriminate]. injection Ea as <-. repeat split. }
    destruct (serr acc) as [ea|]; [|contradiction]. destruct A3 as (B1 & B2 & B3). destruct (Acc ea eq_refl) as (D1 & D2 & D3).
    repeat split; cbn [p sdata]; congruence. }
  exists (um p). split; [now apply um_ok|]. split; [apply um_clean|]. destruct (um_shape p Sp) as (_ & V1 & V2 & V3).
  destruct (um_coord p) as (U1 & U2 & U3 & U4 & U5). rewrite V1, V2, V3, U1, U2, U3, U4, U5. cbn [p sdata slon slat stime smonth sfill].
  split; [rewrite S1; exact O1|]. split; [rewrite S2; exact O2|]. split; [rewrite S3; reflexivity|].
  do 3 (split; [assumption|]). split; [apply perm_seq_objs; exact Hp|]. split; [now rewrite A7, Etm|]. split; [now rewrite Emm|].
  assert (NS : forall k, k < n -> nth (nth k order 0) objs sdummy = nth k sorted sdummy).
  { intros k Hk. unfold sorted. rewrite (nth_indep (map _ order) sdummy ((fun i => nth i objs sdummy) 0)) by (rewrite map_length; lia).
    rewrite (map_nth (fun i => nth i objs sdummy)). reflexivity. }
  intros i j k Hi1 Hj1 Hk. split.
  - rewrite um_seen. cbn [p sfill]. rewrite A6. f_equal. unfold seen. cbn [p smask sdata]. rewrite A13, A14.
    replace ((0 <=? k) && (k <? 0 + length order)) with true by lia. rewrite Nat.sub_0_r, (NS k Hk). reflexivity.
  - intros Eb Km. specialize (A15 Eb i j k). replace ((0 <=? k) && (k <? 0 + length order)) with true in A15 by lia. rewrite Nat.sub_0_r, (NS k Hk) in A15.
    rewrite <- A15. unfold err_at. destruct (serr q) as [e|] eqn:Eq.
    + destruct (um_err p e) as (e' & -> & Ge); [reflexivity|]. now apply Ge.
    + rewrite (um_err_none p) by reflexivity. reflexivity.
Qed.

(** * subset *)
Lemma sgather_spec s ts ms : forall idx t acc d at_ am,
  depth (sdata acc) = Some d -> stime acc = TArr at_ -> smonth acc = TArr am ->
  length at_ = d -> length am = d -> (forall i, In i idx -> i < length ts /\ i < length ms) ->
  t + length idx <= d ->
  exists r tt mm, sgather s ts ms idx t acc = Ok r /\ slon r = slon acc /\ slat r = slat acc /\ sfill r = sfill acc /\
    same_shape (sdata r) (sdata acc) /\ same_shape (smask r) (smask acc) /\
    match serr r, serr acc with None, None => True | Some a, Some b => same_shape a b | _, _ => False end /\
    stime r = TArr tt /\ smonth r = TArr mm /\ length tt = d /\ length mm = d /\
    (forall j, j < d -> nth j tt 0%R = upd_range 0%R at_ t (map (fun i => nth i ts 0%R) idx) j) /\
    (forall j, j < d -> nth j mm 0%Z = upd_range 0%Z am t (map (fun i => nth i ms 0%Z) idx) j) /\
    (forall a b j, get (sdata r) a b j = if (t <=? j) && (j <? t + length idx) then get (sdata s) a b (nth (j - t) idx 0) else get (sdata acc) a b j) /\
    (forall a b j, get (smask r) a b j = if (t <=? j) && (j <? t + length idx) then get (smask s) a b (nth (j - t) idx 0) else get (smask acc) a b j).
Proof.
  induction idx as [|i idx IH]; intros t acc d at_ am Dc T M Lt Lm Hi Hle; cbn [sgather].
  - exists acc, at_, am. cbn [length map]. unfold upd_range. cbn [length].
    do 4 (split; [reflexivity|]). split; [repeat split|]. split; [repeat split|]. split; [destruct (serr acc); [repeat split|exact I]|].
    do 4 (split; [assumption|]).
    split; [|split; [|split]]; intros;
      (match goal with |- context[(t <=? ?j) && _] => destruct (Nat.leb_spec t j), (Nat.ltb_spec j (t+0)) end); cbn [andb]; try lia; reflexivity.
  - unfold nslice. rewrite Dc. cbn [length] in Hle. replace (t <? d) with true by lia.
    destruct (Hi i (or_introl eq_refl)) as [Hi1 Hi2].
    rewrite (py_get_nth ts i 0%R Hi1), (py_get_nth ms i 0%Z Hi2). cbn [bind]. rewrite T, M.
    set (acc' := mksp _ _ _ _ _ _ _ _).
    destruct (IH (S t) acc' d (upd at_ t (nth i ts 0%R)) (upd am t (nth i ms 0%Z)))
      as (r & tt & mm & E & A1 & A2 & A3 & A4 & A5 & A6 & A7 & A8 & A9 & A10 & A11 & A12 & A13 & A14); auto;
      [now rewrite upd_length|now rewrite upd_length|intros; apply Hi; now right|lia|].
    exists r, tt, mm. split; [exact E|]. do 3 (split; [assumption|]). split; [exact A4|]. split; [exact A5|].
    split. { cbn [acc' serr] in A6. destruct (serr r), (serr acc); auto; destruct (serr s); auto; eapply same_shape_trans; try eassumption; repeat split. }
    do 4 (split; [assumption|]).
    split; [intros j Hj; rewrite A11 by exact Hj; cbn [map]; apply upd_range_step with d; auto; lia|].
    split; [intros j Hj; rewrite A12 by exact Hj; cbn [map]; apply upd_range_step with d; auto; lia|].
    cbn [length]. split; intros a b j.
    + rewrite A13. unfold acc'. cbn [sdata set_slice get]. apply (slice_step (fun k => get (sdata s) a b k) i idx (fun j => get (sdata acc) a b j)).
    + rewrite A14. unfold acc'. cbn [smask set_slice get]. apply (slice_step (fun k => get (smask s) a b k) i idx (fun j => get (smask acc) a b j)).
Qed.

Lemma gsqueeze_ok {A} (a : arr A) : rows a <> 1 -> cols a <> 1 -> exists b, gsqueeze a = Ok b /\ rows b = rows a /\ cols b = cols a /\
  depth b = (match depth a with Some 1 => None | d => d end) /\ forall i j t, t < nslice a -> get b i j t = get a i j t.
Proof.
  intros H1 H2. unfold gsqueeze. replace ((rows a =? 1) || (cols a =? 1)) with false by lia. unfold nslice.
  destruct (depth a) as [[|[|n]]|] eqn:D; eexists; (split; [reflexivity|]); cbn; repeat split; auto.
  intros i j t Ht. replace t with 0 by lia. reflexivity.
Qed.

Lemma ssubset_ok s ts ms months : swf s -> clean s -> depth (sdata s) = Some (length ms) -> stime s = TArr ts -> smonth s = TArr ms ->
  rows (sdata s) <> 1 -> cols (sdata s) <> 1 ->
  NoDup ms -> NoDup months -> (forall x, In x months -> In x ms) -> months <> [] ->
  exists r idx, ssubset s months = Ok r /\ StronglySorted lt idx /\ length idx = length months /\
    (forall i, In i idx <-> i < length ms /\ In (nth i ms 0%Z) months) /\
    atleast_1d (smonth r) = TArr (filter (fun x => memZ x months) ms) /\
    atleast_1d (stime r) = TArr (map (fun i => nth i ts 0%R) idx) /\
    rows (sdata r) = rows (sdata s) /\ cols (sdata r) = cols (sdata s) /\ nslice (sdata r) = length months /\
    slon r = slon s /\ slat r = slat s /\ sfill r = sfill s /\
    forall k i j, k < length months -> i < rows (sdata s) -> j < cols (sdata s) -> seen r i j k = seen s i j (nth k idx 0).
Proof.
  intros W C D T M Nr Nc Nm Nd Hav Hne.
  pose proof W as ((M1 & M2 & M3) & We & W3 & W4 & W5). rewrite D in W5. destruct W5 as (ts' & ms' & T' & M' & Lt & Lm).
  rewrite T in T'. injection T' as <-. rewrite M in M'. injection M' as <-.
  set (idx := filter (fun i => memZ (nth i ms 0%Z) months) (seq 0 (length ms))).
  assert (Lidx : length idx = length months).
  { pose proof (map_nth_filter ms months) as F. fold idx in F.
    assert (length (filter (fun x => memZ x months) ms) = length months) as E.
    { apply Permutation_length. apply NoDup_Permutation; [now apply NoDup_filter|exact Nd|].
      intros x. rewrite filter_In, memZ_in. split; [tauto|]. auto. }
    rewrite <- E, <- F. now rewrite map_length. }
  assert (Hidx : forall i, In i idx <-> i < length ms /\ In (nth i ms 0%Z) months).
  { intros i. unfold idx. rewrite filter_In, in_seq, memZ_in. intuition lia. }
  unfold ssubset. rewrite T, M. cbn [list_of bind].
  assert (existsb (fun x => negb (memZ x ms)) months = false) as ->.
  { destruct (existsb _ months) eqn:E; [|reflexivity]. apply existsb_exists in E as (x & H1 & H2).
    apply Hav in H1. apply memZ_in in H1. rewrite H1 in H2. discriminate. }
  fold idx. set (n := length months) in *. set (acc := mksp _ _ _ _ _ _ _ _).
  destruct (sgather_spec s ts ms idx 0 acc n (repeat 0%R n) (repeat 0%Z n)) as
     (r & tt & mm & E & A1 & A2 & A3 & (S1 & S2 & S3) & (K1 & K2 & K3) & A6 & A7 & A8 & A9 & A10 & A11 & A12 & A13 & A14); auto; try apply repeat_length; [|lia|].
  { intros i Hi. apply Hidx in Hi. lia. }
  rewrite E. cbn [bind].
  assert (Etm : tt = map (fun i => nth i ts 0%R) idx).
  { apply (nth_ext _ _ 0%R 0%R); [rewrite map_length; lia|]. intros j Hj. rewrite A11 by lia.
    apply upd_range_all. rewrite map_length. lia. }
  assert (Emm : mm = filter (fun x => memZ x months) ms).
  { pose proof (map_nth_filter ms months) as F. fold idx in F. rewrite <- F.
    apply (nth_ext _ _ 0%Z 0%Z); [rewrite map_length; lia|]. intros j Hj. rewrite A12 by lia.
    apply upd_range_all. rewrite map_length. lia. }
  cbn [acc sdata smask full rows cols depth] in S1, S2, S3, K1, K2, K3.
  destruct (gsqueeze_ok (sdata r)) as (d1 & G1 & Gr & Gc & Gd & Gv); [congruence|congruence|].
  destruct (gsqueeze_ok (smask r)) as (k1 & H1 & Hr & Hc & Hd & Hv); [congruence|congruence|].
  assert (exists e1, match serr r with None => Ok None | Some e => do e' <- gsqueeze e; Ok (Some e') end = Ok e1 /\
     forall e, e1 = Some e -> same_shape e d1) as (e1 & Ee & Se).
  { destruct (serr r) as [e|]; [|eexists; split; [reflexivity|discriminate]].
    assert (Acc : forall ea, serr acc = Some ea -> same_shape ea (sdata acc)).
    { intros ea Ea. unfold acc in Ea. cbn [serr] in Ea. destruct (serr s); [|discriminate]. injection Ea as <-. repeat split. }
    destruct (serr acc) as [ea|]; [|contradiction]. destruct A6 as (B1 & B2 & B3). destruct (Acc ea eq_refl) as (D1 & D2 & D3).
    cbn [acc sdata full rows cols depth] in D1, D2, D3.
    destruct (gsqueeze_ok e) as (e' & X1 & X2 & X3 & X4 & _); [congruence|congruence|]. rewrite X1. cbn [bind].
    eexists; split; [reflexivity|]. intros e0 E0. injection E0 as <-. repeat split; try congruence. rewrite X4, Gd, B3, D3, S3. reflexivity. }
  unfold ssqueeze. rewrite G1, H1. cbn [bind]. rewrite Ee. cbn [bind]. set (p := mksp _ _ _ _ _ _ _ _).
  assert (Sp : shaped p). { split; [|exact Se]. repeat split; cbn [p smask sdata]; try congruence. rewrite Hd, Gd, K3, S3. reflexivity. }
  exists (um p), idx. split; [now apply um_ok|]. split; [apply sorted_filter_seq|]. split; [exact Lidx|]. split; [exact Hidx|].
  destruct (um_coord p) as (U1 & U2 & U3 & U4 & U5). destruct (um_shape p Sp) as (_ & V1 & V2 & V3).
  rewrite U1, U2, U3, U4, U5, V1, V2. cbn [p sdata slon slat stime smonth sfill]. rewrite A7, A8.
  assert (AT : forall A (l : list A), atleast_1d (tsqueeze (TArr l)) = TArr l) by (intros A [|x [|y l]]; reflexivity).
  rewrite !AT. split; [now rewrite Emm|]. split; [now rewrite Etm|]. split; [congruence|]. split; [congruence|].
  assert (nslice (sdata (um p)) = n) as ->.
  { unfold nslice. rewrite V3. cbn [p sdata]. rewrite Gd, S3. destruct n as [|[|k]]; reflexivity. }
  split; [reflexivity|]. do 3 (split; [assumption|]).
  intros k i j Hk Hi Hj. rewrite um_seen. cbn [p sfill]. rewrite A3. change (sfill acc) with (sfill s).
  assert (In (nth k idx 0) idx) as Hin by (apply nth_In; lia). apply Hidx in Hin.
  rewrite <- (clean_hide s i j (nth k idx 0) C).
  2:{ repeat split; [exact Hi|exact Hj|]. unfold nslice. rewrite D. lia. }
  f_equal. unfold seen. cbn [p smask sdata].
  rewrite Gv by (unfold nslice; rewrite S3; lia). rewrite Hv by (unfold nslice; rewrite K3; lia).
  rewrite A13, A14. replace ((0 <=? k) && (k <? 0 + length idx)) with true by lia. now rewrite Nat.sub_0_r.
Qed.
Lemma ssubset_missing s ts ms months : stime s = TArr ts -> smonth s = TArr ms ->
  (exists x, In x months /\ ~ In x ms) -> ssubset s months = Err IOErr.
Proof.
  intros T M (x & H1 & H2). unfold ssubset. rewrite T, M. cbn [list_of bind].
  assert (existsb (fun x => negb (memZ x ms)) months = true) as ->; [|reflexivity].
  apply existsb_exists. exists x. split; [exact H1|].
  destruct (memZ x ms) eqn:E; [apply memZ_in in E; contradiction|reflexivity].
Qed.
