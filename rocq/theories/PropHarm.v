(** Property theorems for gravity_toolkit/harmonics.py: C14-C28.
    Vocabulary: Arr.v (arrays, [aeq], [same_shape]), HarmModel.wf (class
    invariant), HarmProofs: [triangle_part], [operand], [compatible],
    [pointwise], [heq]; HarmProofs2.slice_of; HarmProofs3.single. *)
From Coq Require Import Reals Lra Permutation Sorted ZifyBool ZifyNat.
From Verif Require Import Base TimeModel Arr HarmModel AdjustProofs HarmProofs HarmProofs2 HarmProofs3 HeapModel HeapProofs.
Close Scope Z_scope.
Open Scope nat_scope.

(** concrete objects used in the examples *)
Definition ex_single : harm := mkharm 3 2
  (mkarr 4 3 None (fun l m _ => INR (1 + l + 2 * m))) (mkarr 4 3 None (fun l m _ => (- INR (1 + l * m))%R))
  (TScalar 2005%R) (TScalar 37%Z).
Definition ex_series : harm := mkharm 4 3
  (mkarr 5 4 (Some 3) (fun l m t => INR (1 + l + m * t))) (mkarr 5 4 (Some 3) (fun l m t => INR (2 + l * t)))
  (TArr [2004%R; 2005%R; 2006%R]) (TArr [25%Z; 37%Z; 49%Z]).
Example ex_single_wf : wf ex_single /\ single ex_single 2005 37.
Proof. repeat split. Qed.
Example ex_series_wf : wf ex_series.
Proof. repeat split. cbn. do 2 eexists. repeat split. Qed.

(** ** C14 flatten / expand *)
Theorem C14_flatten_expand : forall h, wf h -> mmax h <= lmax h + 1 ->
  exists f h', flatten true h = Ok f /\ expand true f = Ok h' /\
    lmax h' = lmax h /\ mmax h' = mmax h /\ time h' = time h /\ month h' = month h /\
    triangle_part (clm h) (clm h') /\ triangle_part (slm h) (slm h').
Proof. exact flatten_expand. Qed.
Print Assumptions C14_flatten_expand.

Theorem C14_flatten_content : forall h f, mmax h <= lmax h + 1 -> flatten true h = Ok f ->
  Z.of_nat (length (f_clm f)) = n_harm (lmax h) (mmax h) /\
  length (f_slm f) = length (f_clm f) /\ length (f_l f) = length (f_clm f) /\ length (f_m f) = length (f_clm f) /\
  (forall k, k < length (f_clm f) -> exists l m, nth_error (f_l f) k = Some l /\ nth_error (f_m f) k = Some m /\
     m <= l <= lmax h /\ m <= mmax h /\
     (forall t, nth k (f_clm f) (fun _ => 0%R) t = get (clm h) l m t) /\
     (forall t, nth k (f_slm f) (fun _ => 0%R) t = get (slm h) l m t)) /\
  (forall l m, m <= l <= lmax h -> m <= mmax h ->
     exists k, nth_error (f_l f) k = Some l /\ nth_error (f_m f) k = Some m /\
       forall k', nth_error (f_l f) k' = Some l -> nth_error (f_m f) k' = Some m -> k' = k).
Proof. exact flatten_content. Qed.
Print Assumptions C14_flatten_content.

Theorem C14_flatten_order : forall h f, mmax h <= lmax h + 1 -> flatten true h = Ok f ->
  forall i j li mi lj mj, i < j ->
    nth_error (f_l f) i = Some li -> nth_error (f_m f) i = Some mi ->
    nth_error (f_l f) j = Some lj -> nth_error (f_m f) j = Some mj ->
    mi < mj \/ (mi = mj /\ li < lj).
Proof. exact flatten_order. Qed.
Print Assumptions C14_flatten_order.

Example C14_example : exists f, flatten true ex_single = Ok f /\ mmax ex_single <= lmax ex_single + 1 /\
  f_l f = [0;1;2;3;1;2;3;2;3] /\ f_m f = [0;0;0;0;1;1;1;2;2].
Proof. eexists. split; [reflexivity|]. cbn. auto. Qed.

(** ** C15 add / subtract *)
Theorem C15_add_subtract_inverse : forall a b, wf a -> wf b -> compatible a b ->
  (exists r r', add a b = Ok r /\ subtract r b = Ok r' /\ heq r' a) /\
  (exists r r', subtract a b = Ok r /\ add r b = Ok r' /\ heq r' a).
Proof.
  intros a b Wa Wb C. split; apply inverse_ops; auto; intros; lra.
Qed.
Print Assumptions C15_add_subtract_inverse.

Theorem C15_add_common_block : forall a b, wf a -> wf b -> compatible a b ->
  let l1 := Nat.min (lmax a) (lmax b) + 1 in
  let m1 := Nat.min (mmax a) (mmax b) + 1 in
  (exists r, add a b = Ok r /\ lmax r = lmax a /\ mmax r = mmax a /\ time r = time a /\ month r = month a /\
     pointwise Rplus l1 m1 (clm a) (clm b) (clm r) /\ pointwise Rplus l1 m1 (slm a) (slm b) (slm r)) /\
  (exists r, subtract a b = Ok r /\ lmax r = lmax a /\ mmax r = mmax a /\ time r = time a /\ month r = month a /\
     pointwise Rminus l1 m1 (clm a) (clm b) (clm r) /\ pointwise Rminus l1 m1 (slm a) (slm b) (slm r)) /\
  (exists r, multiply a b = Ok r /\ lmax r = lmax a /\ mmax r = mmax a /\ time r = time a /\ month r = month a /\
     pointwise Rmult l1 m1 (clm a) (clm b) (clm r) /\ pointwise Rmult l1 m1 (slm a) (slm b) (slm r)).
Proof. intros a b Wa Wb C. split; [|split]; apply binop_spec; assumption. Qed.
Print Assumptions C15_add_common_block.

(** operands that do not broadcast raise *)
Theorem C15_incompatible_raises : forall a b, wf a -> wf b -> ~ compatible a b ->
  (exists e, add a b = Err e) /\ (exists e, subtract a b = Err e) /\ (exists e, multiply a b = Err e).
Proof. intros a b Wa Wb C. split; [|split]; apply binop_incompatible; assumption. Qed.
Print Assumptions C15_incompatible_raises.

Example C15_example : wf ex_series /\ wf ex_single /\ compatible ex_series ex_single /\ ~ compatible ex_single ex_series
  /\ exists r, add ex_series ex_single = Ok r /\ get (clm r) 3 2 1 = (INR 6 + INR 8)%R /\ get (clm r) 4 2 1 = INR 7.
Proof.
  split; [apply ex_series_wf|]. split; [apply ex_single_wf|]. split; [exact I|]. split; [cbn; auto|].
  eexists. split; [reflexivity|]. split; reflexivity.
Qed.

(** ** C16 multiply / divide *)
Theorem C16_multiply_divide : forall a b, wf a -> wf b -> compatible a b ->
  let l1 := Nat.min (lmax a) (lmax b) + 1 in
  let m1 := Nat.min (mmax a) (mmax b) + 1 in
  (forall l m t, l < l1 -> m < m1 -> m <= l -> operand (clm b) l m t <> 0%R) ->
  (forall l m t, l < l1 -> m < m1 -> m <= l -> m <> 0 -> operand (slm b) l m t <> 0%R) ->
  exists p r, multiply a b = Ok p /\ divide p b = Ok r /\
    (forall l m t, inb (clm a) l m t -> m <= l \/ l1 <= l \/ m1 <= m -> get (clm r) l m t = get (clm a) l m t) /\
    (forall l m t, inb (slm a) l m t -> (m <= l /\ m <> 0) \/ l1 <= l \/ m1 <= m -> get (slm r) l m t = get (slm a) l m t).
Proof. exact multiply_divide. Qed.
Print Assumptions C16_multiply_divide.

Theorem C16_divide_values : forall a b, wf a -> wf b -> compatible a b ->
  let l1 := Nat.min (lmax a) (lmax b) + 1 in
  let m1 := Nat.min (mmax a) (mmax b) + 1 in
  exists r, divide a b = Ok r /\ lmax r = lmax a /\ mmax r = mmax a /\ time r = time a /\ month r = month a /\
    div_pointwise false l1 m1 (clm a) (clm b) (clm r) /\ div_pointwise true l1 m1 (slm a) (slm b) (slm r).
Proof. exact divide_spec. Qed.
Print Assumptions C16_divide_values.

Theorem C16_divide_frame : forall a b r, wf a -> wf b -> compatible a b -> divide a b = Ok r ->
  let l1 := Nat.min (lmax a) (lmax b) + 1 in
  let m1 := Nat.min (mmax a) (mmax b) + 1 in
  (forall l m t, inb (clm a) l m t -> l < m \/ l1 <= l \/ m1 <= m -> get (clm r) l m t = get (clm a) l m t) /\
  (forall l m t, inb (slm a) l m t -> m = 0 \/ l < m \/ l1 <= l \/ m1 <= m -> get (slm r) l m t = get (slm a) l m t).
Proof. exact divide_frame. Qed.
Print Assumptions C16_divide_frame.

Example C16_example : forall l m t, l <= 3 -> m <= 2 -> operand (clm ex_single) l m t <> 0%R /\ operand (slm ex_single) l m t <> 0%R.
Proof.
  intros l m t _ _. unfold operand, ex_single. cbn [clm slm depth get].
  split; [apply not_0_INR; lia|]. apply Ropp_neq_0_compat. apply not_0_INR. lia.
Qed.

(** ** C17 truncate *)
Theorem C17_truncate : forall h L lmin M, M <> 0 ->
  let r := truncate h (Some L) lmin (Some M) in
  lmax r = L /\ mmax r = M /\ time r = time h /\ month r = month h /\
  forall (sel : harm -> arr R), sel = clm \/ sel = slm ->
  rows (sel r) = L + 1 /\ cols (sel r) = M + 1 /\ depth (sel r) = depth (sel h) /\
  forall l m t, l <= L -> m <= M ->
    get (sel r) l m t = if (lmin <=? l) && (l <=? lmax h) && (m <=? mmax h) then get (sel h) l m t else 0%R.
Proof. exact truncate_spec. Qed.
Print Assumptions C17_truncate.

Theorem C17_truncate_twice : forall h L1 lmin1 M1 L2 lmin2 M2, M1 <> 0 -> M2 <> 0 -> L2 <= L1 -> M2 <= M1 ->
  heq (truncate (truncate h (Some L1) lmin1 (Some M1)) (Some L2) lmin2 (Some M2))
      (truncate h (Some L2) (Nat.max lmin1 lmin2) (Some M2)).
Proof. exact truncate_twice. Qed.
Print Assumptions C17_truncate_twice.

Theorem C17_truncate_id : forall h, wf h -> mmax h <> 0 -> heq (truncate h (Some (lmax h)) 0 (Some (mmax h))) h.
Proof. exact truncate_id. Qed.
Print Assumptions C17_truncate_id.

(** the order argument defaults to the degree argument, both to the own degree *)
Theorem C17_truncate_defaults : forall h lmin,
  (forall L, L <> 0 -> truncate h (Some L) lmin None = truncate h (Some L) lmin (Some L)) /\
  (lmax h <> 0 -> truncate h None lmin None = truncate h (Some (lmax h)) lmin (Some (lmax h))).
Proof.
  intros h lmin. unfold truncate. split.
  - reflexivity.
  - reflexivity.
Qed.
Print Assumptions C17_truncate_defaults.

(** a zonal-only request is not honoured: mmax=0 is treated as "no limit" *)
Theorem C17_truncate_zonal_refuted : forall h L lmin, L <> 0 ->
  mmax (truncate h (Some L) lmin (Some 0)) = L /\ mmax (truncate h (Some L) lmin (Some 0)) <> 0.
Proof. intros h L lmin H. cbn. auto. Qed.
Print Assumptions C17_truncate_zonal_refuted.

Example C17_example : let r := truncate ex_single (Some 5) 2 (Some 1) in
  get (clm r) 3 1 0 = INR 6 /\ get (clm r) 1 1 0 = 0%R /\ get (clm r) 5 1 0 = 0%R /\ lmax r = 5.
Proof. repeat split. Qed.

(** ** C18 subset *)
Theorem C18_subset : forall h ts ms months,
  wf h -> depth (clm h) = Some (length ms) -> time h = TArr ts -> month h = TArr ms ->
  NoDup ms -> NoDup months -> (forall x, In x months -> In x ms) -> months <> [] ->
  exists r idx, subset h months = Ok r /\ StronglySorted lt idx /\ length idx = length months /\
    (forall i, In i idx <-> i < length ms /\ In (nth i ms 0%Z) months) /\
    lmax r = lmax h /\ mmax r = mmax h /\
    atleast_1d (month r) = TArr (filter (fun x => memZ x months) ms) /\
    atleast_1d (time r) = TArr (map (fun i => nth i ts 0%R) idx) /\
    rows (clm r) = lmax h + 1 /\ cols (clm r) = mmax h + 1 /\ same_shape (slm r) (clm r) /\
    nslice (clm r) = length months /\
    forall j, j < length months -> forall l m,
      get (clm r) l m j = get (clm h) l m (nth j idx 0) /\ get (slm r) l m j = get (slm h) l m (nth j idx 0).
Proof. exact subset_ok. Qed.
Print Assumptions C18_subset.

Theorem C18_subset_missing_raises : forall h ts ms months, time h = TArr ts -> month h = TArr ms ->
  (exists x, In x months /\ ~ In x ms) -> subset h months = Err IOErr.
Proof. exact subset_missing. Qed.
Print Assumptions C18_subset_missing_raises.

(** a repeated request makes all-zero fields labelled month 0 *)
Theorem C18_repeated_request_refuted : exists h months r,
  wf h /\ (exists ms, month h = TArr ms /\ NoDup ms /\ forall x, In x months -> In x ms) /\
  subset h months = Ok r /\ depth (clm r) = Some 2 /\ month r = TArr [37%Z; 0%Z] /\
  forall l m, get (clm r) l m 1 = 0%R /\ get (slm r) l m 1 = 0%R.
Proof.
  exists ex_series, [37%Z; 37%Z]. eexists. split; [apply ex_series_wf|]. split.
  - eexists. split; [reflexivity|]. split.
    + repeat constructor; cbn; lia.
    + intros x [<-|[<-|[]]]; cbn; auto.
  - split; [reflexivity|]. repeat split.
Qed.
Print Assumptions C18_repeated_request_refuted.

(** an object holding a requested month twice cannot be subset *)
Theorem C18_repeated_month_raises : forall h ts ms months,
  wf h -> depth (clm h) = Some (length ms) -> time h = TArr ts -> month h = TArr ms ->
  (forall x, In x months -> In x ms) ->
  length months < length (filter (fun x => memZ x months) ms) -> subset h months = Err IndexError.
Proof. exact subset_duplicate_object. Qed.
Print Assumptions C18_repeated_month_raises.

Example C18_example : exists r, subset ex_series [49%Z; 25%Z] = Ok r /\ month r = TArr [25%Z; 49%Z]
  /\ get (clm r) 2 1 1 = INR 5 /\ get (clm ex_series) 2 1 2 = INR 5.
Proof. eexists. split; [reflexivity|]. repeat split. Qed.

(** ** C19 mean *)
Theorem C19_mean : forall h n apply indices,
  depth (clm h) = Some n ->
  let idx := match indices with None => seq 0 n | Some l => l end in
  (forall i, In i idx -> i < n) -> idx <> [] ->
  exists h' mc ms tm mo, mean h apply indices = Ok (h', (mc, ms, tm, mo)) /\
    (forall l m, m <= l <= lmax h -> m <= mmax h ->
       get mc l m 0 = (Rsum (map (get (clm h) l m) idx) / INR (length idx))%R /\
       get ms l m 0 = (Rsum (map (get (slm h) l m) idx) / INR (length idx))%R) /\
    rows mc = lmax h + 1 /\ cols mc = mmax h + 1 /\ depth mc = None /\
    (apply = false -> h' = h) /\
    (apply = true ->
      lmax h' = lmax h /\ mmax h' = mmax h /\ time h' = time h /\ month h' = month h /\
      same_shape (clm h') (clm h) /\ same_shape (slm h') (slm h) /\
      (forall l m, m <= l <= lmax h -> m <= mmax h ->
         (forall t, (get (clm h) l m t = get mc l m 0 + get (clm h') l m t)%R
                 /\ (get (slm h) l m t = get ms l m 0 + get (slm h') l m t)%R) /\
         (Rsum (map (get (clm h') l m) idx) / INR (length idx) = 0)%R /\
         (Rsum (map (get (slm h') l m) idx) / INR (length idx) = 0)%R) /\
      (forall l m t, l < m -> get (clm h') l m t = get (clm h) l m t /\ get (slm h') l m t = get (slm h) l m t)).
Proof. exact mean_spec. Qed.
Print Assumptions C19_mean.

Example C19_example : depth (clm ex_series) = Some 3 /\ (forall i, In i [0; 2] -> i < 3) /\ [0; 2] <> [].
Proof. repeat split; [intros i [<-|[<-|[]]]; lia|discriminate]. Qed.

(** ** C20 scale, power, drift *)
Theorem C20_scale_compose : forall h a b, exists r r', scale h (SScalar a) = Ok r /\ scale r (SScalar b) = Ok r' /\
  exists q, scale h (SScalar (a * b)) = Ok q /\ heq r' q.
Proof. exact scale_scale. Qed.
Print Assumptions C20_scale_compose.

Theorem C20_scale_one : forall h, exists r, scale h (SScalar 1) = Ok r /\ heq r h.
Proof. exact scale_one. Qed.
Print Assumptions C20_scale_one.

Theorem C20_scale_values : forall h a, exists r, scale h (SScalar a) = Ok r /\ same_shape (clm r) (clm h) /\ same_shape (slm r) (slm h) /\
  time r = time h /\ month r = month h /\
  forall l m t, get (clm r) l m t = (a * get (clm h) l m t)%R /\ get (slm r) l m t = (a * get (slm h) l m t)%R.
Proof. intros h a. eexists; split; [reflexivity|]. repeat split. Qed.
Print Assumptions C20_scale_values.

(** an array of factors applied to a single field gives one field per factor *)
Theorem C20_scale_array : forall h vs, wf h -> depth (clm h) = None ->
  exists r, scale h (SArr vs) = Ok r /\ depth (clm r) = Some (length vs) /\ depth (slm r) = Some (length vs) /\
    forall l m t, t < length vs -> get (clm r) l m t = (nth t vs 0 * get (clm h) l m 0)%R /\
                                   get (slm r) l m t = (nth t vs 0 * get (slm h) l m 0)%R.
Proof. intros h vs W D. unfold scale. rewrite D. eexists; split; [reflexivity|]. repeat split. Qed.
Print Assumptions C20_scale_array.

(** an array of factors, one per month, applied to a series raises *)
Theorem C20_scale_series_refuted : exists h vs n, wf h /\ depth (clm h) = Some n /\ length vs = n /\ scale h (SArr vs) = Err TypeError.
Proof. exists ex_series, [1%R; 2%R; 3%R], 3. split; [apply ex_series_wf|]. repeat split. Qed.
Print Assumptions C20_scale_series_refuted.

Theorem C20_power : forall h, heq (power h 1) h /\ forall p l m t,
  get (clm (power h p)) l m t = (get (clm h) l m t ^ p)%R /\ get (slm (power h p)) l m t = (get (slm h) l m t ^ p)%R.
Proof. intros h. split; [apply power_one|]. intros; split; reflexivity. Qed.
Print Assumptions C20_power.

Theorem C20_drift : forall h t epoch months, depth (clm h) = None ->
  exists r, drift h t epoch months = Ok r /\ depth (clm r) = Some (length t) /\ time r = TArr t /\
   forall l m i, i < length t ->
     get (clm r) l m i = (get (clm h) l m 0 * (nth i t 0 - epoch))%R /\
     get (slm r) l m i = (get (slm h) l m 0 * (nth i t 0 - epoch))%R /\
     (nth i t 0 = epoch -> get (clm r) l m i = 0 /\ get (slm r) l m i = 0)%R.
Proof.
  intros h t epoch months D. unfold drift. rewrite D. eexists; split; [reflexivity|]. split; [reflexivity|]. split; [reflexivity|].
  intros l m i Hi. cbn [clm slm get]. split; [reflexivity|]. split; [reflexivity|]. intros E. rewrite E. split; lra.
Qed.
Print Assumptions C20_drift.

Example C20_example : exists r, drift ex_single [2004%R; 2005%R] 2005 [25%Z; 37%Z] = Ok r /\
  get (clm r) 1 1 0 = (INR 4 * (2004 - 2005))%R /\ get (clm r) 1 1 1 = (INR 4 * (2005 - 2005))%R.
Proof. eexists. split; [reflexivity|]. split; reflexivity. Qed.

(** ** C21 convolve *)
Theorem C21_convolve : forall h w, wf h -> lmax h < length w ->
  exists r, convolve h w = Ok r /\ lmax r = lmax h /\ mmax r = mmax h /\ time r = time h /\ month r = month h /\
   forall (sel : harm -> arr R), sel = clm \/ sel = slm ->
     same_shape (sel r) (sel h) /\ forall l m t, inb (sel h) l m t -> get (sel r) l m t = (nth l w 0 * get (sel h) l m t)%R.
Proof. exact convolve_spec. Qed.
Print Assumptions C21_convolve.

Theorem C21_convolve_compose : forall h w v, wf h -> lmax h < length w -> lmax h < length v ->
  exists r1 r2 q, convolve h w = Ok r1 /\ convolve r1 v = Ok r2 /\
    convolve h (map (fun p => (fst p * snd p)%R) (combine w v)) = Ok q /\ heq r2 q.
Proof. exact convolve_compose. Qed.
Print Assumptions C21_convolve_compose.

Theorem C21_convolve_unit : forall h w, wf h -> lmax h < length w -> (forall l, l <= lmax h -> nth l w 0%R = 1%R) ->
  exists r, convolve h w = Ok r /\ heq r h.
Proof. exact convolve_unit. Qed.
Print Assumptions C21_convolve_unit.

Theorem C21_convolve_short_raises : forall h w, wf h -> length w <= lmax h -> (forall n, depth (clm h) = Some n -> n <> 0) ->
  convolve h w = Err IndexError.
Proof. exact convolve_short. Qed.
Print Assumptions C21_convolve_short_raises.

Example C21_example : wf ex_series /\ lmax ex_series < length [1%R; 2%R; 3%R; 4%R; 5%R].
Proof. split; [apply ex_series_wf|cbn; lia]. Qed.

(** ** C22 from_list.  [order] is the result of np.argsort on the times (any
    permutation of the indices; with sort=True the times come out sorted). *)
Theorem C22_from_list : forall objs order,
  objs <> [] -> (forall o, In o objs -> wf o /\ exists t mo, single o t mo) ->
  Permutation order (seq 0 (length objs)) ->
  let sorted := map (fun i => nth i objs dummy) order in
  exists r, from_list order objs = Ok r /\
    In (lmax r) (map lmax objs) /\ In (mmax r) (map mmax objs) /\
    (forall o, In o objs -> lmax r <= lmax o /\ mmax r <= mmax o) /\
    rows (clm r) = lmax r + 1 /\ cols (clm r) = mmax r + 1 /\ depth (clm r) = Some (length objs) /\
    same_shape (clm r) (slm r) /\
    Permutation sorted objs /\
    time r = TArr (map time_of sorted) /\ month r = tsqueeze (TArr (adjust_months (map month_of sorted))) /\
    forall j l m, j < length objs -> l <= lmax r -> m <= mmax r ->
      get (clm r) l m j = get (clm (nth j sorted dummy)) l m 0 /\ get (slm r) l m j = get (slm (nth j sorted dummy)) l m 0.
Proof. exact from_list_spec. Qed.
Print Assumptions C22_from_list.

(** with distinct months every object keeps its own month, and sorting by time
    sorts the result *)
Theorem C22_from_list_sorted : forall objs order,
  2 <= length objs -> (forall o, In o objs -> wf o /\ exists t mo, single o t mo) ->
  Permutation order (seq 0 (length objs)) -> NoDup (map month_of objs) ->
  StronglySorted Rle (map (fun i => time_of (nth i objs dummy)) order) ->
  exists r ts, from_list order objs = Ok r /\ wf r /\ time r = TArr ts /\ StronglySorted Rle ts /\
    Permutation ts (map time_of objs) /\
    month r = TArr (map month_of (map (fun i => nth i objs dummy) order)).
Proof.
  intros objs order Hne Ho Hp Nd Hs.
  destruct (from_list_spec objs order) as (r & E & _ & _ & _ & R1 & R2 & R3 & R4 & P & T & M & _); auto.
  { destruct objs; [cbn in Hne; lia|discriminate]. }
  set (sorted := map (fun i => nth i objs dummy) order) in *.
  assert (Ls : length sorted = length objs) by (apply Permutation_length; exact P).
  rewrite adjust_nodup in M by (eapply Permutation_NoDup; [apply Permutation_map, Permutation_sym, P|exact Nd]).
  assert (M' : month r = TArr (map month_of sorted)).
  { rewrite M. destruct sorted as [|a [|b q]] eqn:Es; cbn [length] in Ls; try reflexivity; lia. }
  exists r, (map time_of sorted). split; [exact E|]. split.
  - repeat split; try apply R4; auto. rewrite R3, T, M'. do 2 eexists. split; [reflexivity|]. split; [reflexivity|].
    rewrite !map_length. auto.
  - split; [exact T|]. split; [unfold sorted; rewrite map_map; exact Hs|]. split; [now apply Permutation_map|exact M'].
Qed.
Print Assumptions C22_from_list_sorted.

(** a list with one object gives a series whose month is not indexable: it can
    neither be indexed nor iterated *)
Theorem C22_single_object_refuted : exists o r, wf o /\ single o 2005 37 /\ from_list [0] [o] = Ok r /\
  depth (clm r) = Some 1 /\ index r 0 = Err IndexError /\ iter_next (iter_start (mkhobj r 0)) = Err IndexError.
Proof. exists ex_single. eexists. split; [apply ex_single_wf|]. split; [apply ex_single_wf|]. repeat split. Qed.
Print Assumptions C22_single_object_refuted.

Example C22_example : exists r, from_list [1; 0] [ex_single;
    mkharm 2 2 (mkarr 3 3 None (fun l m _ => 7%R)) (mkarr 3 3 None (fun l m _ => 8%R)) (TScalar 2004%R) (TScalar 25%Z)] = Ok r
  /\ lmax r = 2 /\ month r = TArr [25%Z; 37%Z] /\ get (clm r) 2 1 0 = 7%R /\ get (clm r) 2 1 1 = INR 5.
Proof. eexists. split; [reflexivity|]. repeat split. Qed.

(** ** C23 index and iteration *)
Theorem C23_index : forall h n ts ms i, depth (clm h) = Some n -> time h = TArr ts -> month h = TArr ms ->
  length ts = n -> length ms = n -> i < n ->
  index h (Z.of_nat i) = Ok (slice_of h i ts ms) /\ index h (Z.of_nat i - Z.of_nat n) = Ok (slice_of h i ts ms) /\
  index h (Z.of_nat (n + i)) = Err IndexError.
Proof.
  intros h n ts ms i D T M Lt Lm H. split; [apply index_spec with n; auto|]. split; [apply index_neg; auto|].
  apply index_out with n; auto. lia.
Qed.
Print Assumptions C23_index.

(** starting from any leftover cursor, a for loop visits the slices in order,
    ends, and leaves the object unchanged *)
Theorem C23_iterate : forall h n ts ms, wf h -> depth (clm h) = Some n -> time h = TArr ts -> month h = TArr ms ->
  forall c, exists o, for_loop (S n) (iter_start (mkhobj h c)) [] = Ok (Some (map (fun i => slice_of h i ts ms) (seq 0 n), o)) /\ ob o = h.
Proof. exact iterate_twice. Qed.
Print Assumptions C23_iterate.

Theorem C23_iterate_single_field : forall h c k, depth (clm h) = None ->
  for_loop (S k) (iter_start (mkhobj h c)) [] = Ok (Some ([], mkhobj h 0)).
Proof. exact iterate_rank2. Qed.
Print Assumptions C23_iterate_single_field.

(** the cursor is shared: a loop nested inside a loop over the same object ends
    the outer loop after its first pass *)
Theorem C23_nested_iteration_refuted : forall h n ts ms, wf h -> depth (clm h) = Some n -> time h = TArr ts -> month h = TArr ms -> 2 <= n ->
  exists x o1 xs o2, iter_next (iter_start (mkhobj h 0)) = Ok (Some (x, o1)) /\
    for_loop (S n) (iter_start o1) [] = Ok (Some (xs, o2)) /\ iter_next o2 = Ok None.
Proof.
  intros h n ts ms W D T M Hn.
  pose proof (iterate_twice h n ts ms W D T M 1) as (o2 & E2 & _).
  pose proof W as (_ & _ & _ & W4). rewrite D in W4. destruct W4 as (ts' & ms' & T' & M' & Lt & Lm).
  rewrite T in T'. rewrite M in M'. injection T' as <-. injection M' as <-.
  exists (slice_of h 0 ts ms), (mkhobj h 1), (map (fun i => slice_of h i ts ms) (seq 0 n)), (mkhobj h n). split; [|split].
  - unfold iter_next, iter_start. cbn [ob cursor]. rewrite D, T, M. replace (0 <? n) with true by lia. cbn [tget].
    rewrite (py_get_nth ts 0 0%R), (py_get_nth ms 0 0%Z) by lia. reflexivity.
  - exact (for_loop_spec h n ts ms D T M Lt Lm n 0 [] eq_refl).
  - unfold iter_next. cbn [ob cursor]. rewrite D, Nat.ltb_irrefl. reflexivity.
Qed.
Print Assumptions C23_nested_iteration_refuted.

Example C23_example : exists r, index ex_series (-1) = Ok r /\ month r = TScalar 49%Z /\ get (clm r) 1 1 0 = INR 4.
Proof. eexists. split; [reflexivity|]. repeat split. Qed.

(** ** C24 copy: heap semantics refines independent values *)
Theorem C24_copy_independent : forall s x, owns s x ->
  let (s', y) := copy s x in
  let z := mkstate s' x y in
  obs s' y = obs s x /\
  (forall p, obs (st (run z p)) (ox (run z p)) = fst (prun (obs s x, obs s x) p) /\
             obs (st (run z p)) (oy (run z p)) = snd (prun (obs s x, obs s x) p)) /\
  (forall p, only Y p -> obs (st (run z p)) (ox (run z p)) = obs s x) /\
  (forall p, only X p -> obs (st (run z p)) (oy (run z p)) = obs s x).
Proof. exact copy_independent. Qed.
Print Assumptions C24_copy_independent.

(** the same programs do interfere when y is only another name of x *)
Theorem C24_alias_interferes : exists s x p, owns s x /\ only Y p /\
  obs (st (run (mkstate s x x) p)) x <> obs s x.
Proof.
  exists [CA (full 1 1 None 0%R); CA (full 1 1 None 0%R); CT TNone; CM TNone], (mkhrefs 0 0 0 1 2 3),
    [mkcall Y (mkmode true true true true) (fun v _ => mkharm 0 0 (full 1 1 None 1%R) (slm v) TNone TNone)].
  split; [|split].
  - split; [repeat (constructor; [cbn [In]; intuition discriminate|]); constructor|cbn; intuition lia].
  - intros c [<-|[]]; reflexivity.
  - intros E. apply (f_equal (fun h => get (clm h) 0 0 0)) in E. cbn in E. lra.
Qed.
Print Assumptions C24_alias_interferes.

Example C24_example : owns [CA (clm ex_series); CA (slm ex_series); CT (time ex_series); CM (month ex_series)] (mkhrefs 4 3 0 1 2 3).
Proof. split; [repeat (constructor; [cbn [In]; intuition discriminate|]); constructor|cbn; intuition lia]. Qed.

(** ** C25 expand_dims / squeeze *)
Theorem C25_expand_squeeze : forall h, wf h -> depth (clm h) = None ->
  (exists t, time h = TScalar t) -> (exists mo, month h = TScalar mo) ->
  exists r, squeeze (expand_dims h) = Ok r /\ heq r h /\ depth (clm (expand_dims h)) = Some 1 /\ wf (expand_dims h).
Proof. exact expand_squeeze. Qed.
Print Assumptions C25_expand_squeeze.

Theorem C25_series_untouched : forall h n, wf h -> depth (clm h) = Some n -> n <> 1 ->
  expand_dims h = h /\ squeeze h = Ok h.
Proof.
  intros h n (W1 & W2 & (W3 & W4 & W5) & W6) D N. rewrite D in W6. destruct W6 as (ts & ms & T & M & _).
  split; [apply expand_series with n; eauto; congruence|apply squeeze_series with n; auto].
Qed.
Print Assumptions C25_series_untouched.

Example C25_example : wf ex_single /\ depth (clm ex_single) = None /\ exists t, time ex_single = TScalar t.
Proof. split; [apply ex_single_wf|]. split; [reflexivity|]. eexists; reflexivity. Qed.

(** ** C26 amplitude is cached *)
Theorem C26_first_read : forall h l t, fst (read_amplitude (construct h)) l t =
  sqrt (Rsum (map (fun m => (get (clm h) l m t ^ 2 + get (slm h) l m t ^ 2)%R) (seq 0 (mmax h + 1)))).
Proof. reflexivity. Qed.
Print Assumptions C26_first_read.

(** after the first read no change of the coefficients is seen any more *)
Theorem C26_stale_read_refuted :
  (forall h (f : harm -> harm), fst (read_amplitude (change f (snd (read_amplitude (construct h))))) = amplitude_now h) /\
  exists h f, fst (read_amplitude (change f (snd (read_amplitude (construct h))))) 0 0
              <> amplitude_now (f h) 0 0.
Proof.
  split; [reflexivity|].
  exists (mkharm 0 0 (full 1 1 None 1%R) (full 1 1 None 0%R) TNone TNone),
         (fun h => mkharm 0 0 (full 1 1 None 0%R) (full 1 1 None 0%R) TNone TNone).
  cbn. unfold amplitude_now. cbn. replace (1 * (1 * 1) + 0 * (0 * 1) + 0)%R with 1%R by lra.
  replace (0 * (0 * 1) + 0 * (0 * 1) + 0)%R with 0%R by lra. rewrite sqrt_1, sqrt_0. lra.
Qed.
Print Assumptions C26_stale_read_refuted.

(** in every history of reads and changes, every read returns the amplitude of
    the coefficients at the time of the first read *)
Theorem C26_all_reads_frozen : forall h es u, In u (trace (construct h) es) -> u = amplitude_now (at_first_read h es).
Proof. intros h es u. apply trace_frozen. Qed.
Print Assumptions C26_all_reads_frozen.

(** reading through a copy gives the current value *)
Theorem C26_copy_reads_fresh : forall o, fst (read_amplitude (copy_cached o)) = amplitude_now (cobj o).
Proof. reflexivity. Qed.
Print Assumptions C26_copy_reads_fresh.

(** ** C27 to_masked_array *)
Theorem C27_masked_array : forall h, wf h -> mmax h <= lmax h ->
  let (d, k) := to_masked_array h in
  rows d = lmax h + 1 /\ cols d = 2 * lmax h + 1 /\ depth d = Some (nslice (clm h)) /\ same_shape k d /\
  forall l t, l <= lmax h -> t < nslice (clm h) ->
    (forall m, m <= l -> m <= mmax h ->
       get d l (lmax h + m) t = get (clm h) l m t /\ get k l (lmax h + m) t = false) /\
    (forall m, 1 <= m -> m <= l -> m <= mmax h ->
       get d l (lmax h - m) t = get (slm h) l m t /\ get k l (lmax h - m) t = false) /\
    (forall c, c < 2 * lmax h + 1 ->
       (forall m, m <= l -> m <= mmax h -> c <> lmax h + m /\ c <> lmax h - m) -> get k l c t = true).
Proof. exact masked_spec. Qed.
Print Assumptions C27_masked_array.

Example C27_example : wf ex_series /\ mmax ex_series <= lmax ex_series /\
  get (fst (to_masked_array ex_single)) 2 5 0 = INR 7 /\ get (fst (to_masked_array ex_single)) 2 1 0 = (- INR 5)%R
  /\ get (snd (to_masked_array ex_single)) 2 6 0 = true.
Proof. split; [apply ex_series_wf|]. split; [cbn; lia|]. repeat split. Qed.

(** ** C28 file round trips.  [rd]/[rt]: rounding of the printed number formats,
    [grace]: calendar_to_grace of a decimal year *)
Theorem C28_ascii_roundtrip : forall rd rt grace date h t, wf h -> mmax h <= lmax h -> single h t (grace (rt t)) ->
  exists ls r, to_ascii rd rt date h = Ok ls /\ from_ascii grace date ls = Ok r /\
    lmax r = lmax h /\ mmax r = mmax h /\ depth (clm r) = None /\ wf r /\
    (date = true -> time r = TScalar (rt t) /\ month r = month h) /\
    forall l m, l <= lmax h -> m <= mmax h ->
      get (clm r) l m 0 = (if m <=? l then rd (get (clm h) l m 0) else 0%R) /\
      get (slm r) l m 0 = (if m <=? l then rd (get (slm h) l m 0) else 0%R).
Proof. exact ascii_roundtrip. Qed.
Print Assumptions C28_ascii_roundtrip.

Theorem C28_netcdf_roundtrip : forall h ms, wf h -> mmax h <= lmax h ->
  match depth (clm h) with None => exists t mo, single h t mo /\ ms = [mo] | Some n => month h = TArr ms end ->
  NoDup ms -> depth (clm h) <> Some 1 ->
  exists f r, to_nc h = Ok f /\ from_nc f = Ok r /\
    lmax r = lmax h /\ mmax r = mmax h /\ time r = time h /\ month r = month h /\
    triangle_part (clm h) (clm r) /\ triangle_part (slm h) (slm r).
Proof. exact nc_roundtrip. Qed.
Print Assumptions C28_netcdf_roundtrip.

(** the month is recomputed from the rounded date when reading ascii files: a
    special month whose date lies in the neighbouring month does not survive *)
Theorem C28_ascii_month_refuted : exists h grace r ls, wf h /\ month h = TScalar 119%Z /\
  to_ascii (fun x => x) (fun x => x) true h = Ok ls /\ from_ascii grace true ls = Ok r /\
  (forall t, (2011 + 9/12 <= t < 2011 + 10/12)%R -> grace t = 118%Z) /\ time h = TScalar (2011 + 39/48)%R /\ month r = TScalar 118%Z.
Proof.
  exists (mkharm 0 0 (full 1 1 None 1%R) (full 1 1 None 0%R) (TScalar (2011 + 39/48)%R) (TScalar 119%Z)), (fun _ => 118%Z).
  do 2 eexists. repeat split.
Qed.
Print Assumptions C28_ascii_month_refuted.

Example C28_example : wf ex_single /\ mmax ex_single <= lmax ex_single /\ single ex_single 2005 37 /\ NoDup [25%Z; 37%Z; 49%Z].
Proof. split; [apply ex_single_wf|]. split; [cbn; lia|]. split; [apply ex_single_wf|]. repeat constructor; cbn; lia. Qed.
