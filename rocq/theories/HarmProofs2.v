(** More lemmas about the harmonics model: subset, mean, scaling, lists, iteration. *)
From Coq Require Import Reals Lra Permutation Sorted ZifyBool ZifyNat.
From Verif Require Import Base TimeModel Arr HarmModel AdjustProofs HarmProofs.
Close Scope Z_scope.
Open Scope nat_scope.

(** * loops that rewrite single (l,m) entries *)
Lemma fold_set_lm {A} (g : nat * nat -> (nat -> A) -> nat -> A) :
  (forall p u v, (forall t, u t = v t) -> forall t, g p u t = g p v t) ->
  forall ps, NoDup ps -> forall a,
  let r := fold_left (fun acc p => set_lm acc (fst p) (snd p) (g p (get acc (fst p) (snd p)))) ps a in
  same_shape r a /\ forall l m t,
    (In (l, m) ps -> get r l m t = g (l, m) (get a l m) t) /\ (~ In (l, m) ps -> get r l m t = get a l m t).
Proof.
  intros Hg ps Hn. induction Hn as [|[l0 m0] ps Hni Hn IH]; intros a; cbn [fold_left fst snd].
  - split; [repeat split|]. intros; split; [intros []|reflexivity].
  - specialize (IH (set_lm a l0 m0 (g (l0, m0) (get a l0 m0)))). cbv zeta in IH. destruct IH as [S V].
    split; [exact S|]. intros l m t. destruct (V l m t) as [V1 V2]. split.
    + intros [[= <- <-]|Hin].
      * rewrite V2 by exact Hni. cbn [set_lm get]. rewrite !Nat.eqb_refl. reflexivity.
      * rewrite V1 by exact Hin. apply Hg. intros t'. cbn [set_lm get].
        destruct (Nat.eqb_spec l l0), (Nat.eqb_spec m m0); cbn [andb]; try reflexivity. subst; contradiction.
    + intros H. rewrite V2 by (intros Hc; apply H; now right). cbn [set_lm get].
      destruct (Nat.eqb_spec l l0), (Nat.eqb_spec m m0); cbn [andb]; try reflexivity.
      subst. exfalso; apply H; now left.
Qed.

(** * mean *)
Lemma mean_arr_spec L M a idx :
  same_shape (mean_arr L M a idx) (full (A := R) (L + 1) (M + 1) None 0%R) /\
  forall l m t, get (mean_arr L M a idx) l m t =
    if (m <=? l) && (l <=? L) && (m <=? M) then Rmean (map (get a l m) idx) else 0%R.
Proof.
  pose proof (fold_set_lm (fun p (u : nat -> R) (_ : nat) => mean_val a idx (fst p) (snd p))) as F.
  specialize (F ltac:(reflexivity) _ (lm_loop_nodup L M) (full (L + 1) (M + 1) None 0%R)). cbv zeta in F.
  fold (mean_arr L M a idx) in F. destruct F as [S V]. split; [exact S|].
  intros l m t. destruct (V l m t) as [V1 V2].
  destruct ((m <=? l) && (l <=? L) && (m <=? M)) eqn:E.
  - apply V1. apply lm_loop_in. lia.
  - apply V2. rewrite lm_loop_in. lia.
Qed.

Lemma demean_arr_spec L M a idx :
  same_shape (demean_arr L M a idx) a /\
  forall l m t, get (demean_arr L M a idx) l m t =
    if (m <=? l) && (l <=? L) && (m <=? M) then (get a l m t - Rmean (map (get a l m) idx))%R else get a l m t.
Proof.
  pose proof (fold_set_lm (fun p (u : nat -> R) (t : nat) => (u t - Rmean (map u idx))%R)) as F.
  assert (Hg : forall (p : nat * nat) (u v : nat -> R), (forall t, u t = v t) -> forall t, (u t - Rmean (map u idx))%R = (v t - Rmean (map v idx))%R).
  { intros p u v H t. rewrite H. do 2 f_equal. apply map_ext. exact H. }
  specialize (F Hg _ (lm_loop_nodup L M) a). cbv zeta in F.
  fold (demean_arr L M a idx) in F. destruct F as [S V]. split; [exact S|].
  intros l m t. destruct (V l m t) as [V1 V2].
  destruct ((m <=? l) && (l <=? L) && (m <=? M)) eqn:E.
  - apply V1. apply lm_loop_in. lia.
  - apply V2. rewrite lm_loop_in. lia.
Qed.

Lemma Rsum_minus (f : nat -> R) c idx : Rsum (map (fun t => (f t - c)%R) idx) = (Rsum (map f idx) - INR (length idx) * c)%R.
Proof.
  induction idx as [|i idx IH]; cbn [map Rsum length]; [cbn; lra|].
  rewrite IH, S_INR. lra.
Qed.

Lemma Rmean_residual (f : nat -> R) idx : idx <> [] ->
  Rmean (map (fun t => (f t - Rmean (map f idx))%R) idx) = 0%R.
Proof.
  intros H. unfold Rmean at 1. rewrite Rsum_minus, !map_length. unfold Rmean. rewrite map_length.
  assert (INR (length idx) <> 0%R).
  { apply not_0_INR. destruct idx; [congruence|discriminate]. }
  field. exact H0.
Qed.

Lemma mean_spec h n apply indices :
  depth (clm h) = Some n ->
  let idx := match indices with None => seq 0 n | Some l => l end in
  (forall i, In i idx -> i < n) -> idx <> [] ->
  exists h' mc ms tm mo, mean h apply indices = Ok (h', (mc, ms, tm, mo)) /\
    (forall l m, m <= l <= lmax h -> m <= mmax h ->
       get mc l m 0 = (Rsum (map (get (clm h) l m) idx) / INR (length idx))%R /\
       get ms l m 0 = (Rsum (map (get (slm h) l m) idx) / INR (length idx))%R) /\
    rows mc = lmax h + 1 /\ cols mc = mmax h + 1 /\ depth mc = None /\
    (apply = false -> h' = h) /\
    (apply = true ->
      lmax h' = lmax h /\ mmax h' = mmax h /\ time h' = time h /\ month h' = month h /\
      same_shape (clm h') (clm h) /\ same_shape (slm h') (slm h) /\
      (forall l m, m <= l <= lmax h -> m <= mmax h ->
         (forall t, (get (clm h) l m t = get mc l m 0 + get (clm h') l m t)%R
                 /\ (get (slm h) l m t = get ms l m 0 + get (slm h') l m t)%R) /\
         (Rsum (map (get (clm h') l m) idx) / INR (length idx) = 0)%R /\
         (Rsum (map (get (slm h') l m) idx) / INR (length idx) = 0)%R) /\
      (forall l m t, l < m -> get (clm h') l m t = get (clm h) l m t /\ get (slm h') l m t = get (slm h) l m t)).
Proof.
  intros D idx Hin Hne. unfold mean. rewrite D. fold idx.
  assert (forallb (fun i => i <? n) idx = true) as F.
  { apply forallb_forall. intros i Hi. apply Hin in Hi. lia. }
  rewrite F. cbn [negb]. destruct (Nat.eqb_spec (length idx) 0) as [Z|Z]; [destruct idx; [congruence|discriminate]|].
  pose proof (mean_arr_spec (lmax h) (mmax h) (clm h) idx) as [Sc Vc].
  pose proof (mean_arr_spec (lmax h) (mmax h) (slm h) idx) as [Ss Vs].
  pose proof (demean_arr_spec (lmax h) (mmax h) (clm h) idx) as [Tc Uc].
  pose proof (demean_arr_spec (lmax h) (mmax h) (slm h) idx) as [Ts Us].
  set (mc := mean_arr _ _ (clm h) idx) in *. set (ms := mean_arr _ _ (slm h) idx) in *.
  set (dc := demean_arr _ _ (clm h) idx) in *. set (ds := demean_arr _ _ (slm h) idx) in *.
  clearbody mc ms dc ds.
  assert (Ec : forall l m t, m <= l <= lmax h -> m <= mmax h -> get mc l m t = Rmean (map (get (clm h) l m) idx)).
  { intros l m t H1 H2. rewrite Vc. replace ((m <=? l) && (l <=? lmax h) && (m <=? mmax h)) with true by lia. reflexivity. }
  assert (Es : forall l m t, m <= l <= lmax h -> m <= mmax h -> get ms l m t = Rmean (map (get (slm h) l m) idx)).
  { intros l m t H1 H2. rewrite Vs. replace ((m <=? l) && (l <=? lmax h) && (m <=? mmax h)) with true by lia. reflexivity. }
  do 5 eexists. split; [reflexivity|]. split.
  { intros l m H1 H2. rewrite Ec, Es by assumption. unfold Rmean. rewrite !map_length. auto. }
  destruct Sc as (S1 & S2 & S3). split; [exact S1|]. split; [exact S2|]. split; [exact S3|].
  split; [intros ->; reflexivity|]. intros ->. cbn [lmax mmax time month clm slm].
  do 6 (split; [first [reflexivity|assumption]|]). split.
  - intros l m H1 H2.
    assert (G1 : forall t, get dc l m t = (get (clm h) l m t - Rmean (map (get (clm h) l m) idx))%R).
    { intros t. rewrite Uc. replace ((m <=? l) && (l <=? lmax h) && (m <=? mmax h)) with true by lia. reflexivity. }
    assert (G2 : forall t, get ds l m t = (get (slm h) l m t - Rmean (map (get (slm h) l m) idx))%R).
    { intros t. rewrite Us. replace ((m <=? l) && (l <=? lmax h) && (m <=? mmax h)) with true by lia. reflexivity. }
    split; [|split].
    + intros t. rewrite G1, G2, Ec, Es by assumption. lra.
    + rewrite (map_ext _ _ G1). pose proof (Rmean_residual (get (clm h) l m) idx Hne) as R0.
      unfold Rmean at 1 in R0. rewrite map_length in R0. exact R0.
    + rewrite (map_ext _ _ G2). pose proof (Rmean_residual (get (slm h) l m) idx Hne) as R0.
      unfold Rmean at 1 in R0. rewrite map_length in R0. exact R0.
  - intros l m t H1. rewrite Uc, Us. replace ((m <=? l) && (l <=? lmax h) && (m <=? mmax h)) with false by lia. auto.
Qed.

(** * scale, power, drift *)
Definition coef_eq (a b : harm) : Prop := heq a b.

Lemma scale_scale h a b : exists r r', scale h (SScalar a) = Ok r /\ scale r (SScalar b) = Ok r' /\
  exists q, scale h (SScalar (a * b)) = Ok q /\ heq r' q.
Proof.
  do 2 eexists. split; [reflexivity|]. split; [reflexivity|]. eexists; split; [reflexivity|].
  repeat split; intros; cbn; lra.
Qed.
Lemma scale_one h : exists r, scale h (SScalar 1) = Ok r /\ heq r h.
Proof. eexists; split; [reflexivity|]. repeat split; intros; cbn; lra. Qed.
Lemma power_one h : heq (power h 1) h.
Proof. repeat split; intros; cbn; lra. Qed.

(** * convolve *)
Lemma conv_arr_spec n L var a :
  same_shape (conv_arr n L var a) a /\
  forall l m t, get (conv_arr n L var a) l m t =
    if (l <=? L) && match n with None => true | Some k => t <? k end then (get a l m t * nth l var 0)%R else get a l m t.
Proof.
  unfold conv_arr.
  assert (G : forall k s a0,
    let r := fold_left (fun acc l0 => mkarr (rows acc) (cols acc) (depth acc)
      (fun l m t => if (l =? l0) && match n with None => true | Some k => t <? k end
                    then (get acc l m t * nth l0 var 0)%R else get acc l m t)) (seq s k) a0 in
    same_shape r a0 /\ forall l m t, get r l m t =
      if (s <=? l) && (l <? s + k) && match n with None => true | Some k => t <? k end then (get a0 l m t * nth l var 0)%R else get a0 l m t).
  { induction k as [|k IH]; intros s a0; cbn [seq fold_left].
    - split; [repeat split|]. intros l m t. replace ((s <=? l) && (l <? s + 0)) with false by lia. reflexivity.
    - specialize (IH (S s) (mkarr (rows a0) (cols a0) (depth a0)
        (fun l m t => if (l =? s) && match n with None => true | Some k => t <? k end
                    then (get a0 l m t * nth s var 0)%R else get a0 l m t))).
      cbv zeta in IH. destruct IH as [S0 V]. split; [exact S0|]. intros l m t. rewrite V. cbn [get].
      set (b := match n with None => true | Some k => t <? k end).
      destruct (Nat.eqb_spec l s) as [->|N].
      + replace ((S s <=? s) && (s <? S s + k)) with false by lia.
        replace ((s <=? s) && (s <? s + S k)) with true by lia. cbn [andb]. reflexivity.
      + cbn [andb]. replace ((s <=? l) && (l <? s + S k)) with ((S s <=? l) && (l <? S s + k)) by lia. reflexivity. }
  destruct (G (L + 1) 0 a) as [S0 V]. split; [exact S0|]. intros l m t. rewrite V.
  replace ((0 <=? l) && (l <? 0 + (L + 1))) with (l <=? L) by lia. reflexivity.
Qed.

Lemma convolve_spec h w : wf h -> lmax h < length w ->
  exists r, convolve h w = Ok r /\ lmax r = lmax h /\ mmax r = mmax h /\ time r = time h /\ month r = month h /\
   forall (sel : harm -> arr R), sel = clm \/ sel = slm ->
     same_shape (sel r) (sel h) /\ forall l m t, inb (sel h) l m t -> get (sel r) l m t = (nth l w 0 * get (sel h) l m t)%R.
Proof.
  intros (W1 & W2 & (W3 & W4 & W5) & W6) H. unfold convolve.
  destruct (depth (clm h)) as [d|] eqn:D.
  - destruct W6 as (ts & ms & T & M & Lt & Lm). rewrite T. cbn [tlen bind]. rewrite Lt.
    destruct (Nat.eqb_spec d 0) as [->|N].
    + exists h. do 5 (split; [first [reflexivity|assumption]|]).
      intros sel Hs. split; [repeat split|]. intros l m t (_ & _ & I3). unfold nslice in I3.
      destruct Hs as [-> | ->]; [rewrite D in I3|rewrite <- W5 in I3]; lia.
    + destruct (Nat.ltb_spec (length w) (lmax h + 1)); [lia|]. rewrite Nat.ltb_irrefl.
      eexists; split; [reflexivity|]. cbn [lmax mmax time month]. 
      split; [auto|]. split; [auto|]. split; [auto|]. split; [auto|].
      intros sel Hs. destruct Hs as [-> | ->]; cbn [clm slm].
      * destruct (conv_arr_spec (Some d) (lmax h) w (clm h)) as [S0 V]. split; [exact S0|].
        intros l m t (I1 & I2 & I3). unfold nslice in I3. rewrite D in I3. rewrite V.
        replace ((l <=? lmax h) && (t <? d)) with true by lia. lra.
      * destruct (conv_arr_spec (Some d) (lmax h) w (slm h)) as [S0 V]. split; [exact S0|].
        intros l m t (I1 & I2 & I3). unfold nslice in I3. rewrite <- W5 in I3. rewrite V.
        replace ((l <=? lmax h) && (t <? d)) with true by lia. lra.
  - destruct (Nat.ltb_spec (length w) (lmax h + 1)); [lia|].
    eexists; split; [reflexivity|]. cbn [lmax mmax time month].
    split; [auto|]. split; [auto|]. split; [auto|]. split; [auto|].
    intros sel Hs. destruct Hs as [-> | ->]; cbn [clm slm].
    * destruct (conv_arr_spec None (lmax h) w (clm h)) as [S0 V]. split; [exact S0|].
      intros l m t (I1 & I2 & I3). rewrite V. replace (l <=? lmax h) with true by lia. cbn [andb]. lra.
    * destruct (conv_arr_spec None (lmax h) w (slm h)) as [S0 V]. split; [exact S0|].
      intros l m t (I1 & I2 & I3). rewrite V. replace (l <=? lmax h) with true by lia. cbn [andb]. lra.
Qed.

Lemma convolve_short h w : wf h -> length w <= lmax h -> (forall n, depth (clm h) = Some n -> n <> 0) ->
  convolve h w = Err IndexError.
Proof.
  intros (W1 & W2 & (W3 & W4 & W5) & W6) H Hn. unfold convolve.
  destruct (Nat.ltb_spec (length w) (lmax h + 1)); [|lia].
  destruct (depth (clm h)) as [d|]; [|reflexivity].
  destruct W6 as (ts & ms & T & M & Lt & Lm). rewrite T. cbn [tlen bind]. rewrite Lt.
  destruct (Nat.eqb_spec d 0) as [->|_]; [exfalso; now apply (Hn 0)|reflexivity].
Qed.

(** * expand_dims / squeeze *)
Lemma expand_squeeze h : wf h -> depth (clm h) = None ->
  (exists t, time h = TScalar t) -> (exists mo, month h = TScalar mo) ->
  exists r, squeeze (expand_dims h) = Ok r /\ heq r h /\ depth (clm (expand_dims h)) = Some 1 /\ wf (expand_dims h).
Proof.
  intros (W1 & W2 & (W3 & W4 & W5) & _) D [t T] [mo M]. unfold expand_dims, squeeze.
  cbn [clm slm time month lmax mmax]. unfold aexpand. rewrite <- W5, D, T, M. cbn [depth atleast_1d].
  eexists; split; [reflexivity|]. cbn [tsqueeze]. split.
  - repeat split; cbn [lmax mmax time month clm slm slice rows cols depth get]; try congruence;
    intros l m t0 (_ & _ & I3); cbn in I3; replace t0 with 0 by lia; reflexivity.
  - split; [reflexivity|]. repeat split; cbn; auto. exists [t], [mo]. auto.
Qed.
Lemma expand_series h n : depth (clm h) = Some n -> depth (slm h) = Some n ->
  (exists l, time h = TArr l) -> (exists l, month h = TArr l) -> expand_dims h = h.
Proof.
  intros D D' [l T] [l' M]. unfold expand_dims, aexpand. rewrite D, D', T, M. cbn. destruct h; cbn in *; congruence.
Qed.
Lemma squeeze_series h n : depth (clm h) = Some n -> n <> 1 -> squeeze h = Ok h.
Proof. intros D N. unfold squeeze. rewrite D. destruct n as [|[|n]]; auto; congruence. Qed.

(** * index and iteration *)
Lemma py_get_nth {A} (l : list A) i d : i < length l -> py_get l (Z.of_nat i) = Ok (nth i l d).
Proof.
  intros H. unfold py_get. replace (Z.of_nat i <? 0)%Z with false by lia.
  replace ((0 <=? Z.of_nat i) && (Z.of_nat i <? Z.of_nat (length l)))%Z with true by lia.
  rewrite Nat2Z.id. destruct (nth_error l i) eqn:E; [|apply nth_error_None in E; lia].
  rewrite (nth_error_nth l i d E). reflexivity.
Qed.

Definition slice_of (h : harm) (i : nat) (ts : list R) (ms : list Z) : harm :=
  mkharm (lmax h) (mmax h) (slice (clm h) i) (slice (slm h) i) (TScalar (nth i ts 0%R)) (TScalar (nth i ms 0%Z)).

Lemma index_spec h n ts ms i : depth (clm h) = Some n -> time h = TArr ts -> month h = TArr ms ->
  length ts = n -> length ms = n -> i < n -> index h (Z.of_nat i) = Ok (slice_of h i ts ms).
Proof.
  intros D T M Lt Lm H. unfold index. rewrite D, T, M. unfold py_index.
  replace (Z.of_nat i <? 0)%Z with false by lia.
  replace ((0 <=? Z.of_nat i) && (Z.of_nat i <? Z.of_nat n))%Z with true by lia. cbn [bind tget].
  rewrite (py_get_nth ts i 0%R) by lia. cbn [bind]. rewrite (py_get_nth ms i 0%Z) by lia. cbn [bind].
  rewrite Nat2Z.id. reflexivity.
Qed.
Lemma index_out h n i : depth (clm h) = Some n -> n <= i -> index h (Z.of_nat i) = Err IndexError.
Proof.
  intros D H. unfold index. rewrite D. unfold py_index. replace (Z.of_nat i <? 0)%Z with false by lia.
  replace ((0 <=? Z.of_nat i) && (Z.of_nat i <? Z.of_nat n))%Z with false by lia. reflexivity.
Qed.
(** negative indices count from the end *)
Lemma index_neg h n ts ms i : depth (clm h) = Some n -> time h = TArr ts -> month h = TArr ms ->
  length ts = n -> length ms = n -> i < n -> index h (Z.of_nat i - Z.of_nat n) = Ok (slice_of h i ts ms).
Proof.
  intros D T M Lt Lm H. unfold index. rewrite D, T, M. unfold py_index.
  replace (Z.of_nat i - Z.of_nat n <? 0)%Z with true by lia.
  replace (Z.of_nat i - Z.of_nat n + Z.of_nat n)%Z with (Z.of_nat i) by lia.
  replace ((0 <=? Z.of_nat i) && (Z.of_nat i <? Z.of_nat n))%Z with true by lia. cbn [bind tget].
  assert (forall A (l : list A) d, length l = n -> py_get l (Z.of_nat i - Z.of_nat n)%Z = Ok (nth i l d)) as G.
  { intros A l d E. rewrite <- (py_get_nth l i d) by lia. unfold py_get.
    replace (Z.of_nat i - Z.of_nat n <? 0)%Z with true by lia. rewrite E.
    replace (Z.of_nat i - Z.of_nat n + Z.of_nat n)%Z with (Z.of_nat i) by lia.
    replace (Z.of_nat i <? 0)%Z with false by lia. reflexivity. }
  rewrite (G _ ts 0%R Lt). cbn [bind]. rewrite (G _ ms 0%Z Lm). cbn [bind]. rewrite Nat2Z.id. reflexivity.
Qed.

Lemma for_loop_S k o acc : for_loop (S k) o acc =
  do r <- iter_next o;
  match r with None => Ok (Some (acc, o)) | Some (x, o') => for_loop k o' (acc ++ [x]) end.
Proof. reflexivity. Qed.

Lemma for_loop_spec h n ts ms : depth (clm h) = Some n -> time h = TArr ts -> month h = TArr ms ->
  length ts = n -> length ms = n ->
  forall k c acc, c + k = n ->
  for_loop (S k) (mkhobj h c) acc = Ok (Some (acc ++ map (fun i => slice_of h i ts ms) (seq c k), mkhobj h n)).
Proof.
  intros D T M Lt Lm. induction k as [|k IH]; intros c acc E.
  - rewrite for_loop_S. unfold iter_next. cbn [ob cursor]. rewrite D. replace (c <? n) with false by lia.
    cbn [bind seq map]. rewrite app_nil_r. repeat f_equal. lia.
  - rewrite for_loop_S. unfold iter_next at 1. cbn [ob cursor]. rewrite D. replace (c <? n) with true by lia.
    rewrite T, M. cbn [tget]. rewrite (py_get_nth ts c 0%R), (py_get_nth ms c 0%Z) by lia. cbn [bind].
    specialize (IH (S c) (acc ++ [slice_of h c ts ms]) ltac:(lia)).
    unfold slice_of at 1 in IH. rewrite IH. cbn [seq map]. rewrite <- app_assoc. reflexivity.
Qed.

(** * subset *)
Definition upd_range {A} (d : A) (l : list A) (t : nat) (vals : list A) (j : nat) : A :=
  if (t <=? j) && (j <? t + length vals) then nth (j - t) vals d else nth j l d.

Lemma gather_spec h ts ms : forall idx t acc d at_ am,
  depth (clm acc) = Some d -> depth (slm acc) = Some d -> time acc = TArr at_ -> month acc = TArr am ->
  length at_ = d -> length am = d -> (forall i, In i idx -> i < length ts /\ i < length ms) ->
  t + length idx <= d ->
  exists r tt mm, gather h ts ms idx t acc = Ok r /\ lmax r = lmax acc /\ mmax r = mmax acc /\
    same_shape (clm r) (clm acc) /\ same_shape (slm r) (slm acc) /\ time r = TArr tt /\ month r = TArr mm /\
    length tt = d /\ length mm = d /\
    (forall j, j < d -> nth j tt 0%R = upd_range 0%R at_ t (map (fun i => nth i ts 0%R) idx) j) /\
    (forall j, j < d -> nth j mm 0%Z = upd_range 0%Z am t (map (fun i => nth i ms 0%Z) idx) j) /\
    (forall l m j, get (clm r) l m j = if (t <=? j) && (j <? t + length idx) then get (clm h) l m (nth (j - t) idx 0) else get (clm acc) l m j) /\
    (forall l m j, get (slm r) l m j = if (t <=? j) && (j <? t + length idx) then get (slm h) l m (nth (j - t) idx 0) else get (slm acc) l m j).
Proof.
  induction idx as [|i idx IH]; intros t acc d at_ am Dc Ds T M Lt Lm Hi Hle.
  - exists acc, at_, am. cbn [gather length map]. unfold upd_range. cbn [length].
    split; [reflexivity|]. split; [reflexivity|]. split; [reflexivity|].
    split; [repeat split|]. split; [repeat split|].
    do 4 (split; [assumption|]).
    split; [|split; [|split]]; intros;
      (match goal with |- context[(t <=? ?j) && _] => destruct (Nat.leb_spec t j), (Nat.ltb_spec j (t+0)) end); cbn [andb]; try lia; reflexivity.
  - cbn [gather]. unfold nslice. rewrite Dc. cbn [length] in Hle. replace (t <? d) with true by lia.
    destruct (Hi i (or_introl eq_refl)) as [Hi1 Hi2].
    rewrite (py_get_nth ts i 0%R Hi1), (py_get_nth ms i 0%Z Hi2). cbn [bind]. rewrite T, M.
    set (acc' := mkharm _ _ _ _ _ _).
    destruct (IH (S t) acc' d (upd at_ t (nth i ts 0%R)) (upd am t (nth i ms 0%Z)))
      as (r & tt & mm & E & A1 & A2 & A3 & A4 & A5 & A6 & A7 & A8 & A9 & A10 & A11 & A12); auto;
      [now rewrite upd_length|now rewrite upd_length|intros; apply Hi; now right|lia|].
    exists r, tt, mm. split; [exact E|]. split; [exact A1|]. split; [exact A2|]. split; [exact A3|]. split; [exact A4|].
    do 4 (split; [assumption|]).
    assert (Aux : forall (A : Type) (dd : A) (l : list A) v vals j, length l = d -> j < d ->
      upd_range dd (upd l t v) (S t) vals j = upd_range dd l t (v :: vals) j).
    { intros A dd l v vals j Ll Hj. unfold upd_range. cbn [length]. rewrite upd_nth, Ll.
      destruct (Nat.eqb_spec t j) as [->|N].
      - replace ((S j <=? j) && (j <? S j + length vals)) with false by lia.
        replace ((j <=? j) && (j <? j + S (length vals))) with true by lia.
        replace (j <? d) with true by lia. rewrite Nat.sub_diag. reflexivity.
      - replace ((t <=? j) && (j <? t + S (length vals))) with ((S t <=? j) && (j <? S t + length vals)) by lia.
        destruct ((S t <=? j) && (j <? S t + length vals)) eqn:B; [|reflexivity].
        replace (j - t) with (S (j - S t)) by lia. reflexivity. }
    split; [intros j Hj; rewrite A9 by exact Hj; cbn [map]; apply Aux; auto|].
    split; [intros j Hj; rewrite A10 by exact Hj; cbn [map]; apply Aux; auto|].
    cbn [length]. split; intros l m j.
    + rewrite A11. unfold acc'. cbn [clm set_slice get].
      destruct (Nat.eqb_spec j t) as [->|N].
      * replace ((S t <=? t) && (t <? S t + length idx)) with false by lia.
        replace ((t <=? t) && (t <? t + S (length idx))) with true by lia. rewrite Nat.sub_diag. reflexivity.
      * replace ((t <=? j) && (j <? t + S (length idx))) with ((S t <=? j) && (j <? S t + length idx)) by lia.
        destruct ((S t <=? j) && (j <? S t + length idx)) eqn:B; [|reflexivity].
        replace (j - t) with (S (j - S t)) by lia. reflexivity.
    + rewrite A12. unfold acc'. cbn [slm set_slice get].
      destruct (Nat.eqb_spec j t) as [->|N].
      * replace ((S t <=? t) && (t <? S t + length idx)) with false by lia.
        replace ((t <=? t) && (t <? t + S (length idx))) with true by lia. rewrite Nat.sub_diag. reflexivity.
      * replace ((t <=? j) && (j <? t + S (length idx))) with ((S t <=? j) && (j <? S t + length idx)) by lia.
        destruct ((S t <=? j) && (j <? S t + length idx)) eqn:B; [|reflexivity].
        replace (j - t) with (S (j - S t)) by lia. reflexivity.
Qed.

(** too many selected slices *)
Lemma gather_overflow h ts ms : forall idx t acc d at_ am,
  depth (clm acc) = Some d -> time acc = TArr at_ -> month acc = TArr am ->
  (forall i, In i idx -> i < length ts /\ i < length ms) -> d < t + length idx -> t <= d ->
  gather h ts ms idx t acc = Err IndexError.
Proof.
  induction idx as [|i idx IH]; intros t acc d at_ am Dc T M Hi Hlt Ht; cbn [length] in Hlt; [lia|].
  cbn [gather]. unfold nslice. rewrite Dc. destruct (Nat.ltb_spec t d) as [L|L]; [|reflexivity].
  destruct (Hi i (or_introl eq_refl)) as [Hi1 Hi2].
  rewrite (py_get_nth ts i 0%R Hi1), (py_get_nth ms i 0%Z Hi2). cbn [bind]. rewrite T, M.
  eapply (IH (S t) _ d); try reflexivity; cbn [clm set_slice depth]; [exact Dc|intros; apply Hi; now right|lia|lia].
Qed.

Lemma memZ_in x l : memZ x l = true <-> In x l.
Proof.
  unfold memZ. rewrite existsb_exists. split.
  - intros (y & H & E). apply Z.eqb_eq in E. congruence.
  - intros H. exists x. split; [exact H|apply Z.eqb_refl].
Qed.

Lemma sorted_filter_seq (P : nat -> bool) s n : StronglySorted lt (filter P (seq s n)).
Proof.
  revert s; induction n as [|n IH]; intros s; cbn [seq filter]; [constructor|].
  destruct (P s); [|apply IH]. constructor; [apply IH|].
  apply Forall_forall. intros x Hx. apply filter_In in Hx as [Hx _]. apply in_seq in Hx. lia.
Qed.

Lemma map_nth_filter (ms months : list Z) :
  map (fun i => nth i ms 0%Z) (filter (fun i => memZ (nth i ms 0%Z) months) (seq 0 (length ms)))
  = filter (fun x => memZ x months) ms.
Proof.
  assert (G : forall pre l, map (fun i => nth i (pre ++ l) 0%Z) (filter (fun i => memZ (nth i (pre ++ l) 0%Z) months) (seq (length pre) (length l)))
     = filter (fun x => memZ x months) l).
  { intros pre l; revert pre. induction l as [|x l IH]; intros pre; cbn [length seq filter map]; [reflexivity|].
    rewrite app_nth2, Nat.sub_diag by lia. cbn [nth].
    specialize (IH (pre ++ [x])). rewrite <- app_assoc in IH. cbn [app] in IH. rewrite app_length in IH. cbn [length] in IH.
    rewrite Nat.add_1_r in IH.
    destruct (memZ x months); cbn [map]; rewrite IH; [|reflexivity].
    rewrite app_nth2, Nat.sub_diag by lia. reflexivity. }
  apply (G [] ms).
Qed.

Lemma subset_missing h ts ms months : time h = TArr ts -> month h = TArr ms ->
  (exists x, In x months /\ ~ In x ms) -> subset h months = Err IOErr.
Proof.
  intros T M (x & H1 & H2). unfold subset. rewrite T, M. cbn [list_of bind].
  assert (existsb (fun x => negb (memZ x ms)) months = true) as ->; [|reflexivity].
  apply existsb_exists. exists x. split; [exact H1|].
  destruct (memZ x ms) eqn:E; [apply memZ_in in E; contradiction|reflexivity].
Qed.

Lemma subset_core h ts ms months : wf h -> depth (clm h) = Some (length ms) -> time h = TArr ts -> month h = TArr ms ->
  (forall x, In x months -> In x ms) ->
  let idx := filter (fun i => memZ (nth i ms 0%Z) months) (seq 0 (length ms)) in
  length idx <= length months ->
  exists r tt mm, (forall r', squeeze r = r' -> subset h months = r') /\
    lmax r = lmax h /\ mmax r = mmax h /\ rows (clm r) = lmax h + 1 /\ cols (clm r) = mmax h + 1 /\ depth (clm r) = Some (length months) /\
    same_shape (slm r) (clm r) /\
    time r = TArr tt /\ month r = TArr mm /\ length tt = length months /\ length mm = length months /\
    (forall j, j < length idx -> nth j tt 0%R = nth (nth j idx 0) ts 0%R /\ nth j mm 0%Z = nth (nth j idx 0) ms 0%Z
       /\ forall l m, get (clm r) l m j = get (clm h) l m (nth j idx 0) /\ get (slm r) l m j = get (slm h) l m (nth j idx 0)) /\
    (forall j, length idx <= j < length months -> nth j tt 0%R = 0%R /\ nth j mm 0%Z = 0%Z
       /\ forall l m, get (clm r) l m j = 0%R /\ get (slm r) l m j = 0%R).
Proof.
  intros (W1 & W2 & (W3 & W4 & W5) & W6) D T M Hav idx Hle. rewrite D in W6.
  destruct W6 as (ts' & ms' & T' & M' & Lt & Lm). rewrite T in T'. injection T' as <-. rewrite M in M'. injection M' as <-.
  unfold subset. rewrite T, M. cbn [list_of bind].
  assert (existsb (fun x => negb (memZ x ms)) months = false) as ->.
  { destruct (existsb _ months) eqn:E; [|reflexivity]. apply existsb_exists in E as (x & H1 & H2).
    apply Hav in H1. apply memZ_in in H1. rewrite H1 in H2. discriminate. }
  fold idx.
  destruct (gather_spec h ts ms idx 0 (zeros (lmax h) (mmax h) (Some (length months)) TNone TNone) (length months)
     (repeat 0%R (length months)) (repeat 0%Z (length months))) as
     (r & tt & mm & E & A1 & A2 & A3 & A4 & A5 & A6 & A7 & A8 & A9 & A10 & A11 & A12); auto.
  - apply repeat_length.
  - apply repeat_length.
  - intros i Hi. apply filter_In in Hi as [Hi _]. apply in_seq in Hi. lia.
  - exists r, tt, mm. rewrite E. cbn [bind]. split; [auto|].
    destruct A3 as (X1 & X2 & X3), A4 as (Y1 & Y2 & Y3). cbn [zeros lmax mmax clm slm full rows cols depth get] in *.
    split; [exact A1|]. split; [exact A2|]. split; [exact X1|]. split; [exact X2|]. split; [exact X3|].
    split; [repeat split; congruence|]. do 4 (split; [assumption|]). split.
    + intros j Hj. rewrite A9, A10 by lia. unfold upd_range. rewrite !map_length.
      replace ((0 <=? j) && (j <? 0 + length idx)) with true by lia. rewrite Nat.sub_0_r.
      split; [|split].
      * rewrite (nth_indep _ 0%R ((fun i => nth i ts 0%R) 0)) by (now rewrite map_length).
        apply (map_nth (fun i => nth i ts 0%R)).
      * rewrite (nth_indep _ 0%Z ((fun i => nth i ms 0%Z) 0)) by (now rewrite map_length).
        apply (map_nth (fun i => nth i ms 0%Z)).
      * intros l m. rewrite A11, A12. replace ((0 <=? j) && (j <? 0 + length idx)) with true by lia.
        rewrite Nat.sub_0_r. auto.
    + intros j Hj. rewrite A9, A10 by lia. unfold upd_range. rewrite !map_length.
      replace ((0 <=? j) && (j <? 0 + length idx)) with false by lia.
      rewrite !nth_repeat. split; [reflexivity|]. split; [reflexivity|].
      intros l m. rewrite A11, A12. replace ((0 <=? j) && (j <? 0 + length idx)) with false by lia. auto.
Qed.

(** clean requests *)
Lemma subset_ok h ts ms months : wf h -> depth (clm h) = Some (length ms) -> time h = TArr ts -> month h = TArr ms ->
  NoDup ms -> NoDup months -> (forall x, In x months -> In x ms) -> months <> [] ->
  exists r idx, subset h months = Ok r /\ StronglySorted lt idx /\ length idx = length months /\
    (forall i, In i idx <-> i < length ms /\ In (nth i ms 0%Z) months) /\
    lmax r = lmax h /\ mmax r = mmax h /\
    atleast_1d (month r) = TArr (filter (fun x => memZ x months) ms) /\
    atleast_1d (time r) = TArr (map (fun i => nth i ts 0%R) idx) /\
    rows (clm r) = lmax h + 1 /\ cols (clm r) = mmax h + 1 /\ same_shape (slm r) (clm r) /\
    nslice (clm r) = length months /\
    forall j, j < length months -> forall l m,
      get (clm r) l m j = get (clm h) l m (nth j idx 0) /\ get (slm r) l m j = get (slm h) l m (nth j idx 0).
Proof.
  intros W D T M Nm Nr Hav Hne.
  set (idx := filter (fun i => memZ (nth i ms 0%Z) months) (seq 0 (length ms))).
  assert (Lidx : length idx = length months).
  { pose proof (map_nth_filter ms months) as F. fold idx in F.
    assert (length (filter (fun x => memZ x months) ms) = length months) as E.
    { apply Permutation_length. apply NoDup_Permutation; [now apply NoDup_filter|exact Nr|].
      intros x. rewrite filter_In, memZ_in. split; [tauto|]. auto. }
    rewrite <- E, <- F. now rewrite map_length. }
  destruct (subset_core h ts ms months W D T M Hav) as
    (r & tt & mm & Sub & A1 & A2 & A3 & A4 & A5 & A6 & A7 & A8 & A9 & A10 & A11 & _); [fold idx; lia|]. fold idx in A11.
  assert (Etm : tt = map (fun i => nth i ts 0%R) idx).
  { apply (nth_ext _ _ 0%R 0%R); [rewrite map_length; lia|]. intros j Hj.
    destruct (A11 j ltac:(lia)) as (B1 & _). rewrite B1. symmetry.
    rewrite (nth_indep _ 0%R ((fun i => nth i ts 0%R) 0)) by (rewrite map_length; lia).
    apply (map_nth (fun i => nth i ts 0%R)). }
  assert (Emm : mm = filter (fun x => memZ x months) ms).
  { pose proof (map_nth_filter ms months) as F. fold idx in F. rewrite <- F.
    apply (nth_ext _ _ 0%Z 0%Z); [rewrite map_length; lia|]. intros j Hj.
    destruct (A11 j ltac:(lia)) as (_ & B2 & _). rewrite B2. symmetry.
    rewrite (nth_indep _ 0%Z ((fun i => nth i ms 0%Z) 0)) by (rewrite map_length; lia).
    apply (map_nth (fun i => nth i ms 0%Z)). }
  assert (Hidx : forall i, In i idx <-> i < length ms /\ In (nth i ms 0%Z) months).
  { intros i. unfold idx. rewrite filter_In, in_seq, memZ_in. intuition lia. }
  destruct (Nat.eq_dec (length months) 1) as [E1|N1].
  - eexists. exists idx. split; [apply Sub; unfold squeeze; rewrite A5, E1; reflexivity|].
    split; [apply sorted_filter_seq|]. split; [exact Lidx|]. split; [exact Hidx|].
    cbn [lmax mmax time month clm slm slice rows cols depth get nslice].
    destruct A6 as (S1 & S2 & S3).
    assert (exists x, tt = [x]) as [x Ex] by (destruct tt as [|x [|y q]]; cbn in *; try lia; eauto).
    assert (exists x, mm = [x]) as [y Ey] by (destruct mm as [|y [|z q]]; cbn in *; try lia; eauto).
    split; [exact A1|]. split; [exact A2|].
    split. { rewrite A8, Ey. cbn [tsqueeze atleast_1d]. rewrite <- Ey. f_equal. exact Emm. }
    split. { rewrite A7, Ex. cbn [tsqueeze atleast_1d]. rewrite <- Ex. f_equal. exact Etm. }
    split; [exact A3|]. split; [exact A4|]. split; [repeat split; cbn; congruence|]. split; [now rewrite E1|].
    intros j Hj l m. replace j with 0 by lia. apply (A11 0 ltac:(lia)).
  - exists r, idx. split; [apply Sub; apply squeeze_series with (n := length months); assumption|].
    split; [apply sorted_filter_seq|]. split; [exact Lidx|]. split; [exact Hidx|].
    split; [exact A1|]. split; [exact A2|]. rewrite A7, A8. cbn [atleast_1d].
    split; [f_equal; exact Emm|]. split; [f_equal; exact Etm|].
    split; [exact A3|]. split; [exact A4|]. split; [exact A6|]. split; [unfold nslice; now rewrite A5|].
    intros j Hj l m. apply (A11 j ltac:(lia)).
Qed.

(** the object holds requested months more often than requested *)
Lemma subset_duplicate_object h ts ms months : wf h -> depth (clm h) = Some (length ms) -> time h = TArr ts -> month h = TArr ms ->
  (forall x, In x months -> In x ms) ->
  length months < length (filter (fun x => memZ x months) ms) -> subset h months = Err IndexError.
Proof.
  intros (W1 & W2 & (W3 & W4 & W5) & W6) D T M Hav Hlt. rewrite D in W6.
  destruct W6 as (ts' & ms' & T' & M' & Lt & Lm). rewrite T in T'. injection T' as <-. rewrite M in M'. injection M' as <-.
  unfold subset. rewrite T, M. cbn [list_of bind].
  assert (existsb (fun x => negb (memZ x ms)) months = false) as ->.
  { destruct (existsb _ months) eqn:E; [|reflexivity]. apply existsb_exists in E as (x & H1 & H2).
    apply Hav in H1. apply memZ_in in H1. rewrite H1 in H2. discriminate. }
  rewrite <- map_nth_filter, map_length in Hlt.
  erewrite gather_overflow; [reflexivity|reflexivity|reflexivity|reflexivity| |cbn [length] in *; lia|lia].
  intros i Hi. apply filter_In in Hi as [Hi _]. apply in_seq in Hi. lia.
Qed.
