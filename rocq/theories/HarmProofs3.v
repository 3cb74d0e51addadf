(** from_list, masked arrays, file round trips. *)
From Coq Require Import Reals Lra Permutation Sorted ZifyBool ZifyNat.
From Verif Require Import Base TimeModel Arr HarmModel AdjustProofs HarmProofs HarmProofs2.
Close Scope Z_scope.
Open Scope nat_scope.

(** * from_list *)
Lemma fold_min_spec l x : let k := fold_left Nat.min l x in (k <= x /\ (forall y, In y l -> k <= y)) /\ (k = x \/ In k l).
Proof.
  revert x; induction l as [|a l IH]; intros x; cbn [fold_left].
  - cbn. repeat split; auto; intros y [].
  - specialize (IH (Nat.min x a)). cbv zeta in *. destruct IH as [[H1 H2] H3]. repeat split.
    + lia.
    + intros y [<-|Hy]; [lia|auto].
    + destruct H3 as [H3|H3]; [|right; now right].
      rewrite H3. destruct (Nat.min_spec x a) as [[_ E]|[_ E]]; rewrite E; [now left|right; now left].
Qed.
Lemma list_min_spec l : l <> [] -> exists k, list_min l = Ok k /\ In k l /\ forall y, In y l -> k <= y.
Proof.
  destruct l as [|x l]; [congruence|]. intros _. unfold list_min. eexists; split; [reflexivity|].
  destruct (fold_min_spec l x) as [[H1 H2] H3]. split.
  - destruct H3 as [H3|H3]; [left; auto|now right].
  - intros y [<-|Hy]; auto.
Qed.

Definition single (o : harm) (t : R) (mo : Z) : Prop :=
  depth (clm o) = None /\ time o = TScalar t /\ month o = TScalar mo.
Definition dummy : harm := mkharm 0 0 (full 1 1 None 0%R) (full 1 1 None 0%R) (TScalar 0%R) (TScalar 0%Z).
Definition time_of (o : harm) : R := match time o with TScalar t => t | _ => 0%R end.
Definition month_of (o : harm) : Z := match month o with TScalar t => t | _ => 0%Z end.

Lemma load_list_spec objs : (forall o, In o objs -> exists t mo, single o t mo) ->
  forall order t c s ts ms d, (forall i, In i order -> i < length objs) ->
  length ts = d -> length ms = d -> t + length order <= d ->
  exists c' s' ts' ms', load_list objs order t c s ts ms = Ok (c', s', ts', ms') /\
    same_shape c' c /\ same_shape s' s /\ length ts' = d /\ length ms' = d /\
    (forall j, j < d -> nth j ts' 0%R = upd_range 0%R ts t (map (fun i => time_of (nth i objs dummy)) order) j) /\
    (forall j, j < d -> nth j ms' 0%Z = upd_range 0%Z ms t (map (fun i => month_of (nth i objs dummy)) order) j) /\
    (forall l m j, get c' l m j = if (t <=? j) && (j <? t + length order) then get (clm (nth (nth (j - t) order 0) objs dummy)) l m 0 else get c l m j) /\
    (forall l m j, get s' l m j = if (t <=? j) && (j <? t + length order) then get (slm (nth (nth (j - t) order 0) objs dummy)) l m 0 else get s l m j).
Proof.
  intros Ho. induction order as [|i order IH]; intros t c s ts ms d Hi Lt Lm Hle; cbn [load_list].
  - exists c, s, ts, ms. cbn [length map]. unfold upd_range. cbn [length].
    split; [reflexivity|]. split; [repeat split|]. split; [repeat split|]. do 2 (split; [assumption|]).
    split; [|split; [|split]]; intros;
      (match goal with |- context[(t <=? ?j) && _] => destruct (Nat.leb_spec t j), (Nat.ltb_spec j (t+0)) end); cbn [andb]; try lia; reflexivity.
  - cbn [length] in Hle. pose proof (Hi i (or_introl eq_refl)) as Hi0.
    rewrite (nth_error_nth' objs dummy Hi0).
    destruct (Ho (nth i objs dummy) (nth_In _ _ Hi0)) as (tt & mo & D & T & M).
    rewrite D, T, M. cbn [scalar bind].
    set (c1 := set_slice c t _). set (s1 := set_slice s t _).
    destruct (IH (S t) c1 s1 (upd ts t tt) (upd ms t mo) d) as
      (c' & s' & ts' & ms' & E & A1 & A2 & A3 & A4 & A5 & A6 & A7 & A8);
      [intros; apply Hi; now right|now rewrite upd_length|now rewrite upd_length|lia|].
    exists c', s', ts', ms'. split; [exact E|]. split; [exact A1|]. split; [exact A2|]. do 2 (split; [assumption|]).
    assert (Aux : forall (A : Type) (dd : A) (l : list A) v vals j, length l = d -> j < d ->
      upd_range dd (upd l t v) (S t) vals j = upd_range dd l t (v :: vals) j).
    { intros A dd l v vals j Ll Hj. unfold upd_range. cbn [length]. rewrite upd_nth, Ll.
      destruct (Nat.eqb_spec t j) as [->|N].
      - replace ((S j <=? j) && (j <? S j + length vals)) with false by lia.
        replace ((j <=? j) && (j <? j + S (length vals))) with true by lia.
        replace (j <? d) with true by lia. rewrite Nat.sub_diag. reflexivity.
      - replace ((t <=? j) && (j <? t + S (length vals))) with ((S t <=? j) && (j <? S t + length vals)) by lia.
        destruct ((S t <=? j) && (j <? S t + length vals)) eqn:B; [|reflexivity].
        replace (j - t) with (S (j - S t)) by lia. reflexivity. }
    assert (Tt : tt = time_of (nth i objs dummy)) by (unfold time_of; now rewrite T).
    assert (Mm : mo = month_of (nth i objs dummy)) by (unfold month_of; now rewrite M).
    split; [intros j Hj; rewrite A5 by exact Hj; cbn [map]; rewrite <- Tt; apply Aux; auto|].
    split; [intros j Hj; rewrite A6 by exact Hj; cbn [map]; rewrite <- Mm; apply Aux; auto|].
    cbn [length]. split; intros l m j.
    + rewrite A7. unfold c1. cbn [set_slice get].
      destruct (Nat.eqb_spec j t) as [->|N].
      * replace ((S t <=? t) && (t <? S t + length order)) with false by lia.
        replace ((t <=? t) && (t <? t + S (length order))) with true by lia. rewrite Nat.sub_diag. reflexivity.
      * replace ((t <=? j) && (j <? t + S (length order))) with ((S t <=? j) && (j <? S t + length order)) by lia.
        destruct ((S t <=? j) && (j <? S t + length order)) eqn:B; [|reflexivity].
        replace (j - t) with (S (j - S t)) by lia. reflexivity.
    + rewrite A8. unfold s1. cbn [set_slice get].
      destruct (Nat.eqb_spec j t) as [->|N].
      * replace ((S t <=? t) && (t <? S t + length order)) with false by lia.
        replace ((t <=? t) && (t <? t + S (length order))) with true by lia. rewrite Nat.sub_diag. reflexivity.
      * replace ((t <=? j) && (j <? t + S (length order))) with ((S t <=? j) && (j <? S t + length order)) by lia.
        destruct ((S t <=? j) && (j <? S t + length order)) eqn:B; [|reflexivity].
        replace (j - t) with (S (j - S t)) by lia. reflexivity.
Qed.

Lemma upd_range_all {A} (d : A) l vals j : j < length vals -> upd_range d l 0 vals j = nth j vals d.
Proof. intros H. unfold upd_range. replace ((0 <=? j) && (j <? 0 + length vals)) with true by lia. now rewrite Nat.sub_0_r. Qed.

Lemma from_list_spec objs order :
  objs <> [] -> (forall o, In o objs -> wf o /\ exists t mo, single o t mo) ->
  Permutation order (seq 0 (length objs)) ->
  let sorted := map (fun i => nth i objs dummy) order in
  exists r, from_list order objs = Ok r /\
    In (lmax r) (map lmax objs) /\ In (mmax r) (map mmax objs) /\
    (forall o, In o objs -> lmax r <= lmax o /\ mmax r <= mmax o) /\
    rows (clm r) = lmax r + 1 /\ cols (clm r) = mmax r + 1 /\ depth (clm r) = Some (length objs) /\
    same_shape (clm r) (slm r) /\
    Permutation sorted objs /\
    time r = TArr (map time_of sorted) /\ month r = tsqueeze (TArr (adjust_months (map month_of sorted))) /\
    forall j l m, j < length objs -> l <= lmax r -> m <= mmax r ->
      get (clm r) l m j = get (clm (nth j sorted dummy)) l m 0 /\ get (slm r) l m j = get (slm (nth j sorted dummy)) l m 0.
Proof.
  intros Hne Ho Hp sorted. unfold from_list.
  destruct (list_min_spec (map lmax objs)) as (L & EL & InL & ML); [destruct objs; [congruence|discriminate]|].
  destruct (list_min_spec (map mmax objs)) as (M & EM & InM & MM); [destruct objs; [congruence|discriminate]|].
  rewrite EL, EM. cbn [bind].
  assert (Lo : length order = length objs) by (rewrite (Permutation_length Hp); apply seq_length).
  assert (Hi : forall i, In i order -> i < length objs).
  { intros i H. apply (Permutation_in _ Hp) in H. apply in_seq in H. lia. }
  set (n := length objs) in *.
  destruct (load_list_spec objs (fun o H => proj2 (Ho o H)) order 0 (full (L + 1) (M + 1) (Some n) 0%R) (full (L + 1) (M + 1) (Some n) 0%R)
      (repeat 0%R n) (repeat 0%Z n) n Hi (repeat_length _ _) (repeat_length _ _)) as
      (c' & s' & ts' & ms' & E & (A1 & A1' & A1'') & (A2 & A2' & A2'') & A3 & A4 & A5 & A6 & A7 & A8); [lia|].
  rewrite E. cbn [bind]. eexists; split; [reflexivity|]. cbn [lmax mmax clm slm time month].
  split; [exact InL|]. split; [exact InM|].
  split. { intros o H. split; [apply ML|apply MM]; now apply in_map. }
  do 3 (split; [assumption|]). split; [repeat split; congruence|].
  assert (Ps : Permutation sorted objs).
  { unfold sorted. transitivity (map (fun i => nth i objs dummy) (seq 0 n)); [now apply Permutation_map|].
    assert (map (fun i => nth i objs dummy) (seq 0 n) = objs) as ->; [|apply Permutation_refl].
    apply (nth_ext _ _ dummy dummy); [rewrite map_length, seq_length; reflexivity|].
    intros k Hk. rewrite map_length, seq_length in Hk.
    rewrite (nth_indep _ dummy ((fun i => nth i objs dummy) 0)) by (rewrite map_length, seq_length; exact Hk).
    rewrite (map_nth (fun i => nth i objs dummy)), seq_nth by exact Hk. reflexivity. }
  split; [exact Ps|].
  assert (Lsort : length sorted = n) by (unfold sorted; rewrite map_length; exact Lo).
  split. { f_equal. apply (nth_ext _ _ 0%R 0%R); [rewrite map_length; lia|]. intros j Hj. rewrite A5 by lia.
    rewrite upd_range_all by (rewrite map_length; lia). unfold sorted. now rewrite map_map. }
  split. { do 3 f_equal. apply (nth_ext _ _ 0%Z 0%Z); [rewrite map_length; lia|]. intros j Hj. rewrite A6 by lia.
    rewrite upd_range_all by (rewrite map_length; lia). unfold sorted. now rewrite map_map. }
  intros j l m Hj _ _. rewrite A7, A8. replace ((0 <=? j) && (j <? 0 + length order)) with true by lia.
  rewrite Nat.sub_0_r. unfold sorted.
  rewrite (nth_indep (map _ order) dummy ((fun i => nth i objs dummy) 0)) by (rewrite map_length; lia).
  rewrite (map_nth (fun i => nth i objs dummy)). auto.
Qed.

(** * to_masked_array *)
Lemma fold_set_keys {A P} (key : P -> nat * nat) (val : P -> nat -> A) : forall (ps : list P) (a : arr A),
  (forall p q, In p ps -> In q ps -> key p = key q -> p = q) ->
  let r := fold_left (fun acc p => set_lm acc (fst (key p)) (snd (key p)) (val p)) ps a in
  same_shape r a /\ forall l c t,
   (forall p, In p ps -> key p = (l, c) -> get r l c t = val p t) /\
   ((forall p, In p ps -> key p <> (l, c)) -> get r l c t = get a l c t).
Proof.
  induction ps as [|p ps IH]; intros a Hk; cbn [fold_left].
  - split; [repeat split|]. intros; split; [intros p []|reflexivity].
  - specialize (IH (set_lm a (fst (key p)) (snd (key p)) (val p))). cbv zeta in IH.
    destruct IH as [S V]; [intros x y Hx Hy; apply Hk; now right|]. split; [exact S|].
    intros l c t. destruct (V l c t) as [V1 V2]. split.
    + intros q [<-|Hq] E; [|auto].
      destruct (in_dec (fun u v => Nat.eq_dec u v) 0 []) as [[]|_].
      assert (D : (exists q, In q ps /\ key q = (l, c)) \/ (forall q, In q ps -> key q <> (l, c))).
      { clear. induction ps as [|q ps IH]; [right; intros q []|].
        destruct IH as [(x & Hx & Ex)|N]; [left; exists x; split; [now right|exact Ex]|].
        destruct (key q) as [k1 k2] eqn:Ek.
        destruct (Nat.eq_dec k1 l) as [->|N1]; [destruct (Nat.eq_dec k2 c) as [->|N2]|].
        - left. exists q. split; [now left|exact Ek].
        - right. intros x [<-|Hx]; [rewrite Ek; congruence|auto].
        - right. intros x [<-|Hx]; [rewrite Ek; congruence|auto]. }
      destruct D as [(q & Hq & Eq)|N].
      * assert (p = q) as <- by (apply Hk; [now left|now right|congruence]). auto.
      * rewrite V2 by exact N. cbn [set_lm get]. rewrite E. cbn [fst snd]. rewrite !Nat.eqb_refl. reflexivity.
    + intros N. rewrite V2 by (intros q Hq; apply N; now right). cbn [set_lm get].
      assert (Np : key p <> (l, c)) by (apply N; now left). destruct (key p) as [k1 k2]. cbn [fst snd].
      destruct (Nat.eqb_spec l k1), (Nat.eqb_spec c k2); cbn [andb]; try reflexivity. subst; congruence.
Qed.

Lemma signed_loop_in L M l m : In (l, m) (signed_loop L M) <->
  (Z.abs m <= Z.of_nat l /\ (l <= L)%nat /\ Z.abs m <= Z.of_nat M)%Z.
Proof.
  unfold signed_loop. rewrite in_flat_map. split.
  - intros (k & H1 & H2). apply in_map_iff in H2 as (l' & [= <- <-] & H2).
    apply in_seq in H1. apply in_seq in H2. lia.
  - intros (H1 & H2 & H3). exists (Z.to_nat (m + Z.of_nat M)). split; [apply in_seq; lia|].
    cbv zeta. replace (Z.of_nat (Z.to_nat (m + Z.of_nat M)) - Z.of_nat M)%Z with m by lia.
    apply in_map_iff. exists l. split; [reflexivity|]. apply in_seq. lia.
Qed.

Lemma fold_pair {A B P} (f : A -> P -> A) (g : B -> P -> B) ps a b :
  fold_left (fun (acc : A * B) p => (f (fst acc) p, g (snd acc) p)) ps (a, b) = (fold_left f ps a, fold_left g ps b).
Proof. revert a b; induction ps as [|p ps IH]; intros a b; cbn [fold_left fst snd]; auto. Qed.

Lemma masked_spec h : wf h -> mmax h <= lmax h ->
  let (d, k) := to_masked_array h in
  rows d = lmax h + 1 /\ cols d = 2 * lmax h + 1 /\ depth d = Some (nslice (clm h)) /\ same_shape k d /\
  forall l t, l <= lmax h -> t < nslice (clm h) ->
    (forall m, m <= l -> m <= mmax h ->
       get d l (lmax h + m) t = get (clm h) l m t /\ get k l (lmax h + m) t = false) /\
    (forall m, 1 <= m -> m <= l -> m <= mmax h ->
       get d l (lmax h - m) t = get (slm h) l m t /\ get k l (lmax h - m) t = false) /\
    (forall c, c < 2 * lmax h + 1 ->
       (forall m, m <= l -> m <= mmax h -> c <> lmax h + m /\ c <> lmax h - m) -> get k l c t = true).
Proof.
  intros (W1 & W2 & (W3 & W4 & W5) & _) HM. unfold to_masked_array.
  set (n := nslice (aexpand (clm h))).
  assert (En : n = nslice (clm h)) by (unfold n, aexpand, nslice; destruct (depth (clm h)) eqn:E; cbn; rewrite ?E; reflexivity).
  set (key := fun p : nat * Z => (fst p, Z.to_nat (Z.of_nat (lmax h) + snd p))).
  set (val := fun (p : nat * Z) t => if (snd p <? 0)%Z then get (aexpand (slm h)) (fst p) (Z.abs_nat (snd p)) t
                                     else get (aexpand (clm h)) (fst p) (Z.abs_nat (snd p)) t).
  assert (E : fold_left (ma_step h) (signed_loop (lmax h) (mmax h))
    (full (lmax h + 1) (2 * lmax h + 1) (Some n) 0%R, full (lmax h + 1) (2 * lmax h + 1) (Some n) true)
    = (fold_left (fun acc p => set_lm acc (fst (key p)) (snd (key p)) (val p)) (signed_loop (lmax h) (mmax h)) (full (lmax h + 1) (2 * lmax h + 1) (Some n) 0%R),
       fold_left (fun acc p => set_lm acc (fst (key p)) (snd (key p)) (fun _ => false)) (signed_loop (lmax h) (mmax h)) (full (lmax h + 1) (2 * lmax h + 1) (Some n) true))).
  { rewrite <- fold_pair. generalize (signed_loop (lmax h) (mmax h)) as ps.
    generalize (full (lmax h + 1) (2 * lmax h + 1) (Some n) 0%R) as a.
    generalize (full (lmax h + 1) (2 * lmax h + 1) (Some n) true) as b.
    intros b a ps; revert a b; induction ps as [|[l m] ps IH]; intros a b; cbn [fold_left]; [reflexivity|].
    rewrite <- IH. reflexivity. }
  rewrite E.
  assert (Inj : forall p q, In p (signed_loop (lmax h) (mmax h)) -> In q (signed_loop (lmax h) (mmax h)) -> key p = key q -> p = q).
  { intros [l1 m1] [l2 m2] H1 H2. apply signed_loop_in in H1, H2. unfold key. cbn [fst snd]. intros [= -> E2].
    f_equal. lia. }
  destruct (fold_set_keys key val _ (full (lmax h + 1) (2 * lmax h + 1) (Some n) 0%R) Inj) as [(S1 & S2 & S3) V].
  destruct (fold_set_keys key (fun _ _ => false) _ (full (lmax h + 1) (2 * lmax h + 1) (Some n) true) Inj) as [(T1 & T2 & T3) U].
  cbn [full rows cols depth] in S1, S2, S3, T1, T2, T3. split; [exact S1|]. split; [exact S2|]. split; [rewrite S3; now rewrite En|]. split; [repeat split; congruence|].
  assert (Ax : forall a l m t, t < nslice a -> get (aexpand a) l m t = get a l m t).
  { intros a l m t Ht. unfold aexpand, nslice in *. destruct (depth a); cbn [get]; [reflexivity|]. now replace t with 0 by lia. }
  assert (Ns : nslice (slm h) = nslice (clm h)) by (unfold nslice; now rewrite W5).
  intros l t Hl Ht. split; [|split].
  - intros m H1 H2. destruct (V l (lmax h + m) t) as [V1 _]. destruct (U l (lmax h + m) t) as [U1 _].
    assert (In (l, Z.of_nat m) (signed_loop (lmax h) (mmax h))) as Hin by (apply signed_loop_in; lia).
    assert (key (l, Z.of_nat m) = (l, lmax h + m)) as Ek by (unfold key; cbn [fst snd]; f_equal; lia).
    rewrite (V1 _ Hin Ek), (U1 _ Hin Ek). split; [|reflexivity]. unfold val. cbn [fst snd].
    replace (Z.of_nat m <? 0)%Z with false by lia. rewrite Zabs2Nat.id. apply Ax. exact Ht.
  - intros m H0 H1 H2. destruct (V l (lmax h - m) t) as [V1 _]. destruct (U l (lmax h - m) t) as [U1 _].
    assert (In (l, (- Z.of_nat m)%Z) (signed_loop (lmax h) (mmax h))) as Hin by (apply signed_loop_in; lia).
    assert (key (l, (- Z.of_nat m)%Z) = (l, lmax h - m)) as Ek by (unfold key; cbn [fst snd]; f_equal; lia).
    rewrite (V1 _ Hin Ek), (U1 _ Hin Ek). split; [|reflexivity]. unfold val. cbn [fst snd].
    replace (- Z.of_nat m <? 0)%Z with true by lia. replace (Z.abs_nat (- Z.of_nat m)) with m by lia. apply Ax. now rewrite Ns.
  - intros c Hc Hn. destruct (U l c t) as [_ U2]. rewrite U2; [reflexivity|].
    intros [l' m] Hin Ek. apply signed_loop_in in Hin. unfold key in Ek. cbn [fst snd] in Ek. injection Ek as -> Ec.
    specialize (Hn (Z.abs_nat m)). lia.
Qed.

(** * ascii round trip *)
Lemma scan_max_spec (sel : line -> nat) ls : forall a,
  let k := fold_left (fun acc x => if acc <? sel x then sel x else acc) ls a in
  a <= k /\ (forall x, In x ls -> sel x <= k) /\ (k = a \/ exists x, In x ls /\ sel x = k).
Proof.
  induction ls as [|y ls IH]; intros a; cbn [fold_left].
  - cbn. split; [auto|]. split; [intros x []|now left].
  - specialize (IH (if a <? sel y then sel y else a)). cbv zeta in *. destruct IH as (H1 & H2 & H3).
    destruct (Nat.ltb_spec a (sel y)); (split; [lia|]); (split; [intros x [<-|Hx]; [lia|auto]|]).
    + destruct H3 as [H3|(x & Hx & E)]; [right; exists y; split; [now left|auto]|right; exists x; split; [now right|auto]].
    + destruct H3 as [H3|(x & Hx & E)]; [now left|right; exists x; split; [now right|auto]].
Qed.
Lemma scan_max_eq sel ls k : (forall x, In x ls -> sel x <= k) -> (exists x, In x ls /\ sel x = k) -> scan_max sel ls = k.
Proof.
  intros H1 (x & Hx & E). unfold scan_max. destruct (scan_max_spec sel ls 0) as (A & B & C).
  set (r := fold_left _ ls 0) in *. specialize (B x Hx). destruct C as [C|(y & Hy & Ey)]; [lia|]. specialize (H1 y Hy). lia.
Qed.

Lemma ascii_roundtrip rd rt grace date h t : wf h -> mmax h <= lmax h -> single h t (grace (rt t)) ->
  exists ls r, to_ascii rd rt date h = Ok ls /\ from_ascii grace date ls = Ok r /\
    lmax r = lmax h /\ mmax r = mmax h /\ depth (clm r) = None /\ wf r /\
    (date = true -> time r = TScalar (rt t) /\ month r = month h) /\
    forall l m, l <= lmax h -> m <= mmax h ->
      get (clm r) l m 0 = (if m <=? l then rd (get (clm h) l m 0) else 0%R) /\
      get (slm r) l m 0 = (if m <=? l then rd (get (slm h) l m 0) else 0%R).
Proof.
  intros (W1 & W2 & (W3 & W4 & W5) & _) HM (D & T & M). unfold to_ascii. rewrite D, T.
  set (aux := if date then [rt t] else []).
  set (mk := fun p : nat * nat => mkline (fst p) (snd p) (rd (get (clm h) (fst p) (snd p) 0)) (rd (get (slm h) (fst p) (snd p) 0)) aux).
  set (ls := map mk (lm_loop (lmax h) (mmax h))).
  assert ((if date then Ok (map (fun p => mkline (fst p) (snd p) (rd (get (clm h) (fst p) (snd p) 0)) (rd (get (slm h) (fst p) (snd p) 0)) [rt t]) (lm_loop (lmax h) (mmax h)))
           else Ok (map (fun p => mkline (fst p) (snd p) (rd (get (clm h) (fst p) (snd p) 0)) (rd (get (slm h) (fst p) (snd p) 0)) []) (lm_loop (lmax h) (mmax h)))) = Ok ls) as ->
    by (unfold ls, mk, aux; destruct date; reflexivity).
  exists ls. assert (EL : scan_max ln_l ls = lmax h).
  { apply scan_max_eq.
    - intros x Hx. apply in_map_iff in Hx as ([l m] & <- & Hin). apply lm_loop_in in Hin. cbn. lia.
    - exists (mk (lmax h, 0)). split; [|reflexivity]. apply in_map. apply lm_loop_in. lia. }
  assert (EM : scan_max ln_m ls = mmax h).
  { apply scan_max_eq.
    - intros x Hx. apply in_map_iff in Hx as ([l m] & <- & Hin). apply lm_loop_in in Hin. cbn. lia.
    - exists (mk (mmax h, mmax h)). split; [|reflexivity]. apply in_map. apply lm_loop_in. lia. }
  unfold from_ascii. rewrite EL, EM.
  set (key := fun x : line => (ln_l x, ln_m x)).
  assert (Inj : forall p q, In p ls -> In q ls -> key p = key q -> p = q).
  { intros p q Hp Hq E. apply in_map_iff in Hp as ([l m] & <- & _). apply in_map_iff in Hq as ([l' m'] & <- & _).
    unfold key in E. cbn in E. injection E as -> ->. reflexivity. }
  destruct (fold_set_keys key (fun x _ => ln_c x) ls (full (lmax h + 1) (mmax h + 1) None 0%R) Inj) as [Sc Vc].
  destruct (fold_set_keys key (fun x _ => ln_s x) ls (full (lmax h + 1) (mmax h + 1) None 0%R) Inj) as [Ss Vs].
  cbn [key fst snd] in Sc, Vc, Ss, Vs.
  set (c := fold_left _ ls _) in *. set (s := fold_left (fun acc x => set_lm acc (ln_l x) (ln_m x) (fun _ => ln_s x)) ls _) in *.
  destruct Sc as (C1 & C2 & C3), Ss as (S1 & S2 & S3). cbn [full rows cols depth] in *.
  assert (Val : forall l m, l <= lmax h -> m <= mmax h ->
      get c l m 0 = (if m <=? l then rd (get (clm h) l m 0) else 0%R) /\
      get s l m 0 = (if m <=? l then rd (get (slm h) l m 0) else 0%R)).
  { intros l m Hl Hm. destruct (Vc l m 0) as [A1 A2], (Vs l m 0) as [B1 B2].
    destruct (Nat.leb_spec m l) as [Hml|Hml].
    - assert (Hin : In (mk (l, m)) ls) by (apply in_map; apply lm_loop_in; lia).
      rewrite (A1 _ Hin eq_refl), (B1 _ Hin eq_refl). split; reflexivity.
    - rewrite A2, B2; [split; reflexivity| |]; intros p Hp E; apply in_map_iff in Hp as ([l' m'] & <- & Hin);
      apply lm_loop_in in Hin; unfold key in E; cbn in E; injection E as -> ->; lia. }
  destruct date.
  - destruct (rev ls) as [|x rest] eqn:Er.
    { assert (In (mk (lmax h, 0)) ls) as Hin by (apply in_map; apply lm_loop_in; lia).
      apply in_rev in Hin. rewrite Er in Hin. destruct Hin. }
    assert (In x ls) as Hx by (apply in_rev; rewrite Er; now left).
    apply in_map_iff in Hx as (p & <- & _). cbn [mk ln_aux aux].
    eexists. split; [reflexivity|]. split; [reflexivity|]. cbn [lmax mmax clm slm time month].
    split; [reflexivity|]. split; [reflexivity|]. split; [exact C3|]. split.
    { repeat split; cbn [lmax mmax clm slm]; try congruence. now rewrite C3. }
    split; [|exact Val]. intros _. split; [reflexivity|]. rewrite M, adjust_nodup; [reflexivity|].
    constructor; [intros []|constructor].
  - eexists. split; [reflexivity|]. split; [reflexivity|]. cbn [lmax mmax clm slm time month].
    split; [reflexivity|]. split; [reflexivity|]. split; [exact C3|]. split.
    { repeat split; cbn [lmax mmax clm slm]; try congruence. now rewrite C3. }
    split; [discriminate|exact Val].
Qed.

(** * netCDF4 / HDF5 round trip *)
Lemma nat_max_eq l k : (forall x, In x l -> x <= k) -> In k l -> nat_max l = Ok k.
Proof.
  destruct l as [|a l]; [intros _ []|]. intros H Hin. unfold nat_max. f_equal.
  assert (G : forall l a, let r := fold_left Nat.max l a in a <= r /\ (forall x, In x l -> x <= r) /\ (r = a \/ In r l)).
  { clear. induction l as [|b l IH]; intros a; cbn [fold_left]; [cbn; repeat split; auto; intros x []|].
    specialize (IH (Nat.max a b)). cbv zeta in *. destruct IH as (H1 & H2 & H3). split; [lia|]. split.
    - intros x [<-|Hx]; [lia|auto].
    - set (r := fold_left Nat.max l (Nat.max a b)) in *. destruct H3 as [H3|H3]; [|right; now right]. assert (r = a \/ b = r) as [Q|Q] by lia; [now left|right; now left]. }
  destruct (G l a) as (G1 & G2 & G3). set (r := fold_left Nat.max l a) in *.
  assert (r <= k) by (destruct G3 as [->|G3]; apply H; [now left|now right]).
  assert (k <= r) by (destruct Hin as [<-|Hin]; [exact G1|auto]). lia.
Qed.

Lemma nc_roundtrip h ms : wf h -> mmax h <= lmax h ->
  match depth (clm h) with None => exists t mo, single h t mo /\ ms = [mo] | Some n => month h = TArr ms end ->
  NoDup ms -> depth (clm h) <> Some 1 ->
  exists f r, to_nc h = Ok f /\ from_nc f = Ok r /\
    lmax r = lmax h /\ mmax r = mmax h /\ time r = time h /\ month r = month h /\
    triangle_part (clm h) (clm r) /\ triangle_part (slm h) (slm r).
Proof.
  intros W HM Hms Nd N1. pose proof W as (W1 & W2 & (W3 & W4 & W5) & W6).
  unfold to_nc. rewrite (flatten_ok h true) by lia. cbn [bind f_lmax f_mmax f_l f_m f_depth f_clm f_slm f_time f_month].
  set (ps := lm_loop (lmax h) (mmax h)).
  assert (NL : nat_max (map fst ps) = Ok (lmax h)).
  { apply nat_max_eq.
    - intros x Hx. apply in_map_iff in Hx as ([l m] & <- & Hin). apply lm_loop_in in Hin. cbn. lia.
    - apply in_map_iff. exists (lmax h, 0). split; [reflexivity|]. apply lm_loop_in. lia. }
  assert (NM : nat_max (map snd ps) = Ok (mmax h)).
  { apply nat_max_eq.
    - intros x Hx. apply in_map_iff in Hx as ([l m] & <- & Hin). apply lm_loop_in in Hin. cbn. lia.
    - apply in_map_iff. exists (mmax h, mmax h). split; [reflexivity|]. apply lm_loop_in. lia. }
  destruct (depth (clm h)) as [n|] eqn:D.
  - destruct W6 as (ts & ms' & T & M & Lt & Lm). rewrite Hms in M. injection M as <-.
    eexists. 
    set (z := full (lmax h + 1) (mmax h + 1) (Some n) 0%R).
    assert (Hb : forall l m, In (l, m) ps -> l < rows z /\ m < cols z).
    { intros l m Hin. apply lm_loop_in in Hin. cbn [z full rows cols]. lia. }
    destruct (scatter_ok ps (fun p t => get (clm h) (fst p) (snd p) t) z Hb (lm_loop_nodup _ _)) as (c & Ec & (C1 & C2 & C3) & Vc).
    destruct (scatter_ok ps (fun p t => get (slm h) (fst p) (snd p) t) z Hb (lm_loop_nodup _ _)) as (s & Es & (S1 & S2 & S3) & Vs).
    cbn [z full rows cols depth get] in C1, C2, C3, S1, S2, S3.
    eexists. split; [reflexivity|]. unfold from_nc. cbn [f_l f_m f_depth f_clm f_slm f_time f_month].
    rewrite NL, NM. cbn [bind]. unfold expand. cbn [f_lmax f_mmax f_l f_m f_depth f_clm f_slm f_time f_month].
    fold z. rewrite Ec. cbn [bind]. rewrite Es. cbn [bind month]. rewrite Hms. cbn [atleast_1d].
    rewrite adjust_nodup by exact Nd.
    assert (tsqueeze (TArr ms) = TArr ms) as -> by (destruct ms as [|x [|y q]]; try reflexivity; cbn in Lm; congruence).
    rewrite squeeze_series with (n := n); [|exact C3|congruence]. split; [reflexivity|].
    cbn [lmax mmax time month clm slm]. do 4 (split; [first [reflexivity|congruence|rewrite T; reflexivity]|]).
    split; (split; [repeat split; congruence|]); intros l m t (I1 & I2 & I3).
    + destruct (Vc l m t) as [V1 V2]. destruct (Nat.leb_spec m l).
      * apply V1. apply lm_loop_in. lia.
      * rewrite V2; [reflexivity|]. unfold ps; rewrite lm_loop_in. lia.
    + destruct (Vs l m t) as [V1 V2]. destruct (Nat.leb_spec m l).
      * apply V1. apply lm_loop_in. lia.
      * rewrite V2; [reflexivity|]. unfold ps; rewrite lm_loop_in. lia.
  - destruct Hms as (t0 & mo & (_ & T & M) & ->). rewrite !map_map.
    eexists.
    set (z := full (lmax h + 1) (mmax h + 1) (Some 1) 0%R).
    assert (Hb : forall l m, In (l, m) ps -> l < rows z /\ m < cols z).
    { intros l m Hin. apply lm_loop_in in Hin. cbn [z full rows cols]. lia. }
    destruct (scatter_ok ps (fun p _ => get (clm h) (fst p) (snd p) 0) z Hb (lm_loop_nodup _ _)) as (c & Ec & (C1 & C2 & C3) & Vc).
    destruct (scatter_ok ps (fun p _ => get (slm h) (fst p) (snd p) 0) z Hb (lm_loop_nodup _ _)) as (s & Es & (S1 & S2 & S3) & Vs).
    cbn [z full rows cols depth get] in C1, C2, C3, S1, S2, S3.
    eexists. split; [reflexivity|]. unfold from_nc. cbn [f_l f_m f_depth f_clm f_slm f_time f_month].
    rewrite NL, NM. cbn [bind]. unfold expand. cbn [f_lmax f_mmax f_l f_m f_depth f_clm f_slm f_time f_month].
    fold z. rewrite Ec. cbn [bind]. rewrite Es. cbn [bind month]. rewrite M, T. cbn [atleast_1d].
    rewrite adjust_nodup by (constructor; [intros []|constructor]).
    unfold squeeze. cbn [clm slm lmax mmax time month tsqueeze]. rewrite C3. split; [reflexivity|].
    cbn [lmax mmax time month clm slm]. do 4 (split; [reflexivity|]).
    split; (split; [repeat split; cbn [slice rows cols depth]; congruence|]); intros l m t (I1 & I2 & I3);
      cbn [slice get]; unfold nslice in I3.
    + rewrite D in I3. replace t with 0 by lia. destruct (Vc l m 0) as [V1 V2]. destruct (Nat.leb_spec m l).
      * apply V1. apply lm_loop_in. lia.
      * rewrite V2; [reflexivity|]. unfold ps; rewrite lm_loop_in. lia.
    + rewrite <- W5 in I3. replace t with 0 by lia. destruct (Vs l m 0) as [V1 V2]. destruct (Nat.leb_spec m l).
      * apply V1. apply lm_loop_in. lia.
      * rewrite V2; [reflexivity|]. unfold ps; rewrite lm_loop_in. lia.
Qed.

(** * the order of the flattened vector: orders outside, degrees inside *)
Definition order_major (a b : nat * nat) : Prop := snd a < snd b \/ (snd a = snd b /\ fst a < fst b).
Lemma sorted_app {A} (P : A -> A -> Prop) u v : StronglySorted P u -> StronglySorted P v ->
  (forall x y, In x u -> In y v -> P x y) -> StronglySorted P (u ++ v).
Proof.
  induction 1 as [|x u Su IH Fx]; intros Sv H; cbn [app]; [exact Sv|]. constructor.
  - apply IH; [exact Sv|]. intros a b Ha Hb. apply H; [now right|exact Hb].
  - apply Forall_app. split; [exact Fx|]. apply Forall_forall. intros y Hy. apply H; [now left|exact Hy].
Qed.
Lemma lm_loop_sorted L M : StronglySorted order_major (lm_loop L M).
Proof.
  unfold lm_loop.
  assert (G : forall n s, StronglySorted order_major (flat_map (fun m => map (fun l => (l, m)) (seq m (L + 1 - m))) (seq s n))); [|apply G].
  induction n as [|n IH]; intros s; cbn [seq flat_map]; [constructor|].
  apply sorted_app; [|apply IH|].
  - assert (Q : forall k q, StronglySorted order_major (map (fun l => (l, s)) (seq q k))); [|apply Q].
    induction k as [|k IHk]; intros q; cbn [seq map]; constructor; [apply IHk|].
    apply Forall_forall. intros x Hx. apply in_map_iff in Hx as (y & <- & Hy). apply in_seq in Hy. right. cbn. lia.
  - intros x y Hx Hy. apply in_map_iff in Hx as (a & <- & _).
    apply in_flat_map in Hy as (m & Hm & Hy). apply in_map_iff in Hy as (b & <- & _). apply in_seq in Hm. left. cbn. lia.
Qed.
Lemma sorted_nth_error {A} (P : A -> A -> Prop) l : StronglySorted P l ->
  forall i j x y, i < j -> nth_error l i = Some x -> nth_error l j = Some y -> P x y.
Proof.
  induction 1 as [|a l S IH F]; intros i j x y Hij Ei Ej; [destruct i; discriminate|].
  destruct j as [|j]; [lia|]. destruct i as [|i]; cbn in Ei, Ej.
  - injection Ei as <-. apply nth_error_In in Ej. rewrite Forall_forall in F. auto.
  - apply (IH i j); auto; lia.
Qed.
Lemma flatten_order h f : mmax h <= lmax h + 1 -> flatten true h = Ok f ->
  forall i j li mi lj mj, i < j ->
    nth_error (f_l f) i = Some li -> nth_error (f_m f) i = Some mi ->
    nth_error (f_l f) j = Some lj -> nth_error (f_m f) j = Some mj ->
    mi < mj \/ (mi = mj /\ li < lj).
Proof.
  intros H E. rewrite (flatten_ok h true H) in E. injection E as <-. cbn [f_l f_m].
  intros i j li mi lj mj Hij. rewrite !nth_error_map. set (ps := lm_loop _ _).
  destruct (nth_error ps i) as [[a b]|] eqn:Ei; [|discriminate].
  destruct (nth_error ps j) as [[c d]|] eqn:Ej; [|discriminate]. cbn. intros [= <-] [= <-] [= <-] [= <-].
  apply (sorted_nth_error _ _ (lm_loop_sorted (lmax h) (mmax h)) i j (a, b) (c, d)); assumption.
Qed.

(** * iteration: protocol level *)
Lemma iterate_twice h n ts ms : wf h -> depth (clm h) = Some n -> time h = TArr ts -> month h = TArr ms ->
  forall c, exists o, for_loop (S n) (iter_start (mkhobj h c)) [] = Ok (Some (map (fun i => slice_of h i ts ms) (seq 0 n), o)) /\ ob o = h.
Proof.
  intros (_ & _ & _ & W) D T M c. rewrite D in W. destruct W as (ts' & ms' & T' & M' & Lt & Lm).
  rewrite T in T'. rewrite M in M'. injection T' as <-. injection M' as <-.
  eexists. split; [exact (for_loop_spec h n ts ms D T M Lt Lm n 0 [] eq_refl)|reflexivity].
Qed.
Lemma iterate_rank2 h c k : depth (clm h) = None -> for_loop (S k) (iter_start (mkhobj h c)) [] = Ok (Some ([], mkhobj h 0)).
Proof. intros D. rewrite for_loop_S. unfold iter_next, iter_start. cbn [ob]. rewrite D. reflexivity. Qed.

(** * composition of convolutions *)
Lemma convolve_compose h w v : wf h -> lmax h < length w -> lmax h < length v ->
  exists r1 r2 q, convolve h w = Ok r1 /\ convolve r1 v = Ok r2 /\
    convolve h (map (fun p => (fst p * snd p)%R) (combine w v)) = Ok q /\ heq r2 q.
Proof.
  intros W Hw Hv.
  assert (Hc : lmax h < length (map (fun p => (fst p * snd p)%R) (combine w v))) by (rewrite map_length, combine_length; lia).
  assert (Nth : forall l, l <= lmax h -> nth l (map (fun p => (fst p * snd p)%R) (combine w v)) 0%R = (nth l w 0 * nth l v 0)%R).
  { intros l Hl. rewrite (nth_indep _ 0%R ((fun p => (fst p * snd p)%R) (0%R, 0%R))) by lia.
    rewrite (map_nth (fun p => (fst p * snd p)%R)).
    clear - Hl Hw Hv. revert v l Hl Hv. generalize (lmax h) as L, Hw. clear h Hw.
    intros L Hw. revert L Hw. induction w as [|a w IH]; intros L Hw v l Hl Hv; [cbn in Hw; lia|].
    destruct v as [|b v]; [cbn in Hv; lia|]. destruct l as [|l]; [reflexivity|]. cbn [combine nth].
    destruct L as [|L]; [lia|]. cbn [length] in *. apply (IH L); lia. }
  destruct (convolve_spec h w W Hw) as (r1 & E1 & A1 & A2 & A3 & A4 & A5).
  assert (W1 : wf r1).
  { destruct W as (W1 & W2 & (W3 & W4 & W5) & W6).
    destruct (A5 clm (or_introl eq_refl)) as [(X1 & X2 & X3) _]. destruct (A5 slm (or_intror eq_refl)) as [(Y1 & Y2 & Y3) _].
    repeat split; try congruence. rewrite X3, A3, A4. exact W6. }
  destruct (convolve_spec r1 v W1 ltac:(lia)) as (r2 & E2 & B1 & B2 & B3 & B4 & B5).
  destruct (convolve_spec h _ W Hc) as (q & E3 & C1 & C2 & C3 & C4 & C5).
  exists r1, r2, q. do 3 (split; [assumption|]).
  assert (G : forall sel, sel = clm \/ sel = slm -> rows (sel h) = lmax h + 1 -> aeq (sel r2) (sel q)).
  { intros sel Hs HR. destruct (A5 sel Hs) as [(X1 & X2 & X3) XV], (B5 sel Hs) as [(Y1 & Y2 & Y3) YV], (C5 sel Hs) as [(Z1 & Z2 & Z3) ZV].
    split; [repeat split; congruence|]. intros l m t (I1 & I2 & I3).
    assert (Ih : inb (sel h) l m t) by (unfold inb, nslice in *; rewrite <- X1, <- X2, <- X3, <- Y1, <- Y2, <- Y3; auto).
    assert (I1' : inb (sel r1) l m t) by (unfold inb, nslice in *; rewrite <- Y1, <- Y2, <- Y3; auto).
    rewrite YV, XV, ZV by assumption. destruct Ih as (J & _). rewrite Nth by lia. lra. }
  destruct W as (V1 & V2 & (V3 & V4 & V5) & V6).
  repeat split; try congruence; apply G; auto; congruence.
Qed.
Lemma convolve_unit h w : wf h -> lmax h < length w -> (forall l, l <= lmax h -> nth l w 0%R = 1%R) ->
  exists r, convolve h w = Ok r /\ heq r h.
Proof.
  intros W Hw H1. destruct (convolve_spec h w W Hw) as (r1 & E1 & A1 & A2 & A3 & A4 & A5).
  exists r1. split; [exact E1|].
  assert (G : forall sel, sel = clm \/ sel = slm -> rows (sel h) = lmax h + 1 -> aeq (sel r1) (sel h)).
  { intros sel Hs HR. destruct (A5 sel Hs) as [(X1 & X2 & X3) XV]. split; [repeat split; congruence|].
    intros l m t (I1 & I2 & I3). rewrite XV by (unfold inb, nslice in *; rewrite <- X1, <- X2, <- X3; auto).
    rewrite H1 by lia. lra. }
  destruct W as (V1 & V2 & (V3 & V4 & V5) & V6).
  repeat split; try congruence; apply G; auto; congruence.
Qed.

(** * reads and changes of a cached attribute in any order *)
Inductive event := Read | Change (f : harm -> harm).
Fixpoint trace (o : cached) (es : list event) : list (nat -> nat -> R) :=
  match es with
  | [] => []
  | Read :: r => fst (read_amplitude o) :: trace (snd (read_amplitude o)) r
  | Change f :: r => trace (change f o) r
  end.
(** the object at the time of the first read *)
Fixpoint at_first_read (h : harm) (es : list event) : harm :=
  match es with Change f :: r => at_first_read (f h) r | _ => h end.
Lemma trace_cached h v es : forall u, In u (trace (mkcached h (Some v)) es) -> u = v.
Proof.
  revert h; induction es as [|[|f] es IH]; intros h u; cbn [trace]; [intros []| |].
  - unfold read_amplitude. cbn [camp fst snd]. intros [H|H]; [now symmetry|eauto].
  - unfold change. cbn [cobj camp]. eauto.
Qed.
Lemma trace_frozen es : forall h u, In u (trace (construct h) es) -> u = amplitude_now (at_first_read h es).
Proof.
  induction es as [|[|f] es IH]; intros h u; cbn [trace at_first_read]; [intros []| |].
  - unfold read_amplitude, construct. cbn [camp fst snd cobj]. intros [H|H]; [now symmetry|now apply trace_cached in H].
  - apply IH.
Qed.
