(** C109: the mean field of grace_mean_harmonics (model: MeanModel.v). *)
From Coq Require Import Reals String Lra Lia ZifyBool ZifyNat.
From Verif Require Import Base Arr SummationModel SummationProofs HarmModel HarmProofs HarmProofs2 HarmProofs3 MapsModel MapsProofs.
From Verif Require Import GraceModel MeanModel.
From Verif Require PropGraceInput.
Close Scope Z_scope.
Close Scope string_scope.
Open Scope R_scope.

(** the average of n values *)
Definition average (n : nat) (f : nat -> R) : R := sumn n f / INR n.
(** the coefficient array of the input: cosine or sine *)
Definition field_of (cs : bool) : field := if cs then Slm else Clm.
Definition error_of (cs : bool) : field := if cs then Eslm else Eclm.
(** rounding by the format of the coefficients *)
Definition rounded (rd rg : R -> R) (form : mform) : R -> R := match form with MAscii => rd | MGfc => rg | _ => fun x => x end.

Lemma nonempty_pos {A} (l : list A) : l <> [] -> (1 <= List.length l)%nat.
Proof. destruct l; [congruence|cbn; lia]. Qed.
Lemma lengths read L M ds a b missing p ms ts y : grace_input_months read L M ds a b missing p = Ok (ms, ts, y) -> List.length ts = List.length ms.
Proof. intros H. destruct (PropGraceInput.C13_coefficients _ _ _ _ _ _ _ _ _ _ _ H) as (_ & E & _). exact E. Qed.
Lemma Rmean_list (l : list R) : Rmean l = average (List.length l) (fun i => nth i l 0).
Proof.
  unfold Rmean, average. f_equal. rewrite <- Rsum_seq. f_equal.
  apply (nth_ext _ _ 0 0); [rewrite map_length, seq_length; reflexivity|]. intros i Hi. rewrite (nth_indep (map _ _) 0 ((fun i => nth i l 0) 0%nat)) by (rewrite map_length, seq_length; exact Hi).
  rewrite (map_nth (fun i => nth i l 0)), seq_nth by exact Hi. reflexivity.
Qed.

Section Series.
Context (L M : nat) (ms : list Z) (ts : list R) (y : cube).
Let n := List.length ms.
Hypothesis N : (1 <= n)%nat.
Hypothesis LT : List.length ts = n.
Lemma series_holds : holds L M n ts ms (fun t cs l m => y (field_of cs) l m t) (series_of L M (ms, ts, y)).
Proof. constructor; cbn; auto; [repeat split|]. intros t cs l m _ _ _. destruct cs; reflexivity. Qed.
Lemma field_ok : exists x, mean_field L M (ms, ts, y) = Ok x /\
  rows (mn_clm x) = (L + 1)%nat /\ cols (mn_clm x) = (M + 1)%nat /\ depth (mn_clm x) = None /\ same_shape (mn_clm x) (mn_slm x) /\
  (forall (cs : bool) l m, (m <= l <= L)%nat -> (m <= M)%nat -> get (if cs then mn_slm x else mn_clm x) l m 0 = average n (y (field_of cs) l m)) /\
  mn_time x = average n (fun i => nth i ts 0) /\ mn_month x = average n (fun i => IZR (nth i ms 0%Z)) /\
  (forall (cs : bool) l m, (if cs then mn_eslm x else mn_eclm x) l m = sqrt (average n (fun t => y (error_of cs) l m t ^ 2))).
Proof.
  unfold mean_field, series_of, mean. cbn [clm depth lmax mmax slm]. fold n.
  replace (forallb (fun i => i <? n)%nat (seq 0 n)) with true by (symmetry; apply forallb_forall; intros i Hi; apply in_seq in Hi; lia).
  cbn [negb]. rewrite seq_length. destruct (Nat.eqb_spec n 0); [lia|]. cbn [bind]. eexists. split; [reflexivity|]. cbn [mn_clm mn_slm mn_time mn_month mn_eclm mn_eslm].
  pose proof (mean_arr_spec L M (mkarr (L + 1) (M + 1) (Some n) (fun l m t => y Clm l m t)) (seq 0 n)) as [(C1 & C2 & C3) VC].
  pose proof (mean_arr_spec L M (mkarr (L + 1) (M + 1) (Some n) (fun l m t => y Slm l m t)) (seq 0 n)) as [(S1 & S2 & S3) VS].
  cbn [full rows cols depth] in C1, C2, C3, S1, S2, S3. do 3 (split; [assumption|]). split; [repeat split; congruence|].
  assert (R0 : forall f, Rmean (map f (seq 0 n)) = average n f) by (intros f; unfold Rmean, average; rewrite Rsum_seq, map_length, seq_length; reflexivity).
  split; [|split; [|split]].
  - intros cs l m Hl Hm. destruct cs; [rewrite VS|rewrite VC]; replace ((m <=? l) && (l <=? L) && (m <=? M))%nat with true by lia; apply R0.
  - rewrite Rmean_list, LT. reflexivity.
  - rewrite Rmean_list, map_length. fold n. unfold average. f_equal. apply sumn_ext. intros i Hi. apply (map_nth IZR).
  - intros cs l m. unfold rms, average. destruct cs; rewrite Rsum_seq; reflexivity.
Qed.
End Series.

Section Program.
Context (rd rt rg re : R -> R) (PROC DREL DSET title : string) (read : Z -> option (res gfile)) (L : nat) (MMAX : option nat) (ds : dset) (a b : Z) (missing : list Z) (p : products).
Let M := order_of L MMAX.
Context (ms : list Z) (ts : list R) (y : cube).
Hypothesis IN : grace_input_months read L M ds a b missing p = Ok (ms, ts, y).
Hypothesis NE : ms <> [].
Hypothesis ML : (M <= L)%nat.
Let n := List.length ms.
Let prog := grace_mean_harmonics rd rt rg re PROC DREL DSET title read L MMAX ds a b missing p.

Lemma prog_eq form x f : mean_field L M (ms, ts, y) = Ok x -> write_mean rd rt rg re form L M x = Ok f ->
  prog form = Ok (mkmname PROC DREL DSET title L (if (M =? L)%nat then None else Some M) a b form, f).
Proof. intros E1 E2. unfold prog, grace_mean_harmonics. fold M. rewrite IN. cbn [bind]. rewrite E1. cbn [bind]. rewrite E2. reflexivity. Qed.

Lemma gfc_ok : exists nm ls, prog MGfc = Ok (nm, GfcMean ls) /\ NoDup (map (fun x => fst (fst x)) ls) /\
  forall l m c s ec es, In (l, m, (c, s), (ec, es)) ls <->
    (m <= l <= L)%nat /\ (m <= M)%nat /\ c = rg (average n (y Clm l m)) /\ s = rg (average n (y Slm l m)) /\
    ec = re (sqrt (average n (fun t => y Eclm l m t ^ 2))) /\ es = re (sqrt (average n (fun t => y Eslm l m t ^ 2))).
Proof.
  destruct (field_ok L M ms ts y (nonempty_pos _ NE) (lengths _ _ _ _ _ _ _ _ _ _ _ IN)) as (x & E & _ & _ & _ & _ & V & _ & _ & VE). fold n in V, VE.
  do 2 eexists. split; [apply (prog_eq MGfc x); [exact E|reflexivity]|].
  set (ff := fun p : nat * nat => (fst p, snd p, (rg (get (mn_clm x) (fst p) (snd p) 0), rg (get (mn_slm x) (fst p) (snd p) 0)), (re (mn_eclm x (fst p) (snd p)), re (mn_eslm x (fst p) (snd p))))).
  assert (EQ : to_gfc rg re L M x = map ff (lm_loop L M)).
  { unfold to_gfc, lm_loop. induction (seq 0 (M + 1)) as [|k ks IH]; cbn [flat_map map]; auto. rewrite map_app, IH, map_map. reflexivity. }
  rewrite EQ. split.
  - rewrite map_map. unfold ff. cbn [fst snd]. rewrite (map_ext _ (fun p => p)) by (intros []; reflexivity). rewrite map_id. apply lm_loop_nodup.
  - intros l m c s ec es. rewrite in_map_iff. unfold ff. split.
    + intros ((l', m') & Q & I). cbn [fst snd] in Q. injection Q as <- <- <- <- <- <-. apply lm_loop_in in I.
      assert (I1 : (m' <= l' <= L)%nat) by lia. assert (I2 : (m' <= M)%nat) by lia. rewrite (V false), (V true), (VE false), (VE true) by assumption. auto 10.
    + intros (I1 & I2 & -> & -> & -> & ->). exists (l, m). cbn [fst snd]. rewrite (V false), (V true), (VE false), (VE true) by assumption. split; [reflexivity|]. apply lm_loop_in. lia.
Qed.

(** the field read from the file *)
Definition mean_read (rd : R -> R) (h : harm) : Prop :=
  wf h /\ depth (clm h) = None /\ lmax h = L /\ mmax h = M /\
  forall cs l m, (l <= L)%nat -> (m <= M)%nat -> get (chan h cs) l m 0 = if (m <=? l)%nat then rd (average n (y (field_of cs) l m)) else 0.

Lemma ascii_ok grace : exists nm ls h, prog MAscii = Ok (nm, AsciiMean ls) /\ (forall x, In x ls -> ln_aux x = [rt (average n (fun i => nth i ts 0))]) /\
  read_mean grace (AsciiMean ls) = Ok h /\ mean_read rd h.
Proof.
  destruct (field_ok L M ms ts y (nonempty_pos _ NE) (lengths _ _ _ _ _ _ _ _ _ _ _ IN)) as (x & E & R1 & R2 & R3 & R4 & V & VT & _ & _). fold n in V, VT.
  set (g := rt (mn_time x)). set (h' := mkharm L M (mn_clm x) (mn_slm x) (TScalar (mn_time x)) (TScalar (grace g))).
  assert (W : wf h'). { split; [exact R1|]. split; [exact R2|]. split; [exact R4|]. cbn [h' clm]. rewrite R3. exact Logic.I. }
  destruct (ascii_roundtrip rd rt grace true h' (mn_time x) W ML) as (ls & r & E1 & E2 & L1 & L2 & D & Wr & _ & VV).
  { repeat split. exact R3. }
  exists (mkmname PROC DREL DSET title L (if (M =? L)%nat then None else Some M) a b MAscii), ls, (mkharm (lmax r) (mmax r) (clm r) (slm r) TNone TNone).
  assert (TA : to_ascii rd rt true (mkharm L M (mn_clm x) (mn_slm x) (TScalar (mn_time x)) TNone) = to_ascii rd rt true h') by reflexivity.
  split; [apply (prog_eq MAscii x); [exact E|]; cbn [write_mean]; rewrite TA, E1; reflexivity|].
  split. { unfold to_ascii in E1. cbn [h' clm time] in E1. rewrite R3 in E1. injection E1 as <-. intros q Hq. apply in_map_iff in Hq as (p0 & <- & _). cbn [ln_aux]. rewrite VT. reflexivity. }
  split.
  - cbn [read_mean]. unfold from_ascii in E2 |- *. cbv zeta in E2 |- *. destruct (rev ls) as [|q ql]; [discriminate|]. destruct (ln_aux q); [discriminate|]. injection E2 as <-. reflexivity.
  - destruct Wr as (A & B & C & _). unfold mean_read. cbn [lmax mmax clm slm]. cbn [h' lmax mmax clm slm] in L1, L2, VV.
    split; [split; [exact A|]; split; [exact B|]; split; [exact C|]; cbn [clm]; rewrite D; exact Logic.I|].
    split; [exact D|]. split; [exact L1|]. split; [exact L2|]. intros cs l m Hl Hm. destruct (VV l m Hl Hm) as [V1 V2]. 
    destruct cs; cbn [chan slm clm]; [rewrite V2|rewrite V1]; (destruct (Nat.leb_spec m l); [|reflexivity]); f_equal; [apply (V true)|apply (V false)]; lia.
Qed.
Lemma arrays_ok grace form : form = MNetcdf \/ form = MHdf5 -> exists nm x h, prog form = Ok (nm, ArraysMean x (average n (fun i => nth i ts 0)) (average n (fun i => IZR (nth i ms 0%Z)))) /\
  read_mean grace (ArraysMean x (average n (fun i => nth i ts 0)) (average n (fun i => IZR (nth i ms 0%Z)))) = Ok h /\ mean_read (fun v => v) h.
Proof.
  intros HF. destruct (field_ok L M ms ts y (nonempty_pos _ NE) (lengths _ _ _ _ _ _ _ _ _ _ _ IN)) as (x & E & R1 & R2 & R3 & R4 & V & VT & VM & _). fold n in V, VT, VM.
  pose proof (flatten_ok (mkharm L M (mn_clm x) (mn_slm x) (TScalar (mn_time x)) TNone) false ltac:(cbn; lia)) as F. cbn [lmax mmax clm slm depth] in F.
  set (ps := lm_loop L M) in *.
  exists (mkmname PROC DREL DSET title L (if (M =? L)%nat then None else Some M) a b form).
  exists (mkflat L M (map fst ps) (map snd ps) (Some 1%nat) (map (fun p (_ : nat) => get (mn_clm x) (fst p) (snd p) 0) ps) (map (fun p (_ : nat) => get (mn_slm x) (fst p) (snd p) 0) ps) TNone TNone).
  assert (P : prog form = Ok (mkmname PROC DREL DSET title L (if (M =? L)%nat then None else Some M) a b form,
    ArraysMean (mkflat L M (map fst ps) (map snd ps) (Some 1%nat) (map (fun p (_ : nat) => get (mn_clm x) (fst p) (snd p) 0) ps) (map (fun p (_ : nat) => get (mn_slm x) (fst p) (snd p) 0) ps) TNone TNone) (mn_time x) (mn_month x))).
  { apply (prog_eq form x); [exact E|]. unfold write_mean. rewrite F. destruct HF as [-> | ->]; cbn [bind f_lmax f_mmax f_l f_m f_clm f_slm]; rewrite !map_map; reflexivity. }
  rewrite VT, VM in P.
  set (z := full (L + 1) (M + 1) (Some 1%nat) 0%R).
  assert (Hb : forall l m, In (l, m) ps -> (l < rows z)%nat /\ (m < cols z)%nat). { intros l m Hin. apply lm_loop_in in Hin. cbn [z full rows cols]. lia. }
  destruct (scatter_ok ps (fun p _ => get (mn_clm x) (fst p) (snd p) 0) z Hb (lm_loop_nodup _ _)) as (c & Ec & (C1 & C2 & C3) & Vc).
  destruct (scatter_ok ps (fun p _ => get (mn_slm x) (fst p) (snd p) 0) z Hb (lm_loop_nodup _ _)) as (s & Es & (S1 & S2 & S3) & Vs).
  cbn [z full rows cols depth] in C1, C2, C3, S1, S2, S3.
  assert (NL : nat_max (map fst ps) = Ok L).
  { apply nat_max_eq.
    - intros k Hk. apply in_map_iff in Hk as ([l m] & <- & Hin). apply lm_loop_in in Hin. cbn. lia.
    - apply in_map_iff. exists (L, 0%nat). split; [reflexivity|]. apply lm_loop_in. lia. }
  assert (NM : nat_max (map snd ps) = Ok M).
  { apply nat_max_eq.
    - intros k Hk. apply in_map_iff in Hk as ([l m] & <- & Hin). apply lm_loop_in in Hin. cbn. lia.
    - apply in_map_iff. exists (M, M). split; [reflexivity|]. apply lm_loop_in. lia. }
  exists (mkharm L M (slice c 0) (slice s 0) TNone TNone). split; [exact P|]. split.
  - cbn [read_mean f_l f_m f_depth f_clm f_slm]. rewrite NL, NM. cbn [bind]. unfold expand. cbn [f_lmax f_mmax f_l f_m f_depth f_clm f_slm]. fold z. rewrite Ec. cbn [bind]. rewrite Es. cbn [bind].
    unfold squeeze. cbn [clm slm lmax mmax time month tsqueeze]. rewrite C3. reflexivity.
  - unfold mean_read. split; [split; [exact C1|]; split; [exact C2|]; split; [repeat split; cbn; congruence|exact Logic.I]|]. split; [reflexivity|]. split; [reflexivity|]. split; [reflexivity|].
    intros cs l m Hl Hm. destruct cs; cbn [chan slm clm slice get].
    + destruct (Vs l m 0%nat) as [V1 V2]. destruct (Nat.leb_spec m l).
      * rewrite V1 by (apply lm_loop_in; lia). apply (V true); lia.
      * rewrite V2; [reflexivity|]. unfold ps. rewrite lm_loop_in. lia.
    + destruct (Vc l m 0%nat) as [V1 V2]. destruct (Nat.leb_spec m l).
      * rewrite V1 by (apply lm_loop_in; lia). apply (V false); lia.
      * rewrite V2; [reflexivity|]. unfold ps. rewrite lm_loop_in. lia.
Qed.
Lemma centred_mean rd' h : mean_read rd' h -> exists x, centred (series_of L M (ms, ts, y)) (Some h) = Ok x /\
  holds L M n ts ms (fun t cs l m => y (field_of cs) l m t - rd' (average n (y (field_of cs) l m))) x.
Proof.
  intros (W & D & A & B & V). destruct (sub_flat L M n ts ms _ _ h (series_holds L M ms ts y (lengths _ _ _ _ _ _ _ _ _ _ _ IN)) W D) as (x & E & H). exists x. split; [exact E|].
  eapply holds_ext; [exact H|]. intros t cs l m Ht Hl Hm. cbv beta. f_equal. unfold part. rewrite A, B. replace ((l <=? L) && (m <=? M))%nat with true by lia. rewrite V by lia.
  replace (m <=? l)%nat with true by lia. reflexivity.
Qed.
End Program.

Lemma average_minus n f c : (1 <= n)%nat -> average n (fun t => f t - c) = average n f - c.
Proof.
  intros Hn. unfold average. assert (Z : INR n <> 0) by (apply not_0_INR; lia). replace (sumn n (fun t => f t - c)) with (sumn n f - INR n * c); [field; exact Z|].
  clear Z Hn. induction n as [|n IH]; [cbn; ring|]. cbn [sumn]. rewrite <- IH, S_INR. ring.
Qed.

(** the mean field in every format of arrays or text: read back without dates it has the averages of the coefficients of the selected months (rounded in ascii files), zero above
    the diagonal; the file carries the averages of the dates (and of the month numbers) *)
Theorem C109_mean : forall rd rt rg re PROC DREL DSET title read L MMAX ds a b missing p ms ts y grace form,
  grace_input_months read L (order_of L MMAX) ds a b missing p = Ok (ms, ts, y) -> ms <> [] -> (order_of L MMAX <= L)%nat -> form <> MGfc ->
  exists nm f h, grace_mean_harmonics rd rt rg re PROC DREL DSET title read L MMAX ds a b missing p form = Ok (nm, f) /\
    (match f with
     | AsciiMean ls => forall x, In x ls -> ln_aux x = [rt (average (List.length ms) (fun i => nth i ts 0))]
     | ArraysMean _ t mo => t = average (List.length ms) (fun i => nth i ts 0) /\ mo = average (List.length ms) (fun i => IZR (nth i ms 0%Z))
     | GfcMean _ => False
     end) /\
    read_mean grace f = Ok h /\ depth (clm h) = None /\ lmax h = L /\ mmax h = order_of L MMAX /\
    forall cs l m, (l <= L)%nat -> (m <= order_of L MMAX)%nat ->
      get (chan h cs) l m 0 = if (m <=? l)%nat then rounded rd rg form (average (List.length ms) (fun t => y (field_of cs) l m t)) else 0.
Proof.
  intros rd rt rg re PROC DREL DSET title read L MMAX ds a b missing p ms ts y grace form IN NE ML NG.
  destruct form; [| | |congruence].
  - destruct (ascii_ok rd rt rg re PROC DREL DSET title read L MMAX ds a b missing p ms ts y IN NE ML grace) as (nm & ls & h & E & T & RD & W & D & A & B & V).
    exists nm, (AsciiMean ls), h. auto 10.
  - destruct (arrays_ok rd rt rg re PROC DREL DSET title read L MMAX ds a b missing p ms ts y IN NE ML grace MNetcdf (or_introl eq_refl)) as (nm & x & h & E & RD & W & D & A & B & V).
    exists nm. eexists. exists h. split; [exact E|]. split; [auto|]. auto 10.
  - destruct (arrays_ok rd rt rg re PROC DREL DSET title read L MMAX ds a b missing p ms ts y IN NE ML grace MHdf5 (or_intror eq_refl)) as (nm & x & h & E & RD & W & D & A & B & V).
    exists nm. eexists. exists h. split; [exact E|]. split; [auto|]. auto 10.
Qed.
Print Assumptions C109_mean.

(** gfc files: every degree and order once, with the averages and the errors of the months *)
Theorem C109_gfc : forall rd rt rg re PROC DREL DSET title read L MMAX ds a b missing p ms ts y,
  grace_input_months read L (order_of L MMAX) ds a b missing p = Ok (ms, ts, y) -> ms <> [] -> (order_of L MMAX <= L)%nat ->
  exists nm ls, grace_mean_harmonics rd rt rg re PROC DREL DSET title read L MMAX ds a b missing p MGfc = Ok (nm, GfcMean ls) /\
    NoDup (map (fun x => fst (fst x)) ls) /\
    forall l m c s ec es, In (l, m, (c, s), (ec, es)) ls <->
      (m <= l <= L)%nat /\ (m <= order_of L MMAX)%nat /\
      c = rg (average (List.length ms) (y Clm l m)) /\ s = rg (average (List.length ms) (y Slm l m)) /\
      ec = re (sqrt (average (List.length ms) (fun t => y Eclm l m t ^ 2))) /\ es = re (sqrt (average (List.length ms) (fun t => y Eslm l m t ^ 2))).
Proof. intros. eapply gfc_ok; eauto. Qed.
Print Assumptions C109_gfc.

(** the months are those from START to END which are not listed as missing *)
Theorem C109_months : forall rd rt rg re PROC DREL DSET title read L MMAX ds a b missing p form out,
  grace_mean_harmonics rd rt rg re PROC DREL DSET title read L MMAX ds a b missing p form = Ok out ->
  exists ms ts y, grace_input_months read L (order_of L MMAX) ds a b missing p = Ok (ms, ts, y) /\ ms <> [] /\
    forall g, In g ms <-> (a <= g <= b)%Z /\ ~ In g missing.
Proof.
  intros rd rt rg re PROC DREL DSET title read L MMAX ds a b missing p form out H. unfold grace_mean_harmonics in H. cbv zeta in H.
  destruct (grace_input_months read L (order_of L MMAX) ds a b missing p) as [[[ms ts] y]|] eqn:E; [|discriminate]. cbn [bind] in H. exists ms, ts, y. split; [reflexivity|].
  destruct (PropGraceInput.C13_coefficients _ _ _ _ _ _ _ _ _ _ _ E) as (S & _ & _). split.
  - intros ->. cbn in H. discriminate.
  - intros g. rewrite S. apply (proj2 (PropGraceInput.C13_months a b missing)).
Qed.
Print Assumptions C109_months.

(** maps of the same months with the mean file (netCDF4, HDF5): each coefficient is the deviation from the average and averages to zero, and the centred series is that of
    a run without a mean file; with an ascii file the average left over is the rounding of the printed mean *)
Theorem C109_centred : forall rd rt rg re PROC DREL DSET title read L MMAX ds a b missing p ms ts y grace form,
  grace_input_months read L (order_of L MMAX) ds a b missing p = Ok (ms, ts, y) -> ms <> [] -> (order_of L MMAX <= L)%nat -> form <> MGfc ->
  exists nm f h x u, grace_mean_harmonics rd rt rg re PROC DREL DSET title read L MMAX ds a b missing p form = Ok (nm, f) /\ read_mean grace f = Ok h /\
    centred (series_of L (order_of L MMAX) (ms, ts, y)) (Some h) = Ok x /\ centred (series_of L (order_of L MMAX) (ms, ts, y)) None = Ok u /\
    time x = TArr ts /\ month x = TArr ms /\
    forall cs l m, (m <= l <= L)%nat -> (m <= order_of L MMAX)%nat ->
      let A := average (List.length ms) (y (field_of cs) l m) in
      (forall t, (t < List.length ms)%nat -> get (chan x cs) l m t = y (field_of cs) l m t - rounded rd rg form A /\ get (chan u cs) l m t = y (field_of cs) l m t - A) /\
      average (List.length ms) (get (chan x cs) l m) = A - rounded rd rg form A /\
      average (List.length ms) (get (chan u cs) l m) = 0.
Proof.
  intros rd rt rg re PROC DREL DSET title read L MMAX ds a b missing p ms ts y grace form IN NE ML NG.
  assert (Q : exists nm f h, grace_mean_harmonics rd rt rg re PROC DREL DSET title read L MMAX ds a b missing p form = Ok (nm, f) /\ read_mean grace f = Ok h /\ mean_read L MMAX ms y (rounded rd rg form) h).
  { destruct form; [| | |congruence].
    - destruct (ascii_ok rd rt rg re PROC DREL DSET title read L MMAX ds a b missing p ms ts y IN NE ML grace) as (nm & ls & h & E & T & RD & W). exists nm, (AsciiMean ls), h. auto.
    - destruct (arrays_ok rd rt rg re PROC DREL DSET title read L MMAX ds a b missing p ms ts y IN NE ML grace MNetcdf (or_introl eq_refl)) as (nm & x & h & E & RD & W). exists nm. eexists. exists h. split; [exact E|]. auto.
    - destruct (arrays_ok rd rt rg re PROC DREL DSET title read L MMAX ds a b missing p ms ts y IN NE ML grace MHdf5 (or_intror eq_refl)) as (nm & x & h & E & RD & W). exists nm. eexists. exists h. split; [exact E|]. auto. }
  destruct Q as (nm & f & h & E & RD & MR). destruct (centred_mean read L MMAX ds a b missing p ms ts y IN ML (rounded rd rg form) h MR) as (x & EX & HX).
  pose proof (nonempty_pos _ NE) as N1.
  destruct (mean_removed _ _ _ _ _ _ _ (series_holds L (order_of L MMAX) ms ts y (lengths _ _ _ _ _ _ _ _ _ _ _ IN)) N1) as (u & q & EU & HU).
  exists nm, f, h, x, u. split; [exact E|]. split; [exact RD|]. split; [exact EX|]. split; [unfold centred; rewrite EU; reflexivity|]. split; [apply (o_ts _ _ _ _ _ _ _ HX)|]. split; [apply (o_ms _ _ _ _ _ _ _ HX)|].
  intros cs l m Hl Hm A. split; [|split].
  - intros t Ht. rewrite (o_val _ _ _ _ _ _ _ HX), (o_val _ _ _ _ _ _ _ HU) by assumption. split; reflexivity.
  - unfold A. rewrite <- (average_minus (List.length ms) (y (field_of cs) l m)) by exact N1. unfold average at 1. unfold average at 1. f_equal. apply sumn_ext. intros t Ht. apply (o_val _ _ _ _ _ _ _ HX); assumption.
  - transitivity (average (List.length ms) (fun t => y (field_of cs) l m t - A)).
    + unfold average at 1. unfold average at 1. f_equal. apply sumn_ext. intros t Ht. rewrite (o_val _ _ _ _ _ _ _ HU) by assumption. reflexivity.
    + rewrite average_minus by exact N1. unfold A. ring.
Qed.
Print Assumptions C109_centred.

(** the errors of the mean are not the errors of an average of independent values but larger by the root of the number of months *)
Theorem C109_errors_refuted : forall n e, (1 <= n)%nat -> sqrt (average n (fun t => e t ^ 2)) = sqrt (INR n) * (sqrt (sumn n (fun t => e t ^ 2)) / INR n).
Proof.
  intros n e Hn. unfold average. assert (P : 0 < INR n) by (apply lt_0_INR; lia). rewrite sqrt_div_alt by exact P. assert (Q : sqrt (INR n) * sqrt (INR n) = INR n) by (apply sqrt_sqrt; lra).
  assert (Z : sqrt (INR n) <> 0) by (apply Rgt_not_eq, sqrt_lt_R0; exact P). rewrite <- Q at 3. field. exact Z.
Qed.
Print Assumptions C109_errors_refuted.

(** files of different selections of months get the same default name *)
Theorem C109_name_refuted : forall rd rt rg re PROC DREL DSET title read read' L MMAX ds a b missing missing' p p' form nm nm' f f',
  grace_mean_harmonics rd rt rg re PROC DREL DSET title read L MMAX ds a b missing p form = Ok (nm, f) ->
  grace_mean_harmonics rd rt rg re PROC DREL DSET title read' L MMAX ds a b missing' p' form = Ok (nm', f') -> nm = nm'.
Proof.
  intros rd rt rg re PROC DREL DSET title read read' L MMAX ds a b missing missing' p p' form nm nm' f f' H K. unfold grace_mean_harmonics in H, K. cbv zeta in H, K.
  repeat match goal with Q : bind ?e _ = Ok _ |- _ => destruct e; cbn [bind] in Q; [|discriminate] end. congruence.
Qed.
Print Assumptions C109_name_refuted.

(** two months *)
Example C109_nonvacuous : exists ts y, grace_input_months (fun _ => Some (Ok PropGraceInput.ex_file)) 5 (order_of 5 None) GSM 4 180 (arange 5 180) PropGraceInput.ex_prod = Ok ([4; 180]%Z, ts, y) /\
  average (List.length [4; 180]%Z) (y Clm 2 0)%nat = 15 / 2.
Proof.
  unfold grace_input_months. replace (selected 4 180 (arange 5 180)) with [4; 180]%Z by (vm_compute; reflexivity).
  eexists. eexists. split; [cbn -[regress_model]; reflexivity|]. unfold average. cbn. lra.
Qed.
