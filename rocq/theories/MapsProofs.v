(** Lemmas about the steps of grace_spatial_maps and combine_harmonics (model: MapsModel.v). *)
From Coq Require Import Reals Lra Lia String Sorting.Sorted ZifyBool ZifyNat.
From Verif Require Import Base UnitsModel GaussModel LegendreModel DestripeModel DestripeProofs DestripeProofs2 SummationModel SummationProofs GenModel MasconModel
  Arr HarmModel HarmProofs HarmProofs2 HarmProofs3 PropLegendre PropSummation PropDestripe PropMascon PropSmooth PropSlr MapsModel.
Close Scope Z_scope.
Close Scope string_scope.
Open Scope R_scope.

Definition coefs : Type := bool -> nat -> nat -> R.
Definition chan (h : harm) (cs : bool) : arr R := if cs then slm h else clm h.
(** coefficient of degree l and order m of slice t, zero outside of the field *)
Definition part (h : harm) (t : nat) : coefs := fun cs l m => if ((l <=? lmax h) && (m <=? mmax h))%nat then get (chan h cs) l m t else 0.
(** the matrix of a field, and the field after the decorrelation filter of destripe_harmonics (C42) *)
Definition matrix (L M : nat) (Y : nat -> nat -> R) : arr R := mkarr (L + 1) (M + 1) None (fun l m _ => Y l m).
Definition destriped (L M : nat) (Y : coefs) : coefs := fun cs l m =>
  match destripe_harmonics (matrix L M (Y false)) (matrix L M (Y true)) L (Some M) true false with
  | Ok (c, s) => get (if cs then s else c) l m 0 | Err _ => 0 end.

(** the series h holds the fields Y 0 .. Y (n-1) on the triangle m <= l *)
Record holds (L M n : nat) (ts : list R) (ms : list Z) (Y : nat -> coefs) (h : harm) : Prop := mkholds {
  o_l : lmax h = L; o_m : mmax h = M; o_rows : rows (clm h) = (L + 1)%nat; o_cols : cols (clm h) = (M + 1)%nat; o_shape : same_shape (clm h) (slm h);
  o_depth : depth (clm h) = Some n; o_ts : time h = TArr ts; o_ms : month h = TArr ms; o_lt : List.length ts = n; o_lm : List.length ms = n;
  o_val : forall t cs l m, (t < n)%nat -> (m <= l <= L)%nat -> (m <= M)%nat -> get (chan h cs) l m t = Y t cs l m }.
(** a single field *)
Record holds1 (L M : nat) (t : R) (mo : Z) (Y : coefs) (h : harm) : Prop := mkholds1 {
  s_l : lmax h = L; s_m : mmax h = M; s_rows : rows (clm h) = (L + 1)%nat; s_cols : cols (clm h) = (M + 1)%nat; s_shape : same_shape (clm h) (slm h);
  s_depth : depth (clm h) = None; s_ts : time h = TScalar t; s_ms : month h = TScalar mo;
  s_val : forall cs l m, (m <= l <= L)%nat -> (m <= M)%nat -> get (chan h cs) l m 0 = Y cs l m }.

Lemma holds_wf L M n ts ms Y h : holds L M n ts ms Y h -> wf h.
Proof. intros []. split; [congruence|]. split; [congruence|]. split; [assumption|]. rewrite o_depth0. exists ts, ms. auto. Qed.
Lemma holds1_wf L M t mo Y h : holds1 L M t mo Y h -> wf h.
Proof. intros []. split; [congruence|]. split; [congruence|]. split; [assumption|]. rewrite s_depth0. exact I. Qed.
Lemma chan_shape h cs : same_shape (clm h) (slm h) -> same_shape (chan h cs) (clm h).
Proof. intros (A & B & C). destruct cs; repeat split; cbn; congruence. Qed.
Lemma holds_ext L M n ts ms Y Z h : holds L M n ts ms Y h ->
  (forall t cs l m, (t < n)%nat -> (m <= l <= L)%nat -> (m <= M)%nat -> Y t cs l m = Z t cs l m) -> holds L M n ts ms Z h.
Proof. intros H E. destruct H. constructor; auto. intros. rewrite <- E by assumption. auto. Qed.
Lemma holds_of_wf h n ts ms : wf h -> depth (clm h) = Some n -> time h = TArr ts -> month h = TArr ms -> holds (lmax h) (mmax h) n ts ms (part h) h.
Proof.
  intros (A & B & C & D) E T N. rewrite E in D. destruct D as (ts' & ms' & T' & N' & L1 & L2). rewrite T in T'. rewrite N in N'. injection T' as <-. injection N' as <-.
  constructor; auto. intros t cs l m Ht Hl Hm. unfold part. replace ((l <=? lmax h) && (m <=? mmax h))%nat with true by lia. reflexivity.
Qed.

(** ** subtraction and addition *)
Lemma pw_val op l1 m1 a b r l m t : pointwise op l1 m1 a b r -> inb a l m t ->
  get r l m t = if ((l <? l1) && (m <? m1))%nat then op (get a l m t) (operand b l m t) else get a l m t.
Proof. intros [_ V] Hi. apply V. exact Hi. Qed.
Lemma binop_chan op a b : wf a -> wf b -> compatible a b ->
  let l1 := (Nat.min (lmax a) (lmax b) + 1)%nat in let m1 := (Nat.min (mmax a) (mmax b) + 1)%nat in
  exists r, binop op a b = Ok r /\ lmax r = lmax a /\ mmax r = mmax a /\ time r = time a /\ month r = month a /\
    (forall cs, pointwise op l1 m1 (chan a cs) (chan b cs) (chan r cs)) /\ wf r.
Proof.
  intros Wa Wb C l1 m1. destruct (binop_spec op a b Wa Wb C) as (r & E & A1 & A2 & A3 & A4 & A5 & A6). exists r. do 5 (split; [assumption|]).
  split; [intros []; assumption|]. destruct (binop_wf op a b r Wa Wb C E) as (W & _). exact W.
Qed.
Lemma part_block h cs l m t : part h t cs l m = if ((l <? lmax h + 1) && (m <? mmax h + 1))%nat then get (chan h cs) l m t else 0.
Proof. unfold part. replace (l <? lmax h + 1)%nat with (l <=? lmax h)%nat by lia. replace (m <? mmax h + 1)%nat with (m <=? mmax h)%nat by lia. reflexivity. Qed.
Lemma in_chan h cs l m t : wf h -> (l <= lmax h)%nat -> (m <= mmax h)%nat -> (t < nslice (clm h))%nat -> inb (chan h cs) l m t.
Proof.
  intros (A & B & C & _) Hl Hm Ht. destruct (chan_shape h cs C) as (X & Y & Z). unfold inb, nslice in *. rewrite X, Y, Z, A, B. lia.
Qed.

Lemma sub_flat L M n ts ms Y h b : holds L M n ts ms Y h -> wf b -> depth (clm b) = None ->
  exists r, subtract h b = Ok r /\ holds L M n ts ms (fun t cs l m => Y t cs l m - part b 0 cs l m) r.
Proof.
  intros H Wb Db. pose proof (holds_wf _ _ _ _ _ _ _ H) as Wa. destruct H.
  destruct (binop_chan Rminus h b Wa Wb) as (r & E & A1 & A2 & A3 & A4 & A5 & Wr); [unfold compatible; rewrite o_depth0, Db; exact I|].
  exists r. split; [exact E|]. destruct Wr as (R1 & R2 & R3 & _). destruct (A5 false) as [(S1 & S2 & S3) _]. cbn [chan] in *. constructor; try congruence.
  intros t cs l m Ht Hl Hm. rewrite (pw_val _ _ _ _ _ _ l m t (A5 cs)).
  2:{ apply in_chan; auto; [lia|lia|]. unfold nslice. rewrite o_depth0. exact Ht. }
  rewrite o_val0 by assumption. unfold part, operand. assert (Dc : depth (chan b cs) = None). { destruct Wb as (_ & _ & C & _). destruct (chan_shape b cs C) as (_ & _ & ->). exact Db. }
  rewrite Dc. replace ((l <? Nat.min (lmax h) (lmax b) + 1) && (m <? Nat.min (mmax h) (mmax b) + 1))%nat with ((l <=? lmax b) && (m <=? mmax b))%nat by lia.
  destruct ((l <=? lmax b) && (m <=? mmax b))%nat; ring.
Qed.
Lemma add_series L M n ts ms ts' ms' Y Z h b : holds L M n ts ms Y h -> holds L M n ts' ms' Z b -> (2 <= n)%nat ->
  exists r, add h b = Ok r /\ holds L M n ts ms (fun t cs l m => Y t cs l m + Z t cs l m) r.
Proof.
  intros H H' Hn. pose proof (holds_wf _ _ _ _ _ _ _ H) as Wa. pose proof (holds_wf _ _ _ _ _ _ _ H') as Wb. destruct H, H'.
  destruct (binop_chan Rplus h b Wa Wb) as (r & E & A1 & A2 & A3 & A4 & A5 & Wr); [unfold compatible; rewrite o_depth0, o_depth1; left; reflexivity|].
  exists r. split; [exact E|]. destruct Wr as (R1 & R2 & R3 & _). destruct (A5 false) as [(S1 & S2 & S3) _]. cbn [chan] in *. constructor; try congruence.
  intros t cs l m Ht Hl Hm. rewrite (pw_val _ _ _ _ _ _ l m t (A5 cs)).
  2:{ apply in_chan; auto; [lia|lia|]. unfold nslice. rewrite o_depth0. exact Ht. }
  rewrite o_val0 by assumption. unfold operand. destruct (chan_shape b cs o_shape1) as (_ & _ & ->). rewrite o_depth1. destruct n as [|[|n]]; try lia.
  rewrite o_val1 by assumption. replace ((l <? Nat.min (lmax h) (lmax b) + 1) && (m <? Nat.min (mmax h) (mmax b) + 1))%nat with true by lia. reflexivity.
Qed.
Lemma sub_single L M t mo L' M' t' mo' Y Z h b : holds1 L M t mo Y h -> holds1 L' M' t' mo' Z b ->
  exists r, subtract h b = Ok r /\ holds1 L M t mo (fun cs l m => Y cs l m - (if ((l <=? L') && (m <=? M'))%nat then Z cs l m else 0)) r.
Proof.
  intros H H'. pose proof (holds1_wf _ _ _ _ _ _ H) as Wa. pose proof (holds1_wf _ _ _ _ _ _ H') as Wb. destruct H, H'.
  destruct (binop_chan Rminus h b Wa Wb) as (r & E & A1 & A2 & A3 & A4 & A5 & Wr); [unfold compatible; rewrite s_depth1; destruct (depth (clm h)); exact I|].
  exists r. split; [exact E|]. destruct Wr as (R1 & R2 & R3 & _). destruct (A5 false) as [(S1 & S2 & S3) _]. cbn [chan] in *. constructor; try congruence.
  intros cs l m Hl Hm. rewrite (pw_val _ _ _ _ _ _ l m 0%nat (A5 cs)).
  2:{ apply in_chan; auto; [lia|lia|]. unfold nslice. rewrite s_depth0. lia. }
  rewrite s_val0 by assumption. unfold operand. destruct (chan_shape b cs s_shape1) as (_ & _ & ->). rewrite s_depth1.
  replace ((l <? Nat.min (lmax h) (lmax b) + 1) && (m <? Nat.min (mmax h) (mmax b) + 1))%nat with ((l <=? L') && (m <=? M'))%nat by lia.
  destruct ((l <=? L') && (m <=? M'))%nat eqn:B; [|ring]. rewrite s_val1 by lia. reflexivity.
Qed.

(** ** mean *)
Lemma Rsum_seq (f : nat -> R) n : Rsum (map f (seq 0 n)) = sumn n f.
Proof.
  induction n; [reflexivity|]. rewrite seq_S, map_app. cbn [map sumn]. rewrite <- IHn.
  assert (A : forall l x, Rsum (l ++ [x]) = Rsum l + x) by (induction l; intros; cbn [Rsum app]; [ring|rewrite IHl; ring]). apply A.
Qed.
Lemma mean_removed L M n ts ms Y h : holds L M n ts ms Y h -> (1 <= n)%nat ->
  exists r x, mean h true None = Ok (r, x) /\ holds L M n ts ms (fun t cs l m => Y t cs l m - sumn n (fun u => Y u cs l m) / INR n) r.
Proof.
  intros H Hn. destruct (mean_spec h n true None (o_depth _ _ _ _ _ _ _ H)) as (r & mc & mss & tm & mo & E & V & _ & _ & _ & _ & K).
  - intros i Hi. apply in_seq in Hi. lia.
  - destruct n; [lia|discriminate].
  - exists r, (mc, mss, tm, mo). split; [exact E|]. destruct (K eq_refl) as (K1 & K2 & K3 & K4 & K5 & K6 & K7 & _). destruct H. rewrite o_l0, o_m0 in *.
    destruct K5 as (S1 & S2 & S3), K6 as (T1 & T2 & T3). destruct o_shape0 as (U1 & U2 & U3). constructor; try congruence; [repeat split; congruence|].
    intros t cs l m Ht Hl Hm. destruct (V l m Hl Hm) as [V1 V2]. destruct (K7 l m Hl Hm) as (K7a & _). destruct (K7a t) as [W1 W2].
    assert (E1 : sumn n (fun u => Y u cs l m) = Rsum (map (get (chan h cs) l m) (seq 0 n))).
    { rewrite Rsum_seq. apply sumn_ext. intros u Hu. symmetry. apply o_val0; auto. }
    rewrite E1. rewrite <- o_val0 by assumption. rewrite seq_length in V1, V2. destruct cs; cbn [chan] in *.
    + rewrite W2, V2. ring.
    + rewrite W1, V1. ring.
Qed.

(** ** destriping *)
Lemma smoothed_ext round narrow L m x y l : (forall j, (m <= j <= L)%nat -> x j = y j) -> (m <= l <= L)%nat -> smoothed round narrow L m x l = smoothed round narrow L m y l.
Proof.
  intros H Hl. destruct (degrees_pos m L l Hl) as (k & Hk & E).
  assert (V : forall z, smoothed round narrow L m z l = smval (nsmooth round m) narrow (degrees (Nat.odd l) m L) z k).
  { intros z. unfold smoothed. cbv zeta. destruct (Nat.odd l) eqn:O.
    - rewrite <- E at 1. apply smooth_series_spec; [apply degrees_NoDup|exact Hk].
    - rewrite smooth_series_out; [rewrite <- E at 1; apply smooth_series_spec; [apply degrees_NoDup|exact Hk]|].
      rewrite degrees_in. intros [_ O']. congruence. }
  set (ds := degrees (Nat.odd l) m L) in *.
  assert (D : forall i, (i < List.length ds)%nat -> x (nth i ds 0%nat) = y (nth i ds 0%nat)).
  { intros i Hi. apply H. pose proof (nth_In ds 0%nat Hi) as I. apply degrees_in in I. tauto. }
  rewrite !V. unfold smval. destruct (Nat.leb_spec (List.length ds) (2 * nsmooth round m)) as [C|C]; [destruct narrow; [reflexivity|apply D; exact Hk]|]. cbv zeta.
  f_equal. apply fit_ext. intros i Hi. apply D. unfold centre. lia.
Qed.
Lemma destripe1_ext round narrow L M a b l m t u : (forall j, (m <= j <= L)%nat -> get a j m t = get b j m u) -> (m <= l <= L)%nat ->
  get (destripe1 round narrow L M a) l m t = get (destripe1 round narrow L M b) l m u.
Proof.
  intros H Hl. unfold destripe1. cbn [get]. rewrite (H l Hl). destruct ((m <=? M) && (m <=? l) && (l <=? L) && (5 <=? m))%nat; [|reflexivity].
  f_equal. apply smoothed_ext; auto.
Qed.
Lemma destriped_val L M Y cs l m : (1 <= L)%nat -> (m <= l <= L)%nat -> (m <= M)%nat ->
  destriped L M Y cs l m = get (destripe1 true false L M (matrix L M (Y cs))) l m 0.
Proof.
  intros HL Hl Hm. unfold destriped. rewrite served_ok by (repeat split; cbn [matrix rows cols upto]; lia). destruct cs; reflexivity.
Qed.
Lemma destriped_ext L M Y Z cs l m : (1 <= L)%nat -> (m <= l <= L)%nat -> (m <= M)%nat ->
  (forall j, (m <= j <= L)%nat -> Y cs j m = Z cs j m) -> destriped L M Y cs l m = destriped L M Z cs l m.
Proof. intros HL Hl Hm H. rewrite !destriped_val by auto. apply destripe1_ext; auto. Qed.
Lemma destripe_ok L M n ts ms Y h : holds L M n ts ms Y h -> (1 <= L)%nat ->
  exists r, destripe h = Ok r /\ holds L M n ts ms (fun t => destriped L M (Y t)) r.
Proof.
  intros H HL. destruct H. unfold destripe. rewrite o_depth0, o_l0, o_m0. destruct o_shape0 as (U1 & U2 & U3).
  assert (S : forall i, served (slice (clm h) i) (slice (slm h) i) L (Some M)) by (intros i; repeat split; cbn [slice rows cols upto]; lia).
  destruct (mapM_all (fun i => destripe_harmonics (slice (clm h) i) (slice (slm h) i) L (Some M) true false) (seq 0 n)) as (rs & E).
  { intros i _. rewrite served_ok by apply S. eexists. reflexivity. }
  rewrite E. cbn [bind]. eexists. split; [reflexivity|]. destruct (mapM_nth _ _ _ E) as [Ln V]. rewrite seq_length in *.
  constructor; cbn [lmax mmax clm slm rows cols depth time month]; auto; [repeat split|].
  intros t cs l m Ht Hl Hm. specialize (V t 0%nat (clm h, slm h) Ht). rewrite seq_nth in V by auto. cbn [Nat.add] in V. rewrite served_ok in V by apply S. cbn [upto] in V.
  rewrite destriped_val by auto.
  assert (G : get (chan {| lmax := L; mmax := M; clm := mkarr (L + 1) (M + 1) (Some n) (fun l m t => get (fst (nth t rs (clm h, slm h))) l m 0);
      slm := mkarr (L + 1) (M + 1) (Some n) (fun l m t => get (snd (nth t rs (clm h, slm h))) l m 0); time := time h; month := month h |} cs) l m t
      = get (destripe1 true false L M (slice (chan h cs) t)) l m 0).
  { injection V as V. destruct cs; cbn [chan slm clm get]; rewrite <- V; reflexivity. }
  rewrite G. apply destripe1_ext; auto. intros j Hj. cbn [slice matrix get]. apply o_val0; auto; lia.
Qed.

(** ** the filter switch *)
Definition maybe_destriped (d : bool) (L M : nat) (Y : coefs) : coefs := if d then destriped L M Y else Y.
Lemma maybe_destripe_ok (d : bool) L M n ts ms Y h : holds L M n ts ms Y h -> (1 <= L)%nat ->
  exists r, (if d then destripe h else Ok h) = Ok r /\ holds L M n ts ms (fun t => maybe_destriped d L M (Y t)) r.
Proof. intros H HL. destruct d; [apply destripe_ok; auto|]. exists h. auto. Qed.

(** ** subset and truncation *)
Lemma sorted_head_lt a l x : StronglySorted Z.lt (a :: l) -> In x l -> (a < x)%Z.
Proof. intros H I. inversion H; subst. rewrite Forall_forall in H3. auto. Qed.
Lemma sorted_filter_mem : forall fm ms, StronglySorted Z.lt fm -> StronglySorted Z.lt ms -> (forall x, In x ms -> In x fm) -> filter (fun x => memZ x ms) fm = ms.
Proof.
  induction fm as [|a fm IH]; intros ms S1 S2 H.
  - destruct ms as [|b ms]; [reflexivity|]. exfalso. apply (H b). left; auto.
  - cbn [filter]. destruct (memZ a ms) eqn:E.
    + apply memZ_in in E. destruct ms as [|b ms]; [contradiction|]. inversion S1; subst. inversion S2; subst.
      assert (b = a). { destruct E as [->|E]; [reflexivity|]. pose proof (sorted_head_lt _ _ _ S2 E). destruct (H b (or_introl eq_refl)) as [->|I]; [reflexivity|]. pose proof (sorted_head_lt _ _ _ S1 I). lia. }
      subst b. f_equal. transitivity (filter (fun x => memZ x ms) fm); [|apply IH; auto].
      * apply filter_ext_in. intros x Hx. pose proof (sorted_head_lt _ _ _ S1 Hx). unfold memZ. cbn [existsb]. replace (x =? a)%Z with false by lia. reflexivity.
      * intros x Hx. pose proof (sorted_head_lt _ _ _ S2 Hx). destruct (H x (or_intror Hx)) as [->|I]; [lia|exact I].
    + apply IH; auto; [inversion S1; auto|]. intros x Hx. destruct (H x Hx) as [->|I]; [|exact I]. exfalso. apply memZ_in in Hx. congruence.
Qed.
Lemma trunc_val L M l1 m1 a l m t : (l <= L)%nat -> (m <= M)%nat -> get (trunc_arr L M 0 l1 m1 a) l m t = if ((l <? l1) && (m <? m1))%nat then get a l m t else 0.
Proof. intros. unfold trunc_arr, set_block. cbn [get]. reflexivity. Qed.
(** the months ms of the file f, truncated to degree L and order M *)
Lemma subset_trunc f n' fts fms L M n ms pos : wf f -> depth (clm f) = Some n' -> time f = TArr fts -> month f = TArr fms ->
  StronglySorted Z.lt fms -> StronglySorted Z.lt ms -> List.length ms = n -> (2 <= n)%nat -> (1 <= M)%nat ->
  (forall t, (t < n)%nat -> nth_error fms (pos t) = Some (nth t ms 0%Z)) ->
  exists r ts', subset f ms = Ok r /\ holds L M n ts' ms (fun t => part f (pos t)) (truncate r (Some L) 0 (Some M)).
Proof.
  intros W D T Mo Sf Sm Ln Hn HM Hp.
  assert (Lf : n' = List.length fms). { destruct W as (_ & _ & _ & X). rewrite D in X. destruct X as (a & b & _ & E & _ & <-). rewrite Mo in E. injection E as <-. reflexivity. }
  subst n'.
  assert (Hin : forall x, In x ms -> In x fms).
  { intros x Hx. destruct (In_nth _ _ 0%Z Hx) as (t & Ht & <-). specialize (Hp t ltac:(lia)). apply nth_error_In in Hp. exact Hp. }
  pose proof (sorted_filter_mem fms ms Sf Sm Hin) as F. pose proof (map_nth_filter fms ms) as MF. rewrite F in MF.
  set (idx := filter (fun i => memZ (nth i fms 0%Z) ms) (seq 0 (List.length fms))) in *.
  assert (Li : List.length idx = n). { rewrite <- Ln, <- MF, map_length. reflexivity. }
  destruct (subset_core f fts fms ms W D T Mo Hin) as (r & tt & mm & Sub & A1 & A2 & A3 & A4 & A5 & A6 & A7 & A8 & A9 & A10 & A11 & _); [fold idx; lia|].
  fold idx in A11. exists r, tt. split.
  { apply Sub. unfold squeeze. rewrite A5, Ln. destruct n as [|[|n]]; try lia. reflexivity. }
  assert (PIX : forall t, (t < n)%nat -> nth t idx 0%nat = pos t).
  { intros t Ht. assert (E : nth (nth t idx 0%nat) fms 0%Z = nth t ms 0%Z).
    { rewrite <- MF. rewrite (nth_indep (map (fun i => nth i fms 0%Z) idx) 0%Z ((fun i => nth i fms 0%Z) 0%nat)) by (rewrite map_length; lia). rewrite (map_nth (fun i => nth i fms 0%Z)). reflexivity. }
    specialize (Hp t Ht). assert (Bt : (nth t idx 0 < List.length fms)%nat).
    { assert (I : In (nth t idx 0%nat) idx) by (apply nth_In; lia). generalize (nth t idx 0%nat) I. intros i Hi. unfold idx in Hi. apply filter_In in Hi. destruct Hi as [Hi _]. apply in_seq in Hi. lia. }
    pose proof (sorted_NoDup _ Sf) as ND. rewrite NoDup_nth_error in ND. apply ND; [exact Bt|]. rewrite Hp. rewrite (nth_error_nth' fms (n := nth t idx 0%nat) 0%Z) by exact Bt. congruence. }
  assert (EM : mm = ms).
  { apply (nth_ext _ _ 0%Z 0%Z); [lia|]. intros j Hj. destruct (A11 j ltac:(lia)) as (_ & B & _). rewrite B. rewrite <- MF.
    rewrite (nth_indep (map (fun i => nth i fms 0%Z) idx) 0%Z ((fun i => nth i fms 0%Z) 0%nat)) by (rewrite map_length; lia). rewrite (map_nth (fun i => nth i fms 0%Z)). reflexivity. }
  subst mm. unfold truncate. replace (M =? 0)%nat with false by lia. destruct A6 as (U1 & U2 & U3).
  constructor; cbn [lmax mmax clm slm trunc_arr set_block full rows cols depth time month]; auto; try congruence.
  - repeat split; cbn [trunc_arr set_block full rows cols depth]; congruence.
  - intros t cs l m Ht Hl Hm. destruct (A11 t ltac:(lia)) as (_ & _ & V). rewrite PIX in V by auto. destruct (V l m) as [V1 V2].
    unfold part. rewrite <- A1, <- A2.
    assert (B : ((l <? (if (L <? lmax r)%nat then L + 1 else lmax r + 1)) && (m <? (if (M <? mmax r)%nat then M + 1 else mmax r + 1)))%nat = ((l <=? lmax r) && (m <=? mmax r))%nat)
      by (destruct (Nat.ltb_spec L (lmax r)), (Nat.ltb_spec M (mmax r)); lia).
    destruct cs; cbn [chan slm clm]; rewrite trunc_val by lia; rewrite B; destruct ((l <=? lmax r) && (m <=? mmax r))%nat; auto.
Qed.

(** ** redistribution over the ocean *)
Definition mass_spread (o : option coefs) (Y : coefs) : coefs := fun cs l m =>
  match o with Some O_ => Y cs l m - Y false 0%nat 0%nat / O_ false 0%nat 0%nat * O_ cs l m | None => Y cs l m end.
Lemma spread_ok L M n ts ms Y h o : holds L M n ts ms Y h -> wf o -> depth (clm o) = None -> lmax o = L -> mmax o = M ->
  exists r, spread_mass L M o h = Ok r /\ holds L M n ts ms (fun t => mass_spread (Some (part o 0)) (Y t)) r.
Proof.
  intros H Wo Do Lo Mo. destruct H. unfold spread_mass. rewrite o_depth0. eexists. split; [reflexivity|]. destruct o_shape0 as (U1 & U2 & U3).
  constructor; cbn [lmax mmax clm slm rows cols depth time month]; auto; try congruence; [repeat split; cbn; congruence|].
  intros t cs l m Ht Hl Hm. unfold mass_spread.
  assert (E0 : part o 0 false 0%nat 0%nat = get (clm o) 0 0 0) by (unfold part; replace ((0 <=? lmax o) && (0 <=? mmax o))%nat with true by lia; reflexivity).
  assert (E1 : part o 0 cs l m = get (chan o cs) l m 0) by (unfold part; replace ((l <=? lmax o) && (m <=? mmax o))%nat with true by lia; reflexivity).
  assert (E2 : get (clm h) 0 0 t = Y t false 0%nat 0%nat) by (apply (o_val0 t false); lia).
  rewrite E0, E1, <- E2, <- o_val0 by auto. destruct cs; cbn [chan slm clm get]; replace ((m <=? l) && (l <=? L) && (m <=? M))%nat with true by lia; reflexivity.
Qed.
Lemma maybe_spread_ok L M n ts ms Y h (b : bool) o : holds L M n ts ms Y h -> wf o -> depth (clm o) = None -> lmax o = L -> mmax o = M ->
  exists r, (if b then spread_mass L M o h else Ok h) = Ok r /\ holds L M n ts ms (fun t => mass_spread (if b then Some (part o 0) else None) (Y t)) r.
Proof. intros H Wo Do Lo Mo. destruct b; [apply spread_ok; auto|]. exists h. auto. Qed.

(** ** one month *)
Lemma index_ok L M n ts ms Y h i : holds L M n ts ms Y h -> (i < n)%nat ->
  exists r, index h (Z.of_nat i) = Ok r /\ holds1 L M (nth i ts 0) (nth i ms 0%Z) (Y i) r.
Proof.
  intros H Hi. destruct H. rewrite (index_spec h n ts ms i) by auto. eexists. split; [reflexivity|]. destruct o_shape0 as (U1 & U2 & U3).
  constructor; cbn; auto; try (repeat split; assumption). intros cs l m Hl Hm. rewrite <- o_val0 by auto. destruct cs; reflexivity.
Qed.
Lemma convolve_ok L M t mo Y h f : holds1 L M t mo Y h -> (L < List.length f)%nat ->
  exists r, convolve h f = Ok r /\ holds1 L M t mo (fun cs l m => nth l f 0 * Y cs l m) r.
Proof.
  intros H Hf. pose proof (holds1_wf _ _ _ _ _ _ H) as W. destruct H. destruct (convolve_spec h f W ltac:(lia)) as (r & E & A1 & A2 & A3 & A4 & A5).
  exists r. split; [exact E|]. destruct (A5 clm (or_introl eq_refl)) as [(B1 & B2 & B3) B]. destruct (A5 slm (or_intror eq_refl)) as [(C1 & C2 & C3) C]. destruct s_shape0 as (U1 & U2 & U3).
  constructor; try congruence; [repeat split; congruence|]. intros cs l m Hl Hm.
  assert (V : get (chan r cs) l m 0 = nth l f 0 * get (chan h cs) l m 0).
  { destruct cs; cbn [chan]; [apply C|apply B]; unfold inb, nslice; [rewrite <- U1, <- U2, <- U3|]; rewrite s_rows0, s_cols0, s_depth0; lia. }
  rewrite V, s_val0 by auto. reflexivity.
Qed.
Lemma mul_ok a b n : List.length a = n -> List.length b = n -> exists f, np_mul1 a b = Ok f /\ List.length f = n /\ forall l, (l < n)%nat -> nth l f 0 = nth l a 0 * nth l b 0.
Proof.
  intros La Lb. unfold np_mul1. rewrite La, Lb, Nat.eqb_refl. eexists. split; [reflexivity|]. rewrite map_length, combine_length, La, Lb, Nat.min_id. split; [reflexivity|].
  intros l Hl. transitivity (nth l (map (fun '(x, y) => x * y) (combine a b)) ((fun '(x, y) => x * y) (0, 0))).
  - apply nth_indep. rewrite map_length, combine_length. lia.
  - etransitivity; [exact (map_nth (fun '(x, y) => x * y) (combine a b) (0, 0) l)|]. rewrite combine_nth by congruence. reflexivity.
Qed.

(** ** the map *)
Lemma series_tri c s c' s' lmin L M th phi : (forall l m, (m <= l <= L)%nat -> (m <= M)%nat -> c l m = c' l m /\ s l m = s' l m) ->
  series c s lmin L M th phi = series c' s' lmin L M th phi.
Proof.
  intros H. unfold series. apply sumn_ext. intros m Hm. apply sumn_ext. intros l Hl. destruct (lmin <=? l)%nat; [|reflexivity].
  destruct (le_dec m l) as [K|K].
  - destruct (H l m ltac:(lia) ltac:(lia)) as [-> ->]. reflexivity.
  - rewrite LegendreSpec2.Nlm_high by lia. ring.
Qed.
Lemma map_ok L M t mo Y h lmin lon lat P D : holds1 L M t mo Y h -> (2 <= L)%nat -> (M <= L)%nat -> List.length lon <> 1%nat -> List.length lat <> 1%nat ->
  plm_holmes L (map (fun x => cos (colat x)) lat) None = Ok (P, D) ->
  exists out, harmonic_summation (clm h) (slm h) lon lat lmin L (Some M) (Some P) = Ok out /\
    forall i k x y, nth_error lon i = Some x -> nth_error lat k = Some y -> -90 < y < 90 ->
      get (as_grid (List.length lat) (List.length lon) out) k i 0 = series (Y false) (Y true) lmin L M (colat y) (deg x).
Proof.
  intros H HL HM Hlon Hlat EP. destruct H. destruct s_shape0 as (U1 & U2 & U3).
  destruct (C46_values (clm h) (slm h) lon lat lmin L (Some M)) as (out & E & Lo & V); cbn [upto_order]; auto; try lia.
  rewrite (hs_none _ _ _ _ _ _ _ P D) in E by (auto; lia). exists out. split; [exact E|]. intros i k x y Hx Hy Hr. specialize (V i k x y Hx Hy Hr). cbn [upto_order] in V.
  unfold as_grid. cbn [get]. unfold at2 in V. destruct (nth_error out i) as [row|] eqn:Er; [|discriminate].
  rewrite (nth_error_nth _ _ [] Er). rewrite (nth_error_nth _ _ 0 V). apply series_tri. intros l m Hl Hm. unfold cf. split; [apply (s_val0 false)|apply (s_val0 true)]; auto.
Qed.
