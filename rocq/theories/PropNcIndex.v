(** C118: index files of harmonics, and the search for a file by its name. *)
From Coq Require Import Reals Lra String Ascii Bool Permutation Sorted.
From Verif Require Import Base TimeModel Arr HarmModel AdjustProofs HarmProofs HarmProofs2 HarmProofs3 UtilModel NcModel NcIndexModel PropNc PropNc2 PropNc3 PropHarm.
From Verif Require PropTrendMap.
Close Scope Z_scope.
Close Scope R_scope.
Open Scope nat_scope.
Open Scope list_scope.

(** ** specification *)
(** the computer: home and working directory are absolute names without line separators *)
Definition clean (t : text) : Prop := Forall (fun c => is_separator c = false) t.
Definition rooted (t : text) : Prop := exists r, t = slash :: r.
Definition place (home cwd : text) : Prop := rooted home /\ rooted cwd /\ clean home /\ clean cwd.
(** names of different files without line separators *)
Definition good_names (home cwd : text) (names : list text) : Prop := Forall clean names /\ NoDup (map (absolute home cwd) names).
(** a series of n months *)
Definition series (h : harm) (n : nat) (ts : list R) (ms : list Z) : Prop :=
  wf h /\ mmax h <= lmax h /\ depth (clm h) = Some n /\ time h = TArr ts /\ month h = TArr ms /\ NoDup ms.
(** the first k months of it *)
Definition first_months (h r : harm) (k : nat) (ts : list R) (ms : list Z) : Prop :=
  lmax r = lmax h /\ mmax r = mmax h /\ time r = TArr (firstn k ts) /\ month r = TArr (firstn k ms) /\ wf r /\ depth (clm r) = Some k /\
  forall l m j, l <= lmax h -> m <= mmax h -> j < k ->
    get (clm r) l m j = (if m <=? l then get (clm h) l m j else 0%R) /\ get (slm r) l m j = (if m <=? l then get (slm h) l m j else 0%R).

(** ** names and lines *)
Lemma key_inj p q : key p = key q -> p = q.
Proof. intros H. apply (f_equal list_ascii_of_string) in H. unfold key in H. now rewrite !list_ascii_of_string_of_list_ascii in H. Qed.
Lemma after_app a s r : after a s = Some r -> s = a ++ r.
Proof. revert s. induction a as [|c a IH]; intros s; cbn; [now intros [= ->]|]. destruct s as [|d s]; [discriminate|]. destruct (Ascii.eqb_spec c d) as [->|]; [|discriminate]. intros H. now rewrite (IH _ H). Qed.
Lemma absolute_rooted home cwd f : place home cwd -> rooted (absolute home cwd f).
Proof.
  intros ((h & ->) & (w & ->) & _). unfold absolute. destruct f as [|c r]; [now exists w|]. destruct (Ascii.eqb_spec c tilde) as [->|].
  - destruct r as [|d r]; [now exists h|]. destruct (Ascii.eqb d slash); [now eexists|now eexists].
  - destruct (Ascii.eqb_spec c slash) as [->|]; now eexists.
Qed.
Lemma absolute_clean home cwd f : place home cwd -> clean f -> clean (absolute home cwd f).
Proof.
  intros (_ & _ & H & W) F. assert (X : clean (cwd ++ slash :: f)) by (apply Forall_app; split; [exact W|]; constructor; [reflexivity|exact F]). unfold absolute. destruct f as [|c r]; [exact W|].
  destruct (Ascii.eqb c tilde).
  - destruct r as [|d r]; [exact H|]. destruct (Ascii.eqb d slash); [|exact X]. apply Forall_app. split; [exact H|]. now inversion F.
  - destruct (Ascii.eqb c slash); [exact F|exact X].
Qed.
Lemma absolute_compress home cwd f : place home cwd -> absolute home cwd (compress home cwd f) = absolute home cwd f.
Proof.
  intros PL. pose proof (absolute_rooted home cwd f PL) as (q & E). unfold compress. rewrite E. destruct (after home (slash :: q)) as [[|c r]|] eqn:A.
  - apply after_app in A. rewrite app_nil_r in A. now rewrite A.
  - destruct (Ascii.eqb_spec c slash) as [->|]; [|reflexivity]. apply after_app in A. rewrite A. reflexivity.
  - reflexivity.
Qed.
Lemma compress_entry home cwd f : place home cwd -> is_entry (compress home cwd f) = true.
Proof.
  intros PL. pose proof (absolute_rooted home cwd f PL) as (q & E). unfold compress. rewrite E. destruct (after home (slash :: q)) as [[|c r]|]; try reflexivity. destruct (Ascii.eqb c slash); reflexivity.
Qed.
Lemma compress_clean home cwd f : place home cwd -> clean f -> clean (compress home cwd f).
Proof.
  intros PL F. pose proof (absolute_clean home cwd f PL F) as C. unfold compress. destruct (after home (absolute home cwd f)) as [[|c r]|] eqn:A; [repeat constructor| |exact C].
  destruct (Ascii.eqb c slash) eqn:S; [|exact C]. constructor; [reflexivity|]. rewrite (after_app _ _ _ A) in C. apply Forall_app in C. tauto.
Qed.
Lemma splitlines_one l : clean l -> forall cur s, splitlines_at cur (l ++ newline :: s) = (rev cur ++ l) :: splitlines_at [] s.
Proof.
  induction 1 as [|c l H F IH]; intros cur s; cbn [app splitlines_at].
  - change (is_separator newline) with true. cbn iota. rewrite app_nil_r. f_equal.
  - rewrite H. rewrite IH. cbn [rev]. now rewrite <- app_assoc.
Qed.
Lemma lines_of home cwd names : place home cwd -> Forall clean names ->
  filter is_entry (splitlines (flat_map (fun f => compress home cwd f ++ [newline]) names)) = map (compress home cwd) names.
Proof.
  intros PL. induction 1 as [|f names C F IH]; [reflexivity|]. cbn [flat_map map]. unfold splitlines. rewrite <- app_assoc. cbn [app]. rewrite (splitlines_one _ (compress_clean _ _ _ PL C)). cbn [rev app filter].
  rewrite (compress_entry _ _ _ PL). now f_equal.
Qed.

(** ** writing *)
Lemma read_same date p fs fs' : fs p = fs' p -> read_file date p fs = read_file date p fs'.
Proof. intros H. unfold read_file. now rewrite H. Qed.
Lemma slice_dated h n ts ms i : series h n ts ms -> i < n -> dated (slice_of h i ts ms) [nth i ts 0%R] [nth i ms 0%Z].
Proof.
  intros ((W1 & W2 & (W3 & W4 & W5) & _) & HM & D & _) I. unfold dated, slice_of. cbn [clm slm lmax mmax time month slice depth rows cols]. split; [|split; [exact HM|split; [repeat constructor; intros []|]]].
  - repeat split; cbn; assumption.
  - do 2 eexists. repeat split.
Qed.
Lemma write_index_ok home cwd k s o x n ts ms : place home cwd -> series (o_h x) n ts ms -> plain o -> w_date o = true -> w_months_name o = "month"%string -> w_clobber o = true ->
  forall names i fs, NoDup (map (absolute home cwd) names) -> i + List.length names <= n -> exists fs',
    to_index home cwd (Some k) s o x names i fs = (flat_map (fun f => compress home cwd f ++ [newline]) names, fs', Ok tt) /\
    (forall q, ~ In q (map (fun f => key (absolute home cwd f)) names) -> fs' q = fs q) /\
    forall j f, nth_error names j = Some f -> exists y, read_file true (key (absolute home cwd f)) fs' = Ok y /\ same_field (slice_of (o_h x) (i + j) ts ms) (o_h y).
Proof.
  intros PL SE P DT MN CL. induction names as [|f names IH]; intros i fs ND LE.
  - exists fs. split; [reflexivity|]. split; [reflexivity|]. intros [|j] f H; discriminate.
  - cbn [List.length map] in LE, ND. inversion ND as [|? ? NI ND']; subst. cbn [to_index flat_map].
    pose proof SE as ((_ & _ & _ & W6) & HM & D & T & M & _). rewrite D in W6. destruct W6 as (ts' & ms' & T' & M' & LT & LM). rewrite T in T'. rewrite M in M'. injection T' as <-. injection M' as <-.
    rewrite (index_spec (o_h x) n ts ms i D T M LT LM) by lia.
    destruct (C117_roundtrip k s o (mkobj (slice_of (o_h x) i ts ms) []) (key (absolute home cwd f)) fs [nth i ts 0%R] [nth i ms 0%Z]) as (fs1 & x1 & y & W & OT & R & SF & _);
      [apply (slice_dated _ n); [exact SE|lia]|exact P|exact DT|exact MN|now left|split; constructor|].
    rewrite W. destruct (IH (S i) fs1 ND') as (fs' & E & OT' & RD); [lia|]. rewrite E. exists fs'. split; [reflexivity|]. split.
    + intros q NQ. cbn [map In] in NQ. rewrite OT' by tauto. apply OT. intros ->. tauto.
    + intros [|j] g H; cbn [nth_error] in H.
      * injection H as <-. exists y. rewrite Nat.add_0_r. split; [|exact SF]. rewrite <- R. apply read_same. apply OT'. intros X. apply NI. apply in_map_iff in X as (g & KE & IG). apply key_inj in KE. rewrite <- KE. now apply in_map.
      * destruct (RD j g H) as (y' & R' & SF'). exists y'. split; [exact R'|]. now replace (i + S j) with (S i + j) by lia.
Qed.

Lemma read_index_ok home cwd ls x ts ms fs : place home cwd -> forall names i,
  (forall j f, nth_error names j = Some f -> exists y, read_file true (key (absolute home cwd f)) fs = Ok y /\ same_field (slice_of (o_h x) (i + j) ts ms) (o_h y)) ->
  exists hs, mapM (read_entry home cwd ls fs) (map (compress home cwd) names) = Ok hs /\ List.length hs = List.length names /\
    forall j, j < List.length names -> same_field (slice_of (o_h x) (i + j) ts ms) (nth j hs dummy).
Proof.
  intros PL. induction names as [|f names IH]; intros i H.
  - exists []. split; [reflexivity|]. split; [reflexivity|]. cbn. lia.
  - destruct (H 0 f eq_refl) as (y & R & SF). rewrite Nat.add_0_r in SF. destruct (IH (S i)) as (hs & E & L & V). { intros j g G. destruct (H (S j) g G) as (y' & R' & S'). exists y'. split; [exact R'|]. now replace (S i + j) with (i + S j) by lia. }
    exists (o_h y :: hs). cbn [map mapM]. unfold read_entry at 1. rewrite (absolute_compress _ _ _ PL). unfold resolve.
    assert (X : exists g, fs (key (absolute home cwd f)) = Some g). { unfold read_file in R. destruct (fs (key (absolute home cwd f))); [eauto|discriminate]. } destruct X as (g & ->). cbn [bind]. rewrite R. cbn [bind]. rewrite E. cbn [bind]. split; [reflexivity|]. split; [cbn; now rewrite L|].
    intros [|j] J; cbn [nth List.length] in *; [now rewrite Nat.add_0_r|]. replace (i + S j) with (S i + j) by lia. apply V. lia.
Qed.
Lemma firstn_nth {A} (d : A) k l : k <= List.length l -> map (fun j => nth j l d) (seq 0 k) = firstn k l.
Proof.
  revert l. induction k as [|k IH]; intros l H; [reflexivity|]. destruct l as [|a l]; cbn in H; [lia|]. cbn [seq map firstn nth]. f_equal. rewrite <- seq_shift, map_map. apply IH. lia.
Qed.

(** ** C118: the files of an index give the series again; with fewer names than months, its beginning.
    The order is that of the list (sort=False) or of the times *)
Theorem C118_index : forall home cwd ls k s o x n ts ms names fs order, place home cwd -> good_names home cwd names -> series (o_h x) n ts ms ->
  plain o -> w_date o = true -> w_months_name o = "month"%string -> w_clobber o = true -> 2 <= List.length names <= n ->
  (order = seq 0 (List.length names) \/ (Permutation order (seq 0 (List.length names)) /\ StronglySorted Rle (map (fun i => nth i ts 0%R) order) /\ forall a b, a < b < n -> (nth a ts 0 < nth b ts 0)%R)) ->
  exists index_file fs' r, to_index home cwd (Some k) s o x names 0 fs = (index_file, fs', Ok tt) /\ from_index home cwd ls (Some k) order index_file fs' = Ok r /\ first_months (o_h x) r (List.length names) ts ms.
Proof.
  intros home cwd ls k s o x n ts ms names fs order PL (GC & GN) SE P DT MN CL LN OR.
  destruct (write_index_ok home cwd k s o x n ts ms PL SE P DT MN CL names 0 fs GN) as (fs' & E & _ & RD); [lia|].
  destruct (read_index_ok home cwd ls x ts ms fs' PL names 0 RD) as (hs & EH & LH & VH). cbn [Nat.add] in VH.
  pose proof SE as ((_ & _ & _ & W6) & HM & D & T & M & ND). rewrite D in W6. destruct W6 as (ts' & ms' & T' & M' & LT & LM). rewrite T in T'. rewrite M in M'. injection T' as <-. injection M' as <-.
  set (kk := List.length names) in *. clearbody kk.
  assert (OI : order = seq 0 kk). { destruct OR as [->|(PM & SO & IN)]; [reflexivity|]. apply (PropTrendMap.argsort_id (fun i => nth i ts 0%R)); [|exact PM|exact SO]. intros a b AB. apply IN. lia. }
  subst order. clear OR.
  assert (DTD : forall j, j < kk -> dated (nth j hs dummy) [nth j ts 0%R] [nth j ms 0%Z]). { intros j J. apply (same_dated (slice_of (o_h x) j ts ms)); [apply (slice_dated _ n _ _ j SE); clear - J LN; lia|now apply VH]. }
  assert (SG : forall j, j < kk -> single (nth j hs dummy) (nth j ts 0%R) (nth j ms 0%Z)).
  { intros j J. destruct (VH j J) as (_ & _ & A & B & ((_ & _ & C) & _) & _). repeat split; [rewrite C; reflexivity|rewrite A; reflexivity|rewrite B; reflexivity]. }
  assert (ALL : forall h, In h hs -> exists j, j < kk /\ h = nth j hs dummy). { intros h H. destruct (In_nth _ _ dummy H) as (j & J & <-). exists j. split; [lia|reflexivity]. }
  destruct (from_list_spec hs (seq 0 kk)) as (r & R & IL & IM & _ & R1 & R2 & R3 & R4 & _ & RT & RM & RV).
  { destruct hs; [cbn in LH; lia|discriminate]. }
  { intros h H. destruct (ALL h H) as (j & J & ->). split; [apply DTD, J|]. eexists _, _. apply SG, J. }
  { rewrite LH. apply Permutation_refl. }
  exists (flat_map (fun f => compress home cwd f ++ [newline]) names), fs', r. split; [exact E|]. unfold from_index. rewrite (lines_of _ _ _ PL GC), EH. cbn [bind]. split; [exact R|].
  assert (SORT : map (fun i => nth i hs dummy) (seq 0 kk) = hs) by (rewrite firstn_nth by lia; rewrite <- LH; apply firstn_all). rewrite SORT in RT, RM, RV.
  assert (TT : map time_of hs = firstn kk ts). { rewrite <- (firstn_nth 0%R) by lia. rewrite <- SORT, map_map. apply map_ext_in. intros j J. apply in_seq in J. destruct (SG j) as (_ & A & _); [lia|]. unfold time_of. now rewrite A. }
  assert (MM : map month_of hs = firstn kk ms). { rewrite <- (firstn_nth 0%Z) by lia. rewrite <- SORT, map_map. apply map_ext_in. intros j J. apply in_seq in J. destruct (SG j) as (_ & _ & A); [lia|]. unfold month_of. now rewrite A. }
  rewrite TT in RT. rewrite MM in RM. rewrite adjust_nodup in RM. 2: { clear - ND. revert kk. induction ND as [|a l NI ND IH]; intros [|kk]; cbn; try constructor; [|apply IH]. intros H. apply NI. revert H. clear. revert kk. induction l as [|b l IH]; intros [|kk] H; cbn in *; try tauto. destruct H; [now left|right; eauto]. }
  assert (LMX : lmax r = lmax (o_h x)). { apply in_map_iff in IL as (h & <- & H). destruct (ALL h H) as (j & J & ->). now destruct (VH j J) as (A & _). }
  assert (MMX : mmax r = mmax (o_h x)). { apply in_map_iff in IM as (h & <- & H). destruct (ALL h H) as (j & J & ->). now destruct (VH j J) as (_ & A & _). }
  assert (RM' : month r = TArr (firstn kk ms)). { rewrite RM. assert (L2 : List.length (firstn kk ms) = kk) by (rewrite firstn_length; lia). destruct (firstn kk ms) as [|a [|b q]]; cbn in L2; [lia|lia|reflexivity]. }
  split; [exact LMX|]. split; [exact MMX|]. split; [exact RT|]. split; [exact RM'|].
  split; [repeat split; [exact R1|exact R2|apply R4|apply R4|apply R4|]; rewrite R3, LH; exists (firstn kk ts), (firstn kk ms); rewrite !firstn_length; repeat split; [exact RT|exact RM'|lia|lia]|].
  split; [now rewrite R3, LH|]. intros l m j L1 M1 J. destruct (RV j l m) as (A & B); [lia|lia|lia|]. rewrite A, B. destruct (VH j J) as (_ & _ & _ & _ & (_ & V1) & (_ & V2)).
  pose proof SE as ((W1 & W2 & (W3 & W4 & W5) & _) & _). rewrite V1, V2; [split; reflexivity| |]; repeat split; cbn [slice_of clm slm slice rows cols depth]; unfold nslice; cbn [depth]; try (clear - L1 M1 W1 W2 W3 W4; lia); cbn [slice depth]; lia.
Qed.
Print Assumptions C118_index.

(** more names than months: the call fails after all months have been written, and the index lists one file too many *)
Theorem C118_too_many_names : forall home cwd k s o x n ts ms names more fs f, place home cwd -> good_names home cwd (names ++ f :: more) -> series (o_h x) n ts ms ->
  plain o -> w_date o = true -> w_months_name o = "month"%string -> w_clobber o = true -> List.length names = n ->
  exists fs', to_index home cwd (Some k) s o x (names ++ f :: more) 0 fs = (flat_map (fun f => compress home cwd f ++ [newline]) (names ++ [f]), fs', Err IndexError) /\
    forall j g, nth_error names j = Some g -> exists y, read_file true (key (absolute home cwd g)) fs' = Ok y /\ same_field (slice_of (o_h x) j ts ms) (o_h y).
Proof.
  intros home cwd k s o x n ts ms names more fs f PL (_ & GN) SE P DT MN CL LN.
  assert (ND : NoDup (map (absolute home cwd) names)). { rewrite map_app in GN. revert GN. generalize (map (absolute home cwd) names). intros l. induction l as [|a l IH]; intros H; [constructor|]. inversion H; subst. constructor; [rewrite in_app_iff in *; tauto|auto]. }
  destruct (write_index_ok home cwd k s o x n ts ms PL SE P DT MN CL names 0 fs ND) as (fs' & E & _ & RD); [lia|]. exists fs'. split; [|exact RD].
  pose proof SE as ((_ & _ & _ & W6) & _ & D & _). assert (G : forall names i fs fs' t, to_index home cwd (Some k) s o x names i fs = (t, fs', Ok tt) -> i + List.length names = n ->
    to_index home cwd (Some k) s o x (names ++ f :: more) i fs = (t ++ compress home cwd f ++ [newline], fs', Err IndexError)).
  { clear - D W6. induction names as [|g names IH]; intros i fs fs' t H L; cbn [app to_index List.length] in *.
    - injection H as <- <-. assert (IE : i = n) by lia. clear L. subst i.
      rewrite (index_out (o_h x) n) by (first [exact D | lia]). reflexivity.
    - destruct (index (o_h x) (Z.of_nat i)) as [h|e]; [|discriminate]. destruct (write_file k s o (mkobj h []) (key (absolute home cwd g)) fs) as [[fs1 x1] [u|e]]; [|discriminate].
      destruct (to_index home cwd (Some k) s o x names (S i) fs1) as [[t2 fs2] r2] eqn:E2. injection H as <- <- ->. rewrite (IH _ _ _ _ E2) by lia. rewrite <- !app_assoc. reflexivity. }
  rewrite (G names 0 fs fs' _ E) by lia. rewrite flat_map_app. cbn [flat_map]. now rewrite app_nil_r.
Qed.
Print Assumptions C118_too_many_names.
(** REFUTED: an unknown format is not reported on writing: the index lists files that were not written; on reading it is a ValueError *)
Theorem C118_unknown_format_refuted : forall home cwd ls s o x n ts ms names fs order index_file, series (o_h x) n ts ms -> List.length names <= n ->
  to_index home cwd None s o x names 0 fs = (flat_map (fun f => compress home cwd f ++ [newline]) names, fs, Ok tt) /\
  from_index home cwd ls None order index_file fs = Err ValueError.
Proof.
  intros home cwd ls s o x n ts ms names fs order index_file SE LN. split; [|reflexivity].
  pose proof SE as ((_ & _ & _ & W6) & HM & D & T & M & _). rewrite D in W6. destruct W6 as (ts' & ms' & T' & M' & LT & LM). rewrite T in T'. rewrite M in M'. injection T' as <-. injection M' as <-.
  assert (G : forall names i, i + List.length names <= n -> to_index home cwd None s o x names i fs = (flat_map (fun f => compress home cwd f ++ [newline]) names, fs, Ok tt)); [|apply G; lia].
  clear names LN. induction names as [|f names IH]; intros i H; cbn [to_index flat_map List.length] in *; [reflexivity|]. rewrite (index_spec (o_h x) n ts ms i D T M LT LM) by lia. rewrite IH by lia. reflexivity.
Qed.

(** ** the search for a file *)
(** the same up to the case *)
Definition same_letters (a b : text) : Prop := Forall2 (fun c d => lower c = lower d) a b.
(** the pattern of a name stands at the beginning of another one: equal letters up to the case, a point for any character of a line *)
Definition stands_at (c d : ascii) : Prop := (c = "."%char /\ nat_of_ascii d <> 10) \/ lower c = lower d.
Definition covers (name f : text) : Prop := exists a b, f = a ++ b /\ Forall2 stands_at name a.
Lemma begins_iff name f : begins name f = true <-> covers name f.
Proof.
  revert f. induction name as [|c name IH]; intros f.
  - split; [intros _; exists [], f; split; [reflexivity|constructor]|reflexivity].
  - destruct f as [|d f]; cbn [begins].
    + split; [discriminate|]. intros (a & b & E & F). inversion F; subst. discriminate.
    + rewrite andb_true_iff, IH, orb_true_iff, andb_true_iff, negb_true_iff, !Nat.eqb_eq, Nat.eqb_neq, Ascii.eqb_eq. split.
      * intros (S & a & b & -> & F). exists (d :: a), b. split; [reflexivity|]. constructor; [exact S|exact F].
      * intros (a & b & E & F). inversion F as [|? e ? a' S' F']; subst. injection E as -> ->. split; [exact S'|]. exists a', b. split; [reflexivity|exact F'].
Qed.
Lemma split_name_ok d n : existsb (Ascii.eqb slash) n = false -> split_name (d ++ slash :: n) = (d ++ [slash], n).
Proof.
  intros H. unfold split_name. rewrite rev_app_distr. cbn [rev]. rewrite <- app_assoc.
  assert (G : forall a b, existsb (Ascii.eqb slash) a = false -> until_slash (a ++ slash :: b) = (a, slash :: b)).
  { clear. induction a as [|c a IH]; intros b H; [reflexivity|]. cbn [app until_slash existsb] in *. apply orb_false_iff in H as (H1 & H2). rewrite Ascii.eqb_sym in H1. rewrite H1, IH by exact H2. reflexivity. }
  cbn [app]. rewrite G; [cbn [rev]; now rewrite !rev_involutive|]. apply not_true_is_false. intros X. apply existsb_exists in X as (c & I & E). rewrite <- in_rev in I. apply not_true_iff_false in H. apply H. apply existsb_exists. eauto.
Qed.
(** a file that exists is taken, whatever other names there are *)
Theorem C118_existing : forall ls fs p f, fs (key p) = Some f -> resolve ls fs p = Ok p.
Proof. intros ls fs p f H. unfold resolve. now rewrite H. Qed.
(** otherwise: not found exactly if no name of the directory begins with it; the one file with the same letters is found *)
Theorem C118_not_found : forall ls fs d n, fs (key (d ++ slash :: n)) = None -> existsb (Ascii.eqb slash) n = false -> existsb special n = false ->
  (resolve ls fs (d ++ slash :: n) = Err FileNotFound <-> forall f, In f (ls (d ++ [slash])) -> ~ covers n f).
Proof.
  intros ls fs d n H S SP. unfold resolve. rewrite H, (split_name_ok d n S), SP. split.
  - intros E f I C. apply begins_iff in C. assert (X : In f (rev (filter (begins n) (ls (d ++ [slash]))))) by (rewrite <- in_rev; apply filter_In; tauto). destruct (rev _); [exact X|discriminate].
  - intros N. destruct (rev (filter (begins n) (ls (d ++ [slash])))) as [|f l] eqn:E; [reflexivity|]. assert (X : In f (rev (filter (begins n) (ls (d ++ [slash]))))) by (rewrite E; now left). rewrite <- in_rev in X. apply filter_In in X as (I & B). apply begins_iff in B. now apply N in B.
Qed.
Theorem C118_other_case : forall ls fs d n f, fs (key (d ++ slash :: n)) = None -> existsb (Ascii.eqb slash) n = false -> existsb special n = false ->
  In f (ls (d ++ [slash])) -> same_letters n f -> (forall g, In g (ls (d ++ [slash])) -> covers n g -> g = f) -> resolve ls fs (d ++ slash :: n) = Ok (d ++ slash :: f).
Proof.
  intros ls fs d n f H S SP I SL U. unfold resolve. rewrite H, (split_name_ok d n S), SP.
  assert (B : covers n f). { exists f, []. split; [now rewrite app_nil_r|]. clear - SL. induction SL; constructor; [now right|assumption]. }
  destruct (rev (filter (begins n) (ls (d ++ [slash])))) as [|g l] eqn:E.
  - assert (X : In f (rev (filter (begins n) (ls (d ++ [slash]))))) by (rewrite <- in_rev; apply filter_In; split; [exact I|now apply begins_iff]). rewrite E in X. destruct X.
  - assert (X : In g (rev (filter (begins n) (ls (d ++ [slash]))))) by (rewrite E; now left). rewrite <- in_rev in X. apply filter_In in X as (IG & BG). apply begins_iff in BG. rewrite (U g IG BG), <- app_assoc. reflexivity.
Qed.
(** REFUTED: a missing file is replaced by any file whose name is longer, without a message *)
Theorem C118_other_file_refuted : forall ls fs d n more, fs (key (d ++ slash :: n)) = None -> existsb (Ascii.eqb slash) n = false -> existsb special n = false ->
  ls (d ++ [slash]) = [n ++ more] -> resolve ls fs (d ++ slash :: n) = Ok (d ++ slash :: n ++ more).
Proof.
  intros ls fs d n more H S SP L. unfold resolve. rewrite H, (split_name_ok d n S), SP, L. cbn [filter]. assert (B : begins n (n ++ more) = true).
  { apply begins_iff. exists n, more. split; [reflexivity|]. clear. induction n; constructor; [now right|assumption]. }
  rewrite B. cbn [rev app]. now rewrite <- app_assoc.
Qed.
Print Assumptions C118_other_file_refuted.

Example example_place : place (chars "/home/user") (chars "/data") /\ good_names (chars "/home/user") (chars "/data") [chars "~/GSM_001.nc"; chars "#2.nc"; chars "/x/3.nc"] /\
  series ex_series 3 [2004%R; 2005%R; 2006%R] [25%Z; 37%Z; 49%Z] /\
  map (compress (chars "/home/user") (chars "/data")) [chars "~/GSM_001.nc"; chars "#2.nc"; chars "/home/user/3.nc"; chars "/home/users/3.nc"] = [chars "~/GSM_001.nc"; chars "/data/#2.nc"; chars "~/3.nc"; chars "/home/users/3.nc"].
Proof.
  split; [split; [eexists; reflexivity|split; [eexists; reflexivity|split; repeat constructor]]|]. split; [split; [repeat constructor|cbn; repeat constructor; cbn; intuition discriminate]|].
  split; [split; [apply ex_series_wf|]; repeat split; cbn; [lia|repeat constructor; cbn; lia]|reflexivity].
Qed.
