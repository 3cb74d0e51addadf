(** C107: aod1b_geocenter and aod1b_oblateness.  Specification first. *)
From Coq Require Import QArith Reals Qreals Lra String Ascii ZifyBool ZifyNat.
From Verif Require Import Base HarmModel HarmProofs GeoModel DealiasModel PropDealias AodModel.
From Verif Require GeoReadModel.
Open Scope Z_scope.

(** a readable member of day [d]: [nt] data sets of the product with as many lines as there are coefficients of degree L, none twice *)
Definition member_ok (product : string) (nt L : nat) (m : tmember) (d : Z) (es : list (Z * list (nat * nat * R * R))) : Prop :=
  t_day m = Some d /\ listing product es (t_lines m) /\ List.length es = nt /\ Forall (fun e => List.length (snd e) = n_coefs L /\ NoDup (map key (snd e))) es.
(** displacements of the geocenter of a set of coefficients in mm: sqrt 3 a (C11, S11, C10) *)
Definition displacement (cs : list (nat * nat * R * R)) : R * R * R :=
  let k := (default_radius * sqrt 3)%R in (k * fst (listed cs 1 1), k * snd (listed cs 1 1), k * fst (listed cs 1 0))%R.
(** the lines of a series *)
Definition geocenter_series (rd : R -> Q) (ym : Z * Z) (days : list (Z * list (Z * list (nat * nat * R * R)))) : list oline :=
  flat_map (fun x => map (fun e => let '(X, Y, Z) := displacement (snd e) in ((ym, fst x), fst e, [rd X; rd Y; rd Z])) (snd x)) days.
Definition oblateness_series (rd : R -> Q) (ym : Z * Z) (days : list (Z * list (Z * list (nat * nat * R * R)))) : list oline :=
  flat_map (fun x => map (fun e => ((ym, fst x), fst e, [rd (fst (listed (snd e) 2 0))])) (snd x)) days.
(** the file of an archive is missing or older than the archive, or everything is to be written *)
Definition stale (clobber : bool) (old : option (list oline * R)) (a : tarchive) : Prop :=
  match old with None => True | Some (_, t) => clobber = true \/ (t < ta_mtime a)%R end.

(** ** Proofs *)
Lemma coef_none cs l m : forall old, ~ In (l, m) (map key cs) -> fold_left (put_coef l m) cs old = old.
Proof.
  induction cs as [|[[[a b] c] s] cs IH]; intros old N; [reflexivity|]. cbn [fold_left put_coef]. cbn [map In key fst] in N.
  destruct (Nat.eqb_spec a l), (Nat.eqb_spec b m); cbn [andb]; try (apply IH; tauto). exfalso. apply N. left. now subst.
Qed.
Lemma coef_listed cs l m : NoDup (map key cs) -> coef_of l m cs = listed cs l m.
Proof.
  unfold coef_of. intros ND. assert (DEC : forall a b : nat * nat, {a = b} + {a <> b}) by (decide equality; apply Nat.eq_dec). destruct (in_dec DEC (l, m) (map key cs)) as [I|N]; [|rewrite coef_none, listed_none by auto; reflexivity].
  generalize (0%R, 0%R) as old. induction cs as [|[[[a b] c] s] cs IH]; [destruct I|]. intros old. cbn [fold_left put_coef]. inversion ND as [|? ? NI ND']; subst. unfold listed. cbn [find key fst snd]. cbn [map In key fst] in I, NI.
  destruct (Nat.eqb_spec a l) as [->|], (Nat.eqb_spec b m) as [->|]; cbn [andb]; [apply coef_none; exact NI| | |]; (destruct I as [I|I]; [congruence|]; apply (IH ND' I)).
Qed.
Lemma geocenter_ok rd ym d nh (es : list (Z * list (nat * nat * R * R))) : Forall (fun e => List.length (snd e) = nh /\ NoDup (map key (snd e))) es ->
  geocenter_lines rd (ym, d) es = geocenter_series rd ym [(d, es)].
Proof.
  intros F. unfold geocenter_series. cbn [flat_map fst snd]. rewrite app_nil_r. unfold geocenter_lines. cbv zeta. unfold to_cartesian. cbn [gC10 gC11 gS11 gZ gX gY eC10 eC11 eS11 sX sY sZ try3 gtime gmonth radius].
  induction F as [|e es [_ ND] F IH]; [reflexivity|]. cbn [map combine]. f_equal; [|exact IH].
  unfold displacement. rewrite !(coef_listed _ _ _ ND). replace (fst (listed (snd e) 1 1) * default_radius * sqrt 3 / (1 + 0))%R with (default_radius * sqrt 3 * fst (listed (snd e) 1 1))%R by field.
  replace (snd (listed (snd e) 1 1) * default_radius * sqrt 3 / (1 + 0))%R with (default_radius * sqrt 3 * snd (listed (snd e) 1 1))%R by field.
  replace (fst (listed (snd e) 1 0) * default_radius * sqrt 3 / (1 + 0))%R with (default_radius * sqrt 3 * fst (listed (snd e) 1 0))%R by field. reflexivity.
Qed.
Lemma oblateness_ok rd ym d nh (es : list (Z * list (nat * nat * R * R))) : Forall (fun e => List.length (snd e) = nh /\ NoDup (map key (snd e))) es -> (4 <= List.length es)%nat ->
  oblateness_lines rd (ym, d) es = oblateness_series rd ym [(d, firstn 4 es)].
Proof.
  intros F L. unfold oblateness_series. cbn [flat_map fst snd]. rewrite app_nil_r. destruct es as [|e0 [|e1 [|e2 [|e3 es]]]]; try (cbn in L; exfalso; lia). repeat match goal with H : Forall _ (_ :: _) |- _ => inversion H; clear H; subst end.
  unfold oblateness_lines. cbn [seq map nth firstn]. rewrite !coef_listed by tauto. reflexivity.
Qed.
Lemma print_ok product nt L show series ym (days : list (Z * list (Z * list (nat * nat * R * R)))) ms :
  (forall d es, List.length es = nt -> Forall (fun e => List.length (snd e) = n_coefs L /\ NoDup (map key (snd e))) es -> show (ym, d) es = series [(d, es)]) ->
  series [] = [] -> (forall x l, series (x :: l) = (series [x] ++ series l)%list) ->
  Forall2 (fun m x => member_ok product nt L m (fst x) (snd x)) ms days -> print_members product nt (n_coefs L) show ym ms = (series days, Done).
Proof.
  intros SH S0 SC F. induction F as [|m [d es] ms days (D & LI & LE & FC) F IH]; [cbn [print_members]; rewrite S0; reflexivity|]. cbn [fst snd] in *. cbn [print_members]. rewrite D.
  rewrite <- LE at 1. rewrite (read_listing product (n_coefs L) es (t_lines m) LI) by (eapply Forall_impl; [|exact FC]; cbv beta; tauto). rewrite IH, SC, SH by auto. reflexivity.
Qed.
Lemma eq2_refl k : eq2 k k = true.
Proof. now apply eq2_true. Qed.
Lemma write_same f k x : write f k x k = Some x.
Proof. unfold write. now rewrite eq2_refl. Qed.
Lemma write_other f k x n : n <> k -> write f k x n = f n.
Proof. intros N. unfold write. destruct (eq2 n k) eqn:E; auto. apply eq2_true in E. contradiction. Qed.
Definition stale_b (clobber : bool) (old : option (list oline * R)) (a : tarchive) : bool :=
  ((match old with Some (_, t) => if Rlt_dec t (ta_mtime a) then true else false | None => true end) || clobber)%bool.
Lemma stale_b_ok clobber old a : stale_b clobber old a = true <-> stale clobber old a.
Proof. unfold stale_b, stale. destruct old as [[l t]|]; [|tauto]. destruct (Rlt_dec t (ta_mtime a)), clobber; cbn [orb]; intuition (try discriminate; try lra). Qed.
Lemma archives_ok clock product nt L show series clobber : (nt <> 0)%nat ->
  (forall ym d es, List.length es = nt -> Forall (fun e => List.length (snd e) = n_coefs L /\ NoDup (map key (snd e))) es -> show (ym, d) es = series ym [(d, es)]) ->
  (forall ym, series ym [] = []) -> (forall ym x l, series ym (x :: l) = (series ym [x] ++ series ym l)%list) ->
  forall (archives : list tarchive) (f : outputs) (days : tarchive -> list (Z * list (Z * list (nat * nat * R * R)))), NoDup (map ta_month archives) ->
  (forall a, In a archives -> stale clobber (f (ta_month a)) a -> Forall2 (fun m x => member_ok product nt L m (fst x) (snd x)) (ta_members a) (days a)) ->
  exists f', all_archives clock product nt (n_coefs L) show clobber f archives = (f', Done) /\
    (forall a, In a archives -> stale clobber (f (ta_month a)) a -> f' (ta_month a) = Some (series (ta_month a) (days a), clock a)) /\
    (forall n, (forall a, In a archives -> stale clobber (f (ta_month a)) a -> n <> ta_month a) -> f' n = f n).
Proof.
  intros NT SH S0 SC. induction archives as [|a archives IH]; intros f days ND H; [exists f; split; [reflexivity|]; split; [intros a []|auto]|].
  cbn [map] in ND. inversion ND as [|? ? NI ND']; subst. assert (NE : forall a', In a' archives -> ta_month a' <> ta_month a) by (intros a' I X; apply NI; rewrite <- X; now apply in_map).
  cbn [all_archives]. change ((match f (ta_month a) with Some (_, t) => if Rlt_dec t (ta_mtime a) then true else false | None => true end) || clobber)%bool with (stale_b clobber (f (ta_month a)) a).
  pose proof (stale_b_ok clobber (f (ta_month a)) a) as SB. destruct (stale_b clobber (f (ta_month a)) a).
  - assert (ST : stale clobber (f (ta_month a)) a) by now apply SB. rewrite (print_ok product nt L show (series (ta_month a)) (ta_month a) (days a)); auto; [|apply H; [now left|auto]].
    destruct (IH (write f (ta_month a) (series (ta_month a) (days a), clock a)) days ND') as (f' & E & WR & KP).
    { intros a' I S'. rewrite write_other in S' by auto. apply H; [now right|auto]. }
    exists f'. split; [exact E|]. split.
    + intros a' [<-|I] S'; [|apply WR; auto; rewrite write_other by auto; exact S']. rewrite KP by (intros a' I _ X; now apply (NE a' I)). apply write_same.
    + intros n HN. rewrite KP; [apply write_other; apply HN; [now left|auto]|]. intros a' I S'. rewrite write_other in S' by auto. apply HN; [now right|auto].
  - assert (ST : ~ stale clobber (f (ta_month a)) a) by (rewrite <- SB; discriminate). destruct (IH f days ND') as (f' & E & WR & KP); [intros a' I; apply H; now right|]. exists f'. split; [exact E|]. split.
    + intros a' [<-|I] S'; [contradiction|auto].
    + intros n HN. apply KP. intros a' I S'. apply HN; [now right|auto].
Qed.
Lemma release_ok DREL nt L : release DREL = Ok (nt, L) -> (nt = 4%nat /\ L = 100%nat) \/ (nt = 8%nat /\ L = 180%nat).
Proof. unfold release. destruct (existsb _ _); [intros [= <- <-]; auto|]. destruct (String.eqb _ _); [|discriminate]. intros [= <- <-]. auto. Qed.
(** The geocenter file of a month: one line for each epoch of each member, in their order, with the displacement of the degree 1 coefficients; files which are up to date are left alone *)
Theorem C107_geocenter : forall clock rd DREL DSET nt L clobber (archives : list tarchive) (f : outputs) (days : tarchive -> list (Z * list (Z * list (nat * nat * R * R)))),
  release DREL = Ok (nt, L) -> NoDup (map ta_month archives) ->
  (forall a, In a archives -> stale clobber (f (ta_month a)) a -> Forall2 (fun m x => member_ok DSET nt L m (fst x) (snd x)) (ta_members a) (days a)) ->
  exists f', aod1b_geocenter clock rd DREL DSET clobber archives f = (f', Done) /\
    (forall a, In a archives -> stale clobber (f (ta_month a)) a -> f' (ta_month a) = Some (geocenter_series rd (ta_month a) (days a), clock a)) /\
    (forall n, (forall a, In a archives -> stale clobber (f (ta_month a)) a -> n <> ta_month a) -> f' n = f n).
Proof.
  intros clock rd DREL DSET nt L clobber archives f days ER ND H. unfold aod1b_geocenter, aod1b_series. rewrite ER. apply (archives_ok clock DSET nt L (geocenter_lines rd) (geocenter_series rd) clobber); auto.
  - pose proof (release_ok _ _ _ ER). lia.
  - intros ym d es _ F. eapply geocenter_ok; eauto.
  - intros ym x l. unfold geocenter_series. cbn [flat_map]. now rewrite app_nil_r.
Qed.
(** The C20 file of a month: only the first four epochs of each day.  All of them up to release 5; in release 6 the second half of every day is missing *)
Theorem C107_oblateness : forall clock rd DREL DSET nt L clobber (archives : list tarchive) (f : outputs) (days : tarchive -> list (Z * list (Z * list (nat * nat * R * R)))),
  release DREL = Ok (nt, L) -> NoDup (map ta_month archives) ->
  (forall a, In a archives -> stale clobber (f (ta_month a)) a -> Forall2 (fun m x => member_ok DSET nt L m (fst x) (snd x)) (ta_members a) (days a)) ->
  exists f', aod1b_oblateness clock rd DREL DSET clobber archives f = (f', Done) /\
    (forall a, In a archives -> stale clobber (f (ta_month a)) a -> f' (ta_month a) = Some (oblateness_series rd (ta_month a) (map (fun x => (fst x, firstn 4 (snd x))) (days a)), clock a)) /\
    (nt = 4%nat -> forall a, In a archives -> stale clobber (f (ta_month a)) a -> f' (ta_month a) = Some (oblateness_series rd (ta_month a) (days a), clock a)) /\
    (forall n, (forall a, In a archives -> stale clobber (f (ta_month a)) a -> n <> ta_month a) -> f' n = f n).
Proof.
  intros clock rd DREL DSET nt L clobber archives f days ER ND H. unfold aod1b_oblateness, aod1b_series. rewrite ER.
  destruct (archives_ok clock DSET nt L (oblateness_lines rd) (fun ym l => oblateness_series rd ym (map (fun x => (fst x, firstn 4 (snd x))) l)) clobber) with (archives := archives) (f := f) (days := days) as (f' & E & A & B); auto.
  - pose proof (release_ok _ _ _ ER). lia.
  - intros ym d es LE F. cbn [map fst snd]. apply (oblateness_ok rd ym d (n_coefs L)); auto. pose proof (release_ok _ _ _ ER). lia.
  - intros ym x l. unfold oblateness_series. cbn [map flat_map]. now rewrite app_nil_r.
  - exists f'. split; [exact E|]. split; [exact A|]. split; [|exact B]. intros N4 a I S. rewrite (A a I S). do 2 f_equal. f_equal. specialize (H a I S). clear - H N4. induction H as [|m [d es] ms ds (_ & _ & LE & _) F IH]; [reflexivity|].
    cbn [map fst snd] in *. rewrite IH. do 2 f_equal. apply firstn_all2. lia.
Qed.
Theorem C107_half_days_refuted : forall clock rd DSET clobber a f d es, stale clobber (f (ta_month a)) a -> (exists m, ta_members a = [m] /\ member_ok DSET 8 180 m d es) ->
  exists f' lines t, aod1b_oblateness clock rd "RL06" DSET clobber [a] f = (f', Done) /\ f' (ta_month a) = Some (lines, t) /\ List.length lines = 4%nat /\ List.length es = 8%nat /\
    forall e, In e (skipn 4 es) -> ~ In (fst e) (map fst (firstn 4 es)) -> forall x, In x lines -> snd (fst x) <> fst e.
Proof.
  intros clock rd DSET clobber a f d es ST (m & EM & OK). destruct (C107_oblateness clock rd "RL06" DSET 8 180 clobber [a] f (fun _ => [(d, es)])) as (f' & E & A & _); [reflexivity|repeat constructor; intros []| |].
  - intros a' [<-|[]] _. rewrite EM. constructor; [exact OK|constructor].
  - pose proof (A a (or_introl eq_refl) ST) as EF. destruct OK as (_ & _ & LE & _). unfold oblateness_series in EF. cbn [map flat_map fst snd] in EF. rewrite app_nil_r in EF. eexists _, _, _. split; [exact E|]. split; [exact EF|].
    split; [rewrite map_length, firstn_length; lia|]. split; [exact LE|]. intros e I N x Ix. apply in_map_iff in Ix. destruct Ix as (e' & <- & I'). cbn [fst snd]. intros X. apply N. rewrite <- X. now apply in_map.
Qed.
(** Running again writes nothing if the files are not older than the archives *)
Theorem C107_second_run : forall clock rd DREL DSET nt L clobber (archives : list tarchive) (f : outputs) (days : tarchive -> list (Z * list (Z * list (nat * nat * R * R)))),
  release DREL = Ok (nt, L) -> NoDup (map ta_month archives) ->
  (forall a, In a archives -> stale clobber (f (ta_month a)) a -> Forall2 (fun m x => member_ok DSET nt L m (fst x) (snd x)) (ta_members a) (days a)) ->
  (forall a, In a archives -> (ta_mtime a <= clock a)%R) ->
  exists f', aod1b_geocenter clock rd DREL DSET clobber archives f = (f', Done) /\ forall clock2, exists f'', aod1b_geocenter clock2 rd DREL DSET false archives f' = (f'', Done) /\ forall n, f'' n = f' n.
Proof.
  intros clock rd DREL DSET nt L clobber archives f days ER ND H MT. destruct (C107_geocenter clock rd DREL DSET nt L clobber archives f days ER ND H) as (f' & E & A & B). exists f'. split; [exact E|]. intros clock2.
  assert (NS : forall a, In a archives -> ~ stale false (f' (ta_month a)) a).
  { intros a I S. pose proof (stale_b_ok clobber (f (ta_month a)) a) as SB. destruct (stale_b clobber (f (ta_month a)) a).
    - rewrite (A a I (proj1 SB eq_refl)) in S. cbn [stale] in S. destruct S as [S|S]; [discriminate|]. specialize (MT a I). lra.
    - assert (KF : f' (ta_month a) = f (ta_month a)). { apply B. intros a' I' S' X. assert (a = a').
        { clear - ND I I' X. induction archives as [|a0 l IH]; [destruct I|]. cbn [map] in ND. inversion ND as [|? ? N1 N2]; subst. destruct I as [<-|I], I' as [<-|I']; auto; exfalso; apply N1; [rewrite X|rewrite <- X]; now apply in_map. }
        subst a'. apply SB in S'. discriminate. }
      rewrite KF in S. assert (S2 : stale clobber (f (ta_month a)) a) by (unfold stale in *; destruct (f (ta_month a)) as [[l t]|]; auto; destruct S; [discriminate|auto]). apply SB in S2. discriminate. }
  destruct (C107_geocenter clock2 rd DREL DSET nt L false archives f' days ER ND) as (f'' & E2 & _ & B2); [intros a I S; exfalso; now apply (NS a I)|]. exists f''. split; [exact E2|]. intros n. apply B2. intros a I S. exfalso. now apply (NS a I).
Qed.
(** The coefficients read back from the lines of a month (from_AOD1B) are those of the archive up to the rounding of the print *)
Theorem C107_read_back : forall rd eps ym days, (forall x, (Rabs (Q2R (rd x) - x) <= eps)%R) ->
  exists cs, GeoReadModel.from_AOD1B (fst ym) (snd ym) (Some (map (fun x => (fst (fst (fst (fst x))), snd (fst (fst (fst x))), snd x)) (geocenter_series rd ym days))) = Ok cs /\
  Forall2 (fun c e => let '(c10, c11, s11) := c in let k := (eps / (default_radius * sqrt 3))%R in
     (Rabs (c10 - fst (listed (snd e) 1 0)) <= k /\ Rabs (c11 - fst (listed (snd e) 1 1)) <= k /\ Rabs (s11 - snd (listed (snd e) 1 1)) <= k)%R) cs (flat_map snd days).
Proof.
  intros rd eps [yy mm] days RD. cbn [fst snd GeoReadModel.from_AOD1B].
  assert (DP : (0 < default_radius * sqrt 3)%R). { apply Rmult_lt_0_compat; [|apply sqrt_lt_R0; lra]. unfold default_radius, Rpower. apply Rmult_lt_0_compat; [lra|apply exp_pos]. }
  set (es := flat_map snd days).
  assert (EQ : map (fun x : oline => (fst (fst (fst (fst x))), snd (fst (fst (fst x))), snd x)) (geocenter_series rd (yy, mm) days) = map (fun e => let '(X, Y, Z) := displacement (snd e) in (yy, mm, [rd X; rd Y; rd Z])) es).
  { unfold es, geocenter_series. clear. induction days as [|[d l] days IH]; [reflexivity|]. cbn [flat_map fst snd]. rewrite !map_app. f_equal; [|exact IH]. rewrite map_map. apply map_ext. intros e. destruct (displacement (snd e)) as [[X Y] Z]. reflexivity. }
  unfold oline in EQ. rewrite EQ. clear EQ. assert (MM : mapM (GeoReadModel.aod_row yy mm) (map (fun e : Z * list (nat * nat * R * R) => let '(X, Y, Z) := displacement (snd e) in (yy, mm, [rd X; rd Y; rd Z])) es) = Ok (map (fun e => let '(X, Y, Z) := displacement (snd e) in (rd X, rd Y, rd Z)) es)).
  { clear. induction es as [|e es IH]; [reflexivity|]. cbn [map mapM]. destruct (displacement (snd e)) as [[X Y] Z] eqn:D. unfold GeoReadModel.aod_row at 1. rewrite !Z.eqb_refl. cbn [negb bind]. rewrite IH. reflexivity. }
  rewrite MM. cbn [bind]. eexists. split; [reflexivity|]. rewrite map_map. clear MM. clearbody es. induction es as [|e es IH]; cbn [map]; constructor; auto.
  unfold displacement. cbv zeta. cbn [fst snd]. set (k := (default_radius * sqrt 3)%R) in *.
  assert (ONE : forall v, (Rabs (GeoReadModel.cart default_radius (rd (k * v)) - v) <= eps / k)%R).
  { intros v. unfold GeoReadModel.cart. fold k. specialize (RD (k * v)%R). replace ((1 + 0) * Q2R (rd (k * v)) / k - v)%R with ((Q2R (rd (k * v)) - k * v) / k)%R by (field; lra).
    unfold Rdiv at 1. rewrite Rabs_mult. rewrite (Rabs_right (/ k)) by (apply Rle_ge; left; now apply Rinv_0_lt_compat). apply Rmult_le_compat_r; [left; now apply Rinv_0_lt_compat|exact RD]. }
  repeat split; apply ONE.
Qed.
(** ... but under the name it looks for there is no such file: a space in place of an underscore *)
Theorem C107_name_refuted : forall DREL DSET yy mm, written_name DREL DSET yy mm <> read_name DREL DSET yy mm.
Proof.
  intros DREL DSET yy mm H. unfold written_name, read_name in H. injection H as H. revert H. generalize (DSET ++ "_" ++ yy ++ "_" ++ mm ++ ".txt")%string as t. induction DREL as [|c s IH]; intros t H; cbn in H; injection H as H; [discriminate|]. now apply (IH t).
Qed.
(** A member which cannot be read ends the program; the lines of the members before it stay in the file, which the next run takes for complete *)
Theorem C107_interrupted_refuted : forall clock rd DREL DSET nt L a rest f days bad tail e, release DREL = Ok (nt, L) -> f (ta_month a) = None ->
  (exists ms, ta_members a = (ms ++ bad :: tail)%list /\ Forall2 (fun m x => member_ok DSET nt L m (fst x) (snd x)) ms days) ->
  (t_day bad = None /\ e = IndexError \/ (exists d, t_day bad = Some d) /\ read_member DSET (n_coefs L) nt (t_lines bad) = Err e) -> (ta_mtime a <= clock a)%R ->
  let f1 := write f (ta_month a) (geocenter_series rd (ta_month a) days, clock a) in
  aod1b_geocenter clock rd DREL DSET false (a :: rest) f = (f1, Raised e) /\
  forall clock2, aod1b_geocenter clock2 rd DREL DSET false [a] f1 = (f1, Done).
Proof.
  intros clock rd DREL DSET nt L a rest f days bad tail e ER NF (ms & EM & F) BAD MT f1. unfold aod1b_geocenter, aod1b_series. rewrite ER. split.
  - cbn [all_archives]. rewrite NF. cbn [orb].
    assert (PM : print_members DSET nt (n_coefs L) (geocenter_lines rd) (ta_month a) (ta_members a) = (geocenter_series rd (ta_month a) days, Raised e)).
    { rewrite EM. clear EM. induction F as [|m [d es] ms days (D & LI & LE & FC) F IH].
      - cbn [app print_members]. destruct BAD as [[-> ->]|[[d ->] ->]]; reflexivity.
      - cbn [fst snd] in *. cbn [app print_members]. rewrite D. rewrite <- LE at 1. rewrite (read_listing DSET (n_coefs L) es (t_lines m) LI) by (eapply Forall_impl; [|exact FC]; cbv beta; tauto). rewrite IH. rewrite (geocenter_ok rd (ta_month a) d (n_coefs L) es FC).
        unfold geocenter_series. cbn [flat_map]. rewrite app_nil_r. reflexivity. }
    rewrite PM. reflexivity.
  - intros clock2. cbn [all_archives]. unfold f1 at 1. rewrite write_same. destruct (Rlt_dec (clock a) (ta_mtime a)) as [X|_]; [exfalso; lra|]. reflexivity.
Qed.
(** Two archives of one month (two versions): without CLOBBER the first one by name is kept, even if the second is newer (but not than the run) *)
Theorem C107_versions_refuted : forall clock rd DREL DSET nt L a b f days, release DREL = Ok (nt, L) -> ta_month b = ta_month a -> f (ta_month a) = None -> (ta_mtime a < ta_mtime b <= clock a)%R ->
  Forall2 (fun m x => member_ok DSET nt L m (fst x) (snd x)) (ta_members a) days ->
  aod1b_geocenter clock rd DREL DSET false [a; b] f = (write f (ta_month a) (geocenter_series rd (ta_month a) days, clock a), Done).
Proof.
  intros clock rd DREL DSET nt L a b f days ER EB NF MT F. unfold aod1b_geocenter, aod1b_series. rewrite ER. cbn [all_archives]. rewrite NF. cbn [orb].
  rewrite (print_ok DSET nt L (geocenter_lines rd) (geocenter_series rd (ta_month a)) (ta_month a) days); auto.
  - rewrite EB, write_same. destruct (Rlt_dec (clock a) (ta_mtime b)) as [X|_]; [exfalso; lra|]. reflexivity.
  - intros d es _ FC. eapply geocenter_ok; eauto.
  - intros x l. unfold geocenter_series. cbn [flat_map]. now rewrite app_nil_r.
Qed.
(** a month with one readable day *)
Example C107_example : exists a es, ta_members a <> [] /\ Forall2 (fun m x => member_ok "glo" 8 180 m (fst x) (snd x)) (ta_members a) [(1, es)] /\
  forall e, In e es -> displacement (snd e) = ((default_radius * sqrt 3 * 2), (default_radius * sqrt 3 * 0), (default_radius * sqrt 3 * 2))%R.
Proof.
  exists (mktarchive (2003, 1) 0 [mktmember (Some 1) (lines_of "glo" (flat_day 8 180 2%R))]), (flat_day 8 180 2%R). split; [discriminate|]. split.
  - constructor; [|constructor]. unfold member_ok. cbn [t_day t_lines fst snd]. destruct (flat_readable "glo" 8 180 (0, 0, 0) 0 2%R) as (A & B & C & D & E). split; [reflexivity|]. split; [exact A|]. split; [exact B|].
    eapply Forall_impl; [|exact C]. cbv beta. intros e K. rewrite K. split; [|exact D]. rewrite <- (map_length key), K. apply triangle_length; [exact D|exact E].
  - intros e I. unfold flat_day in I. apply in_map_iff in I. destruct I as (k & <- & _). cbn [snd].
    assert (LF : forall l m, (m <= l <= 180)%nat -> listed (flat_field 180 2%R) l m = (2%R, 0%R)).
    { intros l m H. unfold listed. destruct (find _ _) as [c|] eqn:FD.
      - apply find_some in FD. destruct FD as [I _]. apply in_map_iff in I. destruct I as (q & <- & _). reflexivity.
      - exfalso. assert (X : (Nat.eqb (fst (key (l, m, 2%R, 0%R))) l && Nat.eqb (snd (key (l, m, 2%R, 0%R))) m)%bool = false). { apply (find_none _ _ FD). apply in_map_iff. exists (l, m). split; auto. apply lm_loop_in. lia. }
        cbn [key fst snd] in X. rewrite !Nat.eqb_refl in X. discriminate. }
    unfold displacement. rewrite !LF by lia. reflexivity.
Qed.
