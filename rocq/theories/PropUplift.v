(** C108: dealiasing_global_uplift.  Specification first. *)
From Coq Require Import Reals Lra Lia String ZifyBool ZifyNat.
From Verif Require Import Base TimeModel TimeSpec UnitsModel LegendreModel SummationModel SummationProofs PropFactors GenModel MasconModel PropLegendre PropUnits PropSummation PropSmooth PropSlr Arr HarmModel HarmProofs HarmProofs2
  MapsModel MapsProofs PropMaps DealiasModel PropDealias AodModel PropAod UpliftModel.
From Verif Require PropTime LegendreSpec2.
Close Scope string_scope.
Close Scope R_scope.
Open Scope Z_scope.

Definition sets : Type := list (Z * list (nat * nat * R * R)).
(** number of days of a month *)
Definition days_in_month (ym : Z * Z) : Z := month_len (greg_leap (fst ym)) (snd ym).
(** the data set read last *)
Definition last_of (days : list (Z * sets)) : list (nat * nat * R * R) := match rev (flat_map snd days) with e :: _ => snd e | [] => [] end.
(** the coefficients of [cs] in their order, under the degrees and orders of [last] *)
Definition rekeyed (last cs : list (nat * nat * R * R)) : list (nat * nat * R * R) := map (fun p => (key (fst p), snd (fst (snd p)), snd (snd p))) (combine last cs).
(** an archive which can be mapped: readable members with days of the month; the last data set has all degrees and orders *)
Definition month_ok (DSET : string) (nt L : nat) (a : tarchive) (days : list (Z * sets)) : Prop :=
  1 <= snd (ta_month a) <= 12 /\ (fst (ta_month a)) mod 4000 <> 0 /\ days <> [] /\
  Forall2 (fun m x => member_ok DSET nt L m (fst x) (snd x)) (ta_members a) days /\
  (forall d es, In (d, es) days -> 1 <= d <= days_in_month (ta_month a)) /\
  NoDup (map key (last_of days)) /\ (forall l k : nat, In (l, k) (map key (last_of days)) <-> (k <= l <= L)%nat).
(** the uplift (mm) by the coefficients [cs] at longitude x and latitude y (Wahr et al. 1998) *)
Definition uplift (love : love3) (L : nat) (cs : list (nat * nat * R * R)) (x y : R) : R :=
  let f l := (10 * rad_e PropFactors.earth * nth l (fst (fst love)) 0 / (1 + nth l (snd (fst love)) 0))%R in
  PropSummation.series (fun l m => f l * fst (listed cs l m))%R (fun l m => f l * snd (listed cs l m))%R 0 L L (colat y) (deg x).
(** a map shows a function of longitude and latitude away from the poles *)
Definition map_shows (lon lat : list R) (g : arr R) (F : R -> R -> R) : Prop :=
  rows g = List.length lat /\ cols g = List.length lon /\ depth g = None /\
  forall i k x y, nth_error lon i = Some x -> nth_error lat k = Some y -> (-90 < y < 90)%R -> get g k i 0 = F x y.
(** the file of a month: one place for each epoch of each day of the month; the data sets of the last member of a day are at the places of the day, under the degrees and orders of the set read last;
    the places of a day without member hold a zero map, with the time of the midnight before the month *)
Definition month_file (love : love3) (nt L : nat) (lon lat : list R) (n : Z) (days : list (Z * sets)) (u : ufile) : Prop :=
  u_lon u = lon /\ u_lat u = lat /\ List.length (u_time u) = (nt * Z.to_nat n)%nat /\ List.length (u_maps u) = (nt * Z.to_nat n)%nat /\
  (forall d1 d es d2 c h cs, days = (d1 ++ (d, es) :: d2)%list -> ~ In d (map fst d2) -> nth_error es c = Some (h, cs) ->
     let i := (Z.to_nat (d - 1) * nt + c)%nat in nth_error (u_time u) i = Some (24 * (d - 1) + h) /\ exists g, nth_error (u_maps u) i = Some g /\ map_shows lon lat g (uplift love L (rekeyed (last_of days) cs))) /\
  (forall d c, 1 <= d <= n -> ~ In d (map fst days) -> (c < nt)%nat ->
     let i := (Z.to_nat (d - 1) * nt + c)%nat in nth_error (u_time u) i = Some (-24) /\ exists g, nth_error (u_maps u) i = Some g /\ map_shows lon lat g (fun _ _ => 0%R)).
(** the file of an archive is missing or older than the archive *)
Definition outdated (old : option (ufile * R)) (a : tarchive) : Prop := match old with None => True | Some (_, t) => (t < ta_mtime a)%R end.

(** ** Proofs *)
Lemma rekeyed_same last cs : map key cs = map key last -> rekeyed last cs = cs.
Proof.
  unfold rekeyed. revert last. induction cs as [|[[[a b] c] s] cs IH]; intros [|x last] E; try discriminate; [reflexivity|]. cbn [map combine fst snd] in *. injection E as E1 E2. rewrite IH by auto. f_equal. rewrite <- E1. reflexivity.
Qed.
Lemma rekeyed_keys last cs : List.length cs = List.length last -> map key (rekeyed last cs) = map key last.
Proof. unfold rekeyed. revert cs. induction last as [|x last IH]; intros [|c cs] E; try discriminate; [reflexivity|]. cbn [map combine fst snd]. f_equal. apply IH. cbn in E. lia. Qed.
Lemma rekeyed_nth last cs k : List.length cs = List.length last -> (k < List.length cs)%nat ->
  snd (fst (nth k (rekeyed last cs) nocoef)) = snd (fst (nth k cs nocoef)) /\ snd (nth k (rekeyed last cs) nocoef) = snd (nth k cs nocoef).
Proof. unfold rekeyed. revert last k. induction cs as [|c cs IH]; intros [|x last] k E H; try discriminate; [cbn in H; lia|]. destruct k as [|k]; cbn [map combine fst snd nth]; [auto|]. apply IH; cbn in *; lia. Qed.

(** places of the data sets *)
Definition put_fn (nt : nat) (x : Z * sets) (i : nat) (old : slot) : slot :=
  let k := Z.of_nat i - (fst x - 1) * Z.of_nat nt in
  if ((0 <=? k) && (k <? Z.of_nat (List.length (snd x))))%bool then let e := nth (Z.to_nat k) (snd x) (0, []) in (fst x, fst e, snd e) else old.
Lemma put_run nt D (es : sets) : forall c0 (s : list slot), 1 <= D -> (Z.to_nat (D - 1) * nt + c0 + List.length es <= List.length s)%nat ->
  exists s', fold_left (fun acc p => do s0 <- acc; do i <- py_index (List.length s) ((D - 1) * Z.of_nat nt + Z.of_nat (fst p)); Ok (upd s0 i (D, fst (snd p), snd (snd p))))
    (combine (seq c0 (List.length es)) es) (Ok s) = Ok s' /\ List.length s' = List.length s /\
    forall i, (i < List.length s)%nat -> nth i s' empty_slot = (let k := Z.of_nat i - (D - 1) * Z.of_nat nt - Z.of_nat c0 in
      if ((0 <=? k) && (k <? Z.of_nat (List.length es)))%bool then let e := nth (Z.to_nat k) es (0, []) in (D, fst e, snd e) else nth i s empty_slot).
Proof.
  induction es as [|e es IH]; intros c0 s HD HL.
  - exists s. split; [reflexivity|]. split; [reflexivity|]. intros i Hi. cbv zeta. cbn [List.length]. replace ((0 <=? _) && _)%bool with false by lia. reflexivity.
  - cbn [List.length seq combine fold_left fst snd bind] in *. set (p := (Z.to_nat (D - 1) * nt + c0)%nat) in *.
    assert (EP : (D - 1) * Z.of_nat nt + Z.of_nat c0 = Z.of_nat p) by (subst p; nia). clearbody p. assert (PL : (p < List.length s)%nat) by lia.
    assert (EI : py_index (List.length s) ((D - 1) * Z.of_nat nt + Z.of_nat c0) = Ok p).
    { unfold py_index. rewrite EP. replace (Z.of_nat p <? 0) with false by lia. replace ((0 <=? Z.of_nat p) && (Z.of_nat p <? Z.of_nat (List.length s)))%bool with true by lia. now rewrite Nat2Z.id. }
    rewrite EI. cbn [bind]. destruct (IH (S c0) (upd s p (D, fst e, snd e)) HD) as (s' & E & L' & V); [rewrite upd_length; nia|]. rewrite upd_length in *. exists s'. split; [exact E|]. split; [exact L'|].
    clear EI E L'. intros i Hi. etransitivity; [apply (V i Hi)|]. clear V IH. cbv zeta. rewrite upd_nth.
    set (q := (D - 1) * Z.of_nat nt) in *. clearbody q. destruct (Nat.eqb_spec p i) as [<-|N].
    + replace (p <? List.length s)%nat with true by lia. replace ((0 <=? Z.of_nat p - q - Z.of_nat (S c0)) && _)%bool with false by lia.
      replace ((0 <=? Z.of_nat p - q - Z.of_nat c0) && (Z.of_nat p - q - Z.of_nat c0 <? Z.of_nat (S (List.length es))))%bool with true by lia.
      replace (Z.to_nat (Z.of_nat p - q - Z.of_nat c0)) with 0%nat by lia. reflexivity.
    + replace ((0 <=? Z.of_nat i - q - Z.of_nat c0) && (Z.of_nat i - q - Z.of_nat c0 <? Z.of_nat (S (List.length es))))%bool
        with ((0 <=? Z.of_nat i - q - Z.of_nat (S c0)) && (Z.of_nat i - q - Z.of_nat (S c0) <? Z.of_nat (List.length es)))%bool by lia.
      destruct ((0 <=? Z.of_nat i - q - Z.of_nat (S c0)) && _)%bool eqn:B; [|reflexivity].
      replace (Z.to_nat (Z.of_nat i - q - Z.of_nat c0)) with (S (Z.to_nat (Z.of_nat i - q - Z.of_nat (S c0)))) by lia. reflexivity.
Qed.
Lemma put_sets_ok nt D (es : sets) (s : list slot) : 1 <= D -> (Z.to_nat (D - 1) * nt + List.length es <= List.length s)%nat ->
  exists s', put_sets nt D es s = Ok s' /\ List.length s' = List.length s /\ forall i, (i < List.length s)%nat -> nth i s' empty_slot = put_fn nt (D, es) i (nth i s empty_slot).
Proof.
  intros HD HL. destruct (put_run nt D es 0 s HD) as (s' & E & L' & V); [lia|]. exists s'. split; [exact E|]. split; [exact L'|]. intros i Hi. etransitivity; [apply (V i Hi)|]. unfold put_fn. cbn [fst snd]. cbv zeta. rewrite !Z.sub_0_r. reflexivity.
Qed.
Definition slot_at (nt : nat) (days : list (Z * sets)) (i : nat) (old : slot) : slot := fold_left (fun o x => put_fn nt x i o) days old.
Lemma listing_head product (es : sets) ls : listing product es ls -> es <> [] -> find_header product ls <> None.
Proof.
  intros H. induction H as [ls|x es ls N H IH|h n cs heads es ls L H IH]; intros NE; [contradiction| |].
  - cbn [find_header]. destruct (a_head x) as [[p h]|] eqn:A; [|auto]. destruct (String.eqb_spec p product) as [->|]; [exfalso; now apply (N h)|auto].
  - cbn [find_header a_head]. rewrite String.eqb_refl. discriminate.
Qed.
Lemma last_of_cons d (es : sets) (days : list (Z * sets)) (last : list (nat * nat * R * R)) : es <> [] -> match rev (flat_map snd ((d, es) :: days)) with e :: _ => snd e | [] => last end
  = match rev (flat_map snd days) with e :: _ => snd e | [] => match rev es with e :: _ => snd e | [] => last end end.
Proof. intros NE. cbn [flat_map snd]. rewrite rev_app_distr. destruct (rev (flat_map snd days)); reflexivity. Qed.
Lemma read_slots_ok product nt L N ms (days : list (Z * sets)) : (nt <> 0)%nat -> Forall2 (fun m x => member_ok product nt L m (fst x) (snd x)) ms days -> (forall d es, In (d, es) days -> 1 <= d <= Z.of_nat N) ->
  forall s last, List.length s = (nt * N)%nat ->
  exists s', read_slots product nt (n_coefs L) ms s last = (s', match rev (flat_map snd days) with e :: _ => snd e | [] => last end, Done) /\ List.length s' = (nt * N)%nat /\
    forall i, (i < nt * N)%nat -> nth i s' empty_slot = slot_at nt days i (nth i s empty_slot).
Proof.
  intros NT F. induction F as [|m [d es] ms days (D & LI & LE & FC) F IH]; intros IN s last LS; [exists s; cbn [read_slots flat_map rev]; auto|].
  cbn [fst snd] in *. cbn [read_slots]. rewrite D. assert (NE : es <> []) by (intros ->; cbn in LE; congruence).
  pose proof (IN d es (or_introl eq_refl)) as HD. assert (HB : (Z.to_nat (d - 1) * nt + nt <= nt * N)%nat) by nia.
  destruct (find_header product (t_lines m)) as [hd|] eqn:FH; [|exfalso; exact (listing_head product es _ LI NE FH)].
  assert (EI : py_index (List.length s) ((d - 1) * Z.of_nat nt) = Ok (Z.to_nat (d - 1) * nt)%nat).
  { unfold py_index. rewrite LS. replace ((d - 1) * Z.of_nat nt) with (Z.of_nat (Z.to_nat (d - 1) * nt)) by nia. set (p := (Z.to_nat (d - 1) * nt)%nat) in *. replace (Z.of_nat p <? 0) with false by lia.
    replace ((0 <=? Z.of_nat p) && (Z.of_nat p <? Z.of_nat (nt * N)))%bool with true by lia. now rewrite Nat2Z.id. }
  assert (RM : read_member product (n_coefs L) nt (t_lines m) = Ok (Some es)). { rewrite <- LE. apply (read_listing product (n_coefs L) es (t_lines m) LI). eapply Forall_impl; [|exact FC]; cbv beta; tauto. }
  rewrite EI, RM.
  destruct (put_sets_ok nt d es s) as (s1 & E1 & L1 & V1); [lia|lia|]. rewrite E1. destruct (IH (fun d' es' I => IN d' es' (or_intror I)) s1 (match rev es with e :: _ => snd e | [] => last end) ltac:(lia)) as (s' & E & L' & V).
  exists s'. rewrite E. split; [|split; [exact L'|]].
  - do 2 f_equal. symmetry. apply last_of_cons. exact NE.
  - intros i Hi. etransitivity; [apply (V i Hi)|]. unfold slot_at. cbn [fold_left]. f_equal. apply V1. lia.
Qed.
Lemma slot_outside nt (days : list (Z * sets)) i old : (forall d es, In (d, es) days -> List.length es = nt /\ ~ (0 <= Z.of_nat i - (d - 1) * Z.of_nat nt < Z.of_nat nt)) -> slot_at nt days i old = old.
Proof.
  unfold slot_at. revert old. induction days as [|[d es] days IH]; intros old H; [reflexivity|]. cbn [fold_left]. destruct (H d es (or_introl eq_refl)) as [L N]. unfold put_fn at 2. cbn [fst snd]. cbv zeta. rewrite L.
  replace ((0 <=? _) && _)%bool with false by lia. apply IH. intros d' es' I. apply H. now right.
Qed.
Lemma slot_inside nt d1 d (es : sets) d2 c h cs old : (forall d' es', In (d', es') (d1 ++ (d, es) :: d2) -> List.length es' = nt /\ 1 <= d') -> ~ In d (map fst d2) -> nth_error es c = Some (h, cs) ->
  slot_at nt (d1 ++ (d, es) :: d2) (Z.to_nat (d - 1) * nt + c) old = (d, h, cs).
Proof.
  intros H N E. unfold slot_at. rewrite fold_left_app. cbn [fold_left]. fold (slot_at nt d2 (Z.to_nat (d - 1) * nt + c)).
  destruct (H d es) as [LE D1]; [apply in_or_app; right; now left|]. assert (HC : (c < nt)%nat) by (rewrite <- LE; apply nth_error_Some; congruence).
  assert (EP : Z.of_nat (Z.to_nat (d - 1) * nt + c) - (d - 1) * Z.of_nat nt = Z.of_nat c) by nia.
  match goal with |- fold_left _ d2 ?o = _ => change (slot_at nt d2 (Z.to_nat (d - 1) * nt + c) o = (d, h, cs)) end.
  rewrite slot_outside.
  - unfold put_fn. cbn [fst snd]. cbv zeta. rewrite EP, LE. replace ((0 <=? Z.of_nat c) && (Z.of_nat c <? Z.of_nat nt))%bool with true by lia. rewrite Nat2Z.id. rewrite (nth_error_nth _ _ (0, []) E). reflexivity.
  - intros d' es' I. destruct (H d' es') as [L' D']; [apply in_or_app; right; now right|]. split; [exact L'|]. assert (d' <> d) by (intros ->; apply N; apply (in_map fst) in I; exact I). nia.
Qed.

Lemma Forall2_in_r' {A B} (P : A -> B -> Prop) l l' y : Forall2 P l l' -> In y l' -> exists x, In x l /\ P x y.
Proof. intros F. induction F as [|a b l l' H F IH]; [intros []|]. intros [<-|I]; [exists a; split; [now left|exact H]|]. destruct (IH I) as (x & X & Y). exists x. split; [now right|exact Y]. Qed.

Lemma NoDup_app_l {A} (l l' : list A) : NoDup (l ++ l') -> NoDup l.
Proof. induction l as [|x l IH]; intros H; [constructor|]. cbn [app] in H. inversion H; subst. constructor; [|auto]. intros I. apply H2. apply in_or_app. now left. Qed.
(** the maps *)
Section Maps.
Context (when : slot -> R) (grace : R -> Z) (L : nat) (lon lat df : list R) (P DP : arr R) (slots : list slot) (last : list (nat * nat * R * R)).
Context (HL : (2 <= L)%nat) (ND : NoDup (map key last)) (TRI : forall l k : nat, In (l, k) (map key last) <-> (k <= l <= L)%nat).
Context (SL : forall t, (t < List.length slots)%nat -> snd (nth t slots empty_slot) = [] \/ List.length (snd (nth t slots empty_slot)) = n_coefs L).
Context (N1 : List.length lon <> 1%nat) (N2 : List.length lat <> 1%nat) (EP : plm_holmes L (map (fun x => cos (colat x)) lat) None = Ok (P, DP)) (LD : List.length df = (L + 1)%nat).
Lemma last_length : List.length last = n_coefs L.
Proof. rewrite <- (map_length key). apply triangle_length; auto. Qed.
Lemma expand_ok : exists y, expand true (month_series when grace L (n_coefs L) slots last) = Ok y /\
  holds L L (List.length slots) (map when slots) (map (fun s => grace (when s)) slots)
    (fun t (cs : bool) l m => (if cs then snd else fst) (listed (rekeyed last (snd (nth t slots empty_slot))) l m)) y.
Proof.
  pose proof last_length as LL. set (ord := map key last) in *.
  assert (EL : f_l (month_series when grace L (n_coefs L) slots last) = map fst ord).
  { unfold month_series. cbn [f_l]. rewrite <- LL, <- (map_map (fun k => nth k last nocoef) deg_of), nth_seq. unfold ord. rewrite map_map. reflexivity. }
  assert (EM : f_m (month_series when grace L (n_coefs L) slots last) = map snd ord).
  { unfold month_series. cbn [f_m]. rewrite <- LL, <- (map_map (fun k => nth k last nocoef) ord_of), nth_seq. unfold ord. rewrite map_map. reflexivity. }
  assert (COL : forall (proj : nat * nat * R * R -> R) (prj2 : R * R -> R), (forall cs l m, In (l, m) (map key cs) -> prj2 (listed cs l m) = proj (nth (place (l, m) (map key cs)) cs nocoef)) -> prj2 (0%R, 0%R) = 0%R -> proj nocoef = 0%R ->
    (forall cs k, List.length cs = List.length last -> (k < List.length cs)%nat -> proj (nth k (rekeyed last cs) nocoef) = proj (nth k cs nocoef)) ->
    exists b, scatter (map fst ord) (map snd ord) (map (fun k => fun t => proj (nth k (snd (nth t slots empty_slot)) nocoef)) (seq 0 (n_coefs L))) (full (L + 1) (L + 1) (Some (List.length slots)) 0%R) = Ok b /\
      same_shape b (full (L + 1) (L + 1) (Some (List.length slots)) 0%R) /\
      forall l m t, (t < List.length slots)%nat -> get b l m t = prj2 (listed (rekeyed last (snd (nth t slots empty_slot))) l m)).
  { intros proj prj2 P1 P2 P3 P4. assert (LO : List.length ord = n_coefs L) by (unfold ord; now rewrite map_length). rewrite <- LO, <- (place_map ord ND), map_map.
    destruct (scatter_ok ord (fun p t => proj (nth (place p ord) (snd (nth t slots empty_slot)) nocoef)) (full (L + 1) (L + 1) (Some (List.length slots)) 0%R)) as (b & E & SS & V); auto.
    { intros l m I. apply TRI in I. cbn [full rows cols]. lia. }
    exists b. split; [exact E|]. split; [exact SS|]. intros l m t Ht. destruct (V l m t) as [V1 V2]. destruct (SL t Ht) as [Z0|LS].
    - rewrite Z0 in *. assert (RK : rekeyed last [] = []) by (unfold rekeyed; destruct last; reflexivity). rewrite RK. unfold listed at 1. cbn [find]. rewrite P2.
      assert (DEC : {In (l, m) ord} + {~ In (l, m) ord}) by (apply in_dec; decide equality; apply Nat.eq_dec). destruct DEC as [I|N]; [|rewrite V2 by exact N; reflexivity].
      rewrite V1 by exact I. destruct (place (l, m) ord); exact P3.
    - pose proof (rekeyed_keys last (snd (nth t slots empty_slot)) ltac:(congruence)) as RK.
      assert (DEC : {In (l, m) ord} + {~ In (l, m) ord}) by (apply in_dec; decide equality; apply Nat.eq_dec). destruct DEC as [I|N].
      + rewrite V1 by exact I. rewrite P1 by (rewrite RK; exact I). rewrite RK. fold ord. symmetry. apply P4; [congruence|]. rewrite LS, <- LO. clear - I. clearbody ord. induction ord as [|x o IH]; [destruct I|]. cbn [place List.length fst snd].
        destruct (Nat.eqb (fst x) l && Nat.eqb (snd x) m)%bool eqn:B; [lia|]. destruct I as [->|I]; [cbn in B; rewrite !Nat.eqb_refl in B; discriminate|]. specialize (IH I). lia.
      + rewrite V2 by exact N. rewrite listed_none by (rewrite RK; exact N). rewrite P2. reflexivity. }
  destruct (COL (fun c => snd (fst c)) fst) as (c & Ec & Sc & Vc); [intros cs l m I; rewrite listed_place by auto; reflexivity|reflexivity|reflexivity|intros; now apply rekeyed_nth|].
  destruct (COL snd snd) as (s & Es & Ss & Vs); [intros cs l m I; rewrite listed_place by auto; reflexivity|reflexivity|reflexivity|intros; now apply rekeyed_nth|].
  unfold expand. rewrite EL, EM. cbn [month_series f_lmax f_mmax f_depth f_clm f_slm f_time f_month]. unfold month_series. cbn [f_lmax f_mmax f_depth f_clm f_slm f_time f_month]. rewrite Ec. cbn [bind]. rewrite Es. cbn [bind].
  eexists. split; [reflexivity|]. destruct Sc as (S1 & S2 & S3), Ss as (S4 & S5 & S6). cbn [full rows cols depth] in *. constructor; cbn [lmax mmax clm slm time month]; auto; try (rewrite map_length; reflexivity).
  - unfold same_shape. repeat split; congruence.
  - intros t [|] l m Ht _ _; cbn [chan]; [now apply Vs|now apply Vc].
Qed.
Lemma maps_list : exists maps, uplift_maps when grace L (n_coefs L) lon lat df P slots last = Ok (mkufile lon lat (map (fun s => snd (fst s) + 24 * (fst (fst s) - 1)) slots) maps) /\ List.length maps = List.length slots /\
  forall t, (t < List.length slots)%nat -> exists g, nth_error maps t = Some g /\ map_shows lon lat g (fun x y =>
    PropSummation.series (fun l m => nth l df 0 * fst (listed (rekeyed last (snd (nth t slots empty_slot))) l m))%R (fun l m => nth l df 0 * snd (listed (rekeyed last (snd (nth t slots empty_slot))) l m))%R 0 L L (colat y) (deg x)).
Proof.
  destruct expand_ok as (y & E & K). unfold uplift_maps. rewrite E. cbn [bind].
  pose proof (holds_wf _ _ _ _ _ _ _ K) as W. destruct (convolve_spec y df W) as (z & Ez & Z1 & Z2 & Z3 & Z4 & Z5); [rewrite (o_l _ _ _ _ _ _ _ K); lia|]. rewrite Ez. cbn [bind].
  set (Y := fun t (cs : bool) l m => (nth l df 0 * (if cs then snd else fst) (listed (rekeyed last (snd (nth t slots empty_slot))) l m))%R).
  assert (KZ : holds L L (List.length slots) (map when slots) (map (fun s => grace (when s)) slots) Y z).
  { destruct K as [Q1 Q2 Q3 Q4 Q5 Q6 Q7 Q8 Q9 Q10 Q11]. destruct (Z5 clm (or_introl eq_refl)) as [(B1 & B2 & B3) BV]. destruct (Z5 slm (or_intror eq_refl)) as [(C1 & C2 & C3) CV]. pose proof Q5 as (U1 & U2 & U3).
    constructor; try congruence; [unfold same_shape; repeat split; congruence|].
    intros t cs l m Ht Hl Hm. unfold Y. rewrite <- (Q11 t cs l m Ht Hl Hm). destruct cs; cbn [chan]; [apply CV|apply BV]; unfold inb, nslice; [rewrite <- U1, <- U2, <- U3|]; rewrite Q3, Q4, Q6; lia. }
  assert (G : forall t, (t < List.length slots)%nat -> exists g, (do x <- index z (Z.of_nat t); do out <- harmonic_summation (clm x) (slm x) lon lat 0 L None (Some P); Ok (as_grid (List.length lat) (List.length lon) out)) = Ok g /\
    map_shows lon lat g (fun x y => PropSummation.series (Y t false) (Y t true) 0 L L (colat y) (deg x))).
  { intros t Ht. destruct (index_ok _ _ _ _ _ _ _ t KZ Ht) as (x & Ex & Kx). rewrite Ex. cbn [bind].
    destruct (map_ok L L _ _ _ x 0 lon lat P DP Kx HL ltac:(lia) N1 N2 EP) as (out & Eo & Vo).
    assert (EN : harmonic_summation (clm x) (slm x) lon lat 0 L None (Some P) = harmonic_summation (clm x) (slm x) lon lat 0 L (Some L) (Some P)).
    { unfold harmonic_summation. cbv zeta. assert (EF : eff_lmax L (clm x) = L) by (unfold eff_lmax; destruct (Nat.eqb_spec L 0); [exfalso; lia|reflexivity]). rewrite EF. unfold upto_order. reflexivity. }
    rewrite EN, Eo. cbn [bind]. eexists. split; [reflexivity|]. split; [reflexivity|]. split; [reflexivity|]. split; [reflexivity|]. exact Vo. }
  destruct (mapM_all (fun i => do x <- index z (Z.of_nat i); do out <- harmonic_summation (clm x) (slm x) lon lat 0 L None (Some P); Ok (as_grid (List.length lat) (List.length lon) out)) (seq 0 (List.length slots))) as (maps & E6).
  { intros i Hi. apply in_seq in Hi. destruct (G i ltac:(lia)) as (g & Eg' & _). eexists. exact Eg'. }
  rewrite E6. cbn [bind]. exists maps. split; [reflexivity|]. destruct (mapM_nth _ _ _ E6) as [Lm Vm]. rewrite seq_length in *. split; [exact Lm|].
  intros t Ht. destruct (G t Ht) as (g & Eg' & Q). exists g. split; [|exact Q].
  specialize (Vm t 0%nat g Ht). rewrite seq_nth in Vm by exact Ht. cbn [Nat.add] in Vm. rewrite Eg' in Vm. injection Vm as Vm.
  rewrite (nth_error_nth' maps (n := t) g) by lia. f_equal. symmetry. exact Vm.
Qed.
End Maps.

Lemma uplift_zero L (f : nat -> R) th phi : PropSummation.series (fun l m => f l * fst (listed [] l m))%R (fun l m => f l * snd (listed [] l m))%R 0 L L th phi = 0%R.
Proof.
  transitivity (PropSummation.series (fun _ _ => 0%R) (fun _ _ => 0%R) 0 L L th phi); [|apply series_zero]. apply series_tri. intros l m _ _. unfold listed. cbn [find fst snd]. split; ring.
Qed.
Lemma month_days_ok ym : 1 <= snd ym <= 12 -> (fst ym) mod 4000 <> 0 -> month_days ym = Ok (days_in_month ym).
Proof.
  destruct ym as [y m]. cbn [fst snd]. intros H N. unfold month_days, days_in_month. cbn [fst snd]. rewrite PropTime.C01_calendar_days. replace (y mod 4000 =? 0) with false by lia. cbn [negb]. rewrite andb_true_r.
  unfold py_get. cbn [map List.length]. replace (m - 1 <? 0) with false by lia. replace ((0 <=? m - 1) && (m - 1 <? Z.of_nat 12))%bool with true by lia.
  assert (C : m = 1 \/ m = 2 \/ m = 3 \/ m = 4 \/ m = 5 \/ m = 6 \/ m = 7 \/ m = 8 \/ m = 9 \/ m = 10 \/ m = 11 \/ m = 12) by lia. repeat (destruct C as [->|C]; [reflexivity|]). rewrite C. reflexivity.
Qed.
Lemma month_len_pos ym : 28 <= days_in_month ym <= 31.
Proof. unfold days_in_month, month_len. destruct (snd ym =? 2), (greg_leap (fst ym)), ((snd ym =? 4) || (snd ym =? 6) || (snd ym =? 9) || (snd ym =? 11))%bool; lia. Qed.
Lemma month_file_ok when grace love DSET nt L lon lat df P DP a (days : list (Z * sets)) : (nt <> 0)%nat -> (2 <= L)%nat -> List.length lon <> 1%nat -> List.length lat <> 1%nat ->
  plm_holmes L (map (fun x => cos (colat x)) lat) None = Ok (P, DP) -> List.length df = (L + 1)%nat ->
  (forall l, (l <= L)%nat -> nth l df 0%R = (10 * rad_e PropFactors.earth * nth l (fst (fst love)) 0 / (1 + nth l (snd (fst love)) 0))%R) ->
  month_ok DSET nt L a days ->
  exists slots last u, read_slots DSET nt (n_coefs L) (ta_members a) (repeat empty_slot (nt * Z.to_nat (days_in_month (ta_month a)))) [] = (slots, last, Done) /\
    uplift_maps when grace L (n_coefs L) lon lat df P slots last = Ok u /\ month_file love nt L lon lat (days_in_month (ta_month a)) days u.
Proof.
  intros NT HL N1 N2 EP LD FD (HM & H4 & NE & F & IN & ND & TRI). set (n := days_in_month (ta_month a)) in *. pose proof (month_len_pos (ta_month a)) as MP. fold n in MP.
  destruct (read_slots_ok DSET nt L (Z.to_nat n) (ta_members a) days NT F) with (s := repeat empty_slot (nt * Z.to_nat n)) (last := @nil (nat * nat * R * R)) as (slots & E & LS & V).
  { intros d es I. rewrite Z2Nat.id by lia. now apply (IN d es). }
  { apply repeat_length. }
  assert (V' : forall i, (i < nt * Z.to_nat n)%nat -> nth i slots empty_slot = slot_at nt days i empty_slot). { intros i Hi. etransitivity; [apply (V i Hi)|]. f_equal. apply nth_repeat. }
  assert (OKD : forall d es, In (d, es) days -> List.length es = nt /\ 1 <= d <= n /\ Forall (fun e => List.length (snd e) = n_coefs L) es).
  { intros d es I. destruct (Forall2_in_r' _ _ _ _ F I) as (m & _ & (_ & _ & A & B)). cbn [fst snd] in *. split; [exact A|]. split; [now apply (IN d es)|]. eapply Forall_impl; [|exact B]. cbv beta. tauto. }
  assert (SL : forall t, (t < List.length slots)%nat -> snd (nth t slots empty_slot) = [] \/ List.length (snd (nth t slots empty_slot)) = n_coefs L).
  { intros t Ht. rewrite V' by lia. clear - OKD. assert (G : forall l old, (forall d es, In (d, es) l -> In (d, es) days) -> (snd old = [] \/ List.length (snd old) = n_coefs L) -> snd (slot_at nt l t old) = [] \/ List.length (snd (slot_at nt l t old)) = n_coefs L).
    { induction l as [|[d es] l IH]; intros old H O; [exact O|]. unfold slot_at. cbn [fold_left]. apply IH; [intros; apply H; now right|]. unfold put_fn. cbn [fst snd]. cbv zeta.
      destruct ((0 <=? Z.of_nat t - (d - 1) * Z.of_nat nt) && _)%bool eqn:B; [|exact O]. cbn [snd]. right. destruct (OKD d es (H d es (or_introl eq_refl))) as (_ & _ & FA). rewrite Forall_forall in FA. apply FA. apply nth_In. lia. }
    apply G; auto. }
  set (last := match rev (flat_map snd days) with e :: _ => snd e | [] => [] end) in E. change last with (last_of days) in E.
  destruct (maps_list when grace L lon lat df P DP slots (last_of days) HL ND TRI SL N1 N2 EP LD) as (maps & EU & LM & VM).
  exists slots, (last_of days). eexists. split; [exact E|]. split; [exact EU|]. clear E EU.
  assert (UP : forall cs x y, PropSummation.series (fun l m => nth l df 0 * fst (listed (rekeyed (last_of days) cs) l m))%R (fun l m => nth l df 0 * snd (listed (rekeyed (last_of days) cs) l m))%R 0 L L (colat y) (deg x) = uplift love L (rekeyed (last_of days) cs) x y).
  { intros cs x y. unfold uplift. cbv zeta. apply series_tri. intros l m Hl _. rewrite !FD by lia. split; reflexivity. }
  unfold month_file. cbn [u_lon u_lat u_time u_maps]. split; [reflexivity|]. split; [reflexivity|]. split; [rewrite map_length; exact LS|]. split; [lia|]. split.
  - intros d1 d es d2 c h cs ED N EC. cbv zeta. destruct (OKD d es) as (LE & D1 & _); [rewrite ED; apply in_or_app; right; now left|]. assert (HC : (c < nt)%nat) by (rewrite <- LE; apply nth_error_Some; congruence).
    set (i := (Z.to_nat (d - 1) * nt + c)%nat). assert (HI : (i < nt * Z.to_nat n)%nat) by (subst i; nia).
    assert (SI : nth i slots empty_slot = (d, h, cs)). { rewrite V' by exact HI. rewrite ED. apply (slot_inside nt d1 d es d2 c h cs); auto. intros d' es' I. rewrite <- ED in I. destruct (OKD d' es' I) as (A & B & _). split; [exact A|lia]. }
    split.
    + rewrite (map_nth_error (fun s => snd (fst s) + 24 * (fst (fst s) - 1)) i slots (d := (d, h, cs))); [cbn [fst snd]; f_equal; lia|]. rewrite <- SI. apply nth_error_nth'. lia.
    + destruct (VM i ltac:(lia)) as (g & Eg & G1 & G2 & G3 & G4). exists g. split; [exact Eg|]. split; [exact G1|]. split; [exact G2|]. split; [exact G3|]. intros a0 k x y Hx Hy Hr. rewrite (G4 a0 k x y Hx Hy Hr), SI. cbn [snd]. apply UP.
  - intros d c Hd N HC. cbv zeta. set (i := (Z.to_nat (d - 1) * nt + c)%nat). assert (HI : (i < nt * Z.to_nat n)%nat) by (subst i; nia).
    assert (SI : nth i slots empty_slot = empty_slot). { rewrite V' by exact HI. apply slot_outside. intros d' es' I. destruct (OKD d' es' I) as (A & B & _). split; [exact A|]. assert (d' <> d) by (intros ->; apply N; apply (in_map fst) in I; exact I). subst i. nia. }
    split.
    + rewrite (map_nth_error (fun s => snd (fst s) + 24 * (fst (fst s) - 1)) i slots (d := empty_slot)); [reflexivity|]. etransitivity; [apply (nth_error_nth' slots (n := i) empty_slot); lia|]. f_equal. exact SI.
    + destruct (VM i ltac:(lia)) as (g & Eg & G1 & G2 & G3 & G4). exists g. split; [exact Eg|]. split; [exact G1|]. split; [exact G2|]. split; [exact G3|]. intros a0 k x y Hx Hy Hr. rewrite (G4 a0 k x y Hx Hy Hr), SI. cbn [snd empty_slot].
      replace (rekeyed (last_of days) []) with (@nil (nat * nat * R * R)) by (unfold rekeyed; destruct (last_of days); reflexivity). apply (uplift_zero L (fun l => nth l df 0%R)).
Qed.

Lemma uwrite_same f k x : uwrite f k x k = Some x.
Proof. unfold uwrite. now rewrite eq2_refl. Qed.
Lemma uwrite_other f k x n : n <> k -> uwrite f k x n = f n.
Proof. intros N. unfold uwrite. destruct (eq2 n k) eqn:E; auto. apply eq2_true in E. contradiction. Qed.
Definition outdated_b (old : option (ufile * R)) (a : tarchive) : bool := match old with Some (_, t) => if Rlt_dec t (ta_mtime a) then true else false | None => true end.
Lemma outdated_ok old a : outdated_b old a = true <-> outdated old a.
Proof. unfold outdated_b, outdated. destruct old as [[u t]|]; [|tauto]. destruct (Rlt_dec t (ta_mtime a)); intuition discriminate. Qed.
Lemma archives_maps when grace clock love DSET nt L lon lat df P DP : (nt <> 0)%nat -> (2 <= L)%nat -> List.length lon <> 1%nat -> List.length lat <> 1%nat ->
  plm_holmes L (map (fun x => cos (colat x)) lat) None = Ok (P, DP) -> List.length df = (L + 1)%nat ->
  (forall l, (l <= L)%nat -> nth l df 0%R = (10 * rad_e PropFactors.earth * nth l (fst (fst love)) 0 / (1 + nth l (snd (fst love)) 0))%R) ->
  forall (archives : list tarchive) (f : ufiles) (days : tarchive -> list (Z * sets)) (rest : list tarchive), NoDup (map ta_month archives) ->
  (forall a, In a archives -> outdated (f (ta_month a)) a -> month_ok DSET nt L a (days a)) ->
  exists f', uplift_archives when grace clock DSET nt L lon lat df P f (archives ++ rest) = uplift_archives when grace clock DSET nt L lon lat df P f' rest /\
    (forall a, In a archives -> outdated (f (ta_month a)) a -> exists u, f' (ta_month a) = Some (u, clock a) /\ month_file love nt L lon lat (days_in_month (ta_month a)) (days a) u) /\
    (forall n, (forall a, In a archives -> outdated (f (ta_month a)) a -> n <> ta_month a) -> f' n = f n).
Proof.
  intros NT HL N1 N2 EP LD FD. induction archives as [|a archives IH]; intros f days rest ND H; [exists f; split; [reflexivity|]; split; [intros a []|auto]|].
  cbn [map] in ND. inversion ND as [|? ? NI ND']; subst. assert (NE : forall a', In a' archives -> ta_month a' <> ta_month a) by (intros a' I X; apply NI; rewrite <- X; now apply in_map).
  cbn [app uplift_archives]. change (match f (ta_month a) with Some (_, t) => if Rlt_dec t (ta_mtime a) then true else false | None => true end) with (outdated_b (f (ta_month a)) a).
  pose proof (outdated_ok (f (ta_month a)) a) as SB. destruct (outdated_b (f (ta_month a)) a).
  - assert (ST : outdated (f (ta_month a)) a) by now apply SB. pose proof (H a (or_introl eq_refl) ST) as MO.
    destruct (month_file_ok when grace love DSET nt L lon lat df P DP a (days a) NT HL N1 N2 EP LD FD MO) as (slots & last & u & E1 & E2 & MF). rewrite month_days_ok by apply MO. cbv zeta. rewrite E1, E2.
    destruct (IH (uwrite f (ta_month a) (u, clock a)) days rest ND') as (f' & E & WR & KP).
    { intros a' I S'. rewrite uwrite_other in S' by auto. apply H; [now right|auto]. }
    exists f'. split; [exact E|]. split.
    + intros a' [<-|I] S'; [|apply WR; auto; rewrite uwrite_other by auto; exact S']. exists u. split; [|exact MF]. rewrite KP by (intros a' I _ X; now apply (NE a' I)). apply uwrite_same.
    + intros n HN. rewrite KP; [apply uwrite_other; apply HN; [now left|auto]|]. intros a' I S'. rewrite uwrite_other in S' by auto. apply HN; [now right|auto].
  - assert (ST : ~ outdated (f (ta_month a)) a) by (rewrite <- SB; discriminate). destruct (IH f days rest ND') as (f' & E & WR & KP); [intros a' I; apply H; now right|]. exists f'. split; [exact E|]. split.
    + intros a' [<-|I] S'; [contradiction|auto].
    + intros n HN. apply KP. intros a' I S'. apply HN; [now right|auto].
Qed.
Lemma setup DREL nt L love DDEG INTERVAL BOUNDS lon lat : release DREL = Ok (nt, L) -> love_ok love L -> grid_of 0 DDEG INTERVAL BOUNDS lon lat ->
  exists df P DP, (nt <> 0)%nat /\ (2 <= L)%nat /\ plm_holmes L (map (fun x => cos (colat x)) lat) None = Ok (P, DP) /\ List.length df = (L + 1)%nat /\
   (forall l, (l <= L)%nat -> nth l df 0%R = (10 * rad_e PropFactors.earth * nth l (fst (fst love)) 0 / (1 + nth l (snd (fst love)) 0))%R) /\
   forall when grace clock DSET archives f, dealiasing_global_uplift when grace clock DREL DSET love DDEG INTERVAL BOUNDS archives f = uplift_archives when grace clock DSET nt L lon lat df P f archives.
Proof.
  intros ER HLv (dlon & dlat & Hs & Ha). assert (RO : (nt <> 0)%nat /\ (2 <= L)%nat) by (pose proof (release_ok _ _ _ ER); lia). destruct RO as [NT HL].
  destruct (factors_all 3 _ love L uc3 HLv) as (df & Ed & Ld & Vd). destruct (holmes_rows L (map (fun x => cos (colat x)) lat) HL) as (P & DP & EP & _).
  exists df, P, DP. do 4 (split; [assumption|]). split.
  - intros l Hl. specialize (Vd l Hl). destruct love as [[h k] ll]. destruct Vd as (name & U & W). cbn [fst snd]. inversion U; subst. inversion W; subst. reflexivity.
  - intros when grace clock DSET archives f. unfold dealiasing_global_uplift. rewrite ER. rewrite (steps_ok _ _ _ Hs). cbn [bind fst snd]. rewrite (axes_ok _ _ _ _ _ _ _ Ha). cbn [bind fst snd]. rewrite Ed. cbn [bind]. rewrite EP. reflexivity.
Qed.

(** ** C108 *)
(** The file of every archive that is missing or older is written, with one map for each epoch; other files are left alone *)
Theorem C108_maps : forall when grace clock DREL DSET nt L love DDEG INTERVAL BOUNDS lon lat (archives : list tarchive) (f : ufiles) (days : tarchive -> list (Z * sets)),
  release DREL = Ok (nt, L) -> love_ok love L -> grid_of 0 DDEG INTERVAL BOUNDS lon lat -> List.length lon <> 1%nat -> List.length lat <> 1%nat -> NoDup (map ta_month archives) ->
  (forall a, In a archives -> outdated (f (ta_month a)) a -> month_ok DSET nt L a (days a)) ->
  exists f', dealiasing_global_uplift when grace clock DREL DSET love DDEG INTERVAL BOUNDS archives f = (f', Done) /\
    (forall a, In a archives -> outdated (f (ta_month a)) a -> exists u, f' (ta_month a) = Some (u, clock a) /\ month_file love nt L lon lat (days_in_month (ta_month a)) (days a) u) /\
    (forall n, (forall a, In a archives -> outdated (f (ta_month a)) a -> n <> ta_month a) -> f' n = f n).
Proof.
  intros when grace clock DREL DSET nt L love DDEG INTERVAL BOUNDS lon lat archives f days ER HLv HG N1 N2 ND H. destruct (setup DREL nt L love DDEG INTERVAL BOUNDS lon lat ER HLv HG) as (df & P & DP & NT & HL & EP & LD & FD & EQ).
  destruct (archives_maps when grace clock love DSET nt L lon lat df P DP NT HL N1 N2 EP LD FD archives f days [] ND H) as (f' & E & A & B). exists f'. rewrite EQ. rewrite app_nil_r in E. rewrite E. split; [reflexivity|]. auto.
Qed.
(** A complete month: a member for every day, one order of the coefficients, epochs every 24/nt hours.  The maps are those of the data sets, at equally spaced hours *)
Theorem C108_complete : forall love nt L lon lat n (days : list (Z * sets)) u ord, (nt <> 0)%nat -> month_file love nt L lon lat n days u ->
  (forall d es, In (d, es) days -> List.length es = nt /\ Forall (fun e => map key (snd e) = ord) es /\ map fst es = map (fun c => 24 / Z.of_nat nt * Z.of_nat c) (seq 0 nt)) ->
  NoDup (map fst days) -> (forall d, 1 <= d <= n <-> In d (map fst days)) -> (24 mod Z.of_nat nt = 0) ->
  u_time u = map (fun i => 24 / Z.of_nat nt * Z.of_nat i) (seq 0 (nt * Z.to_nat n)) /\
  forall d es c h cs, In (d, es) days -> nth_error es c = Some (h, cs) -> exists g, nth_error (u_maps u) (Z.to_nat (d - 1) * nt + c) = Some g /\ map_shows lon lat g (uplift love L cs).
Proof.
  intros love nt L lon lat n days u ord NT (_ & _ & LT & LM & W & _) H ND ALL DIV.
  assert (LK : days <> [] -> map key (last_of days) = ord).
  { intros NE. unfold last_of. destruct (rev (flat_map snd days)) as [|e r] eqn:R.
    - exfalso. destruct days as [|[d es] days]; [contradiction|]. destruct (H d es (or_introl eq_refl)) as (LE & _). apply (f_equal (@List.length _)) in R. rewrite rev_length in R. cbn [flat_map snd] in R. rewrite app_length, LE in R. cbn in R. lia.
    - assert (I : In e (flat_map snd days)) by (apply (proj2 (in_rev (flat_map snd days) e)); rewrite R; now left). apply in_flat_map in I. destruct I as ([d es] & I1 & I2). destruct (H d es I1) as (_ & F & _). rewrite Forall_forall in F. now apply F. }
  assert (WR : forall d es c h cs, In (d, es) days -> nth_error es c = Some (h, cs) -> nth_error (u_time u) (Z.to_nat (d - 1) * nt + c) = Some (24 * (d - 1) + h) /\ exists g, nth_error (u_maps u) (Z.to_nat (d - 1) * nt + c) = Some g /\ map_shows lon lat g (uplift love L cs)).
  { intros d es c h cs I E. destruct (in_split _ _ I) as (d1 & d2 & ED). assert (N : ~ In d (map fst d2)). { rewrite ED, map_app in ND. cbn [map fst] in ND. apply NoDup_remove_2 in ND. intros X. apply ND. apply in_or_app. now right. }
    destruct (W d1 d es d2 c h cs ED N E) as (T & g & G1 & G2). split; [exact T|]. exists g. split; [exact G1|]. rewrite rekeyed_same in G2; [exact G2|]. rewrite LK by (intros X; rewrite X in I; destruct I). destruct (H d es I) as (_ & F & _). rewrite Forall_forall in F. apply (F (h, cs)). eapply nth_error_In; eauto. }
  split; [|intros d es c h cs I E; now apply (WR d es c h cs)].
  apply nth_ext with (d := 0) (d' := 0); [rewrite map_length, seq_length; exact LT|]. intros i Hi. rewrite LT in Hi.
  rewrite (nth_indep (map (fun i => 24 / Z.of_nat nt * Z.of_nat i) (seq 0 (nt * Z.to_nat n))) 0 ((fun i => 24 / Z.of_nat nt * Z.of_nat i) 0%nat)) by (rewrite map_length, seq_length; lia). rewrite (map_nth (fun i => 24 / Z.of_nat nt * Z.of_nat i)), seq_nth by lia. cbn [Nat.add].
  set (d := Z.of_nat (i / nt) + 1). set (c := (i mod nt)%nat). pose proof (Nat.div_mod i nt NT) as DM. pose proof (Nat.mod_upper_bound i nt NT) as MB. assert (DB : (i / nt < Z.to_nat n)%nat) by (apply Nat.div_lt_upper_bound; auto).
  assert (I : In d (map fst days)) by (apply ALL; unfold d; lia). apply in_map_iff in I. destruct I as ([d' es] & ED & I). cbn [fst] in ED. subst d'. destruct (H d es I) as (LE & _ & HH).
  destruct (nth_error es c) as [[h cs]|] eqn:EC; [|exfalso; apply nth_error_None in EC; unfold c in EC; lia].
  destruct (WR d es c h cs I EC) as (T & _). assert (EI : (Z.to_nat (d - 1) * nt + c)%nat = i). { unfold d, c. replace (Z.to_nat (Z.of_nat (i / nt) + 1 - 1)) with (i / nt)%nat by lia. lia. }
  rewrite EI in T. rewrite (nth_error_nth _ _ 0 T).
  assert (EH : h = 24 / Z.of_nat nt * Z.of_nat c).
  { assert (X : nth_error (map fst es) c = Some h) by (rewrite (map_nth_error fst c es EC); reflexivity). rewrite HH in X. rewrite (map_nth_error (fun c => 24 / Z.of_nat nt * Z.of_nat c) c (seq 0 nt) (d := c)) in X; [congruence|]. rewrite (nth_error_nth' _ 0%nat) by (rewrite seq_length; lia). rewrite seq_nth by lia. reflexivity. }
  rewrite EH. unfold d. set (q := 24 / Z.of_nat nt). assert (E24 : 24 = Z.of_nat nt * q). { unfold q. pose proof (Z.div_mod 24 (Z.of_nat nt) ltac:(lia)). lia. }
  replace (Z.of_nat i) with (Z.of_nat nt * Z.of_nat (i / nt) + Z.of_nat c) by (unfold c; lia). clearbody q c. clear - E24. transitivity (Z.of_nat nt * q * Z.of_nat (i / nt) + q * Z.of_nat c); [rewrite <- E24; ring|ring].
Qed.

(** A missing day is not missing in the file: its maps are zero, at the midnight before the month *)
Theorem C108_missing_refuted : forall love nt L lon lat n (days : list (Z * sets)) u d, (nt <> 0)%nat -> month_file love nt L lon lat n days u -> 1 <= d <= n -> ~ In d (map fst days) ->
  forall c, (c < nt)%nat -> nth_error (u_time u) (Z.to_nat (d - 1) * nt + c) = Some (-24) /\ exists g, nth_error (u_maps u) (Z.to_nat (d - 1) * nt + c) = Some g /\ map_shows lon lat g (fun _ _ => 0%R).
Proof. intros love nt L lon lat n days u d NT (_ & _ & _ & _ & _ & M) Hd N c Hc. now apply (M d c). Qed.
(** Data sets with the coefficients in another order than the last one are mapped with wrong degrees and orders: the pair at place k of the lines goes to the degree and order of the last set there *)
Theorem C108_order_refuted : forall last cs k l m c s l' m' c' s', List.length cs = List.length last -> NoDup (map key last) -> NoDup (map key cs) -> nth_error cs k = Some (l, m, c, s) -> nth_error last k = Some (l', m', c', s') ->
  listed cs l m = (c, s) /\ listed (rekeyed last cs) l' m' = (c, s).
Proof.
  assert (LI : forall cs k l m c s, NoDup (map key cs) -> nth_error cs k = Some (l, m, c, s) -> listed cs l m = (c, s)).
  { unfold listed. induction cs as [|x cs IH]; intros k l m c s ND E; [destruct k; discriminate|]. cbn [map] in ND. inversion ND as [|? ? NI ND']; subst. cbn [find]. destruct k as [|k].
    - cbn in E. injection E as ->. cbn [key fst snd]. rewrite !Nat.eqb_refl. reflexivity.
    - cbn in E. assert (I : In (l, m) (map key cs)) by (apply in_map_iff; exists (l, m, c, s); split; [reflexivity|]; eapply nth_error_In; eauto).
      destruct (Nat.eqb_spec (fst (key x)) l) as [E1|], (Nat.eqb_spec (snd (key x)) m) as [E2|]; cbn [andb]; try (apply (IH k l m c s ND' E)). exfalso. apply NI. destruct (key x). cbn in E1, E2. now subst. }
  intros last cs k l m c s l' m' c' s' LE ND NC E E'. split; [now apply (LI cs k)|]. apply (LI (rekeyed last cs) k); [rewrite rekeyed_keys by auto; exact ND|].
  unfold rekeyed. clear - E E' LE. revert last k E E' LE. induction cs as [|x cs IH]; intros [|y last] k E E' LE; try discriminate; [destruct k; discriminate|]. destruct k as [|k]; cbn [nth_error combine map] in *.
  - injection E as ->. injection E' as ->. reflexivity.
  - apply IH; auto.
Qed.
(** A member which cannot be read, or with a day beyond the month, ends the program: the files of the archives before it are complete, and none is written for this archive and the later ones *)
Theorem C108_interrupted : forall when grace clock DREL DSET nt L love DDEG INTERVAL BOUNDS lon lat (archives rest : list tarchive) a ms bad tail (f : ufiles) (days : tarchive -> list (Z * sets)) bdays o,
  release DREL = Ok (nt, L) -> love_ok love L -> grid_of 0 DDEG INTERVAL BOUNDS lon lat -> List.length lon <> 1%nat -> List.length lat <> 1%nat -> NoDup (map ta_month (archives ++ a :: rest)) ->
  (forall a, In a archives -> outdated (f (ta_month a)) a -> month_ok DSET nt L a (days a)) ->
  outdated (f (ta_month a)) a -> 1 <= snd (ta_month a) <= 12 -> (fst (ta_month a)) mod 4000 <> 0 ->
  ta_members a = (ms ++ bad :: tail)%list -> Forall2 (fun m x => member_ok DSET nt L m (fst x) (snd x)) ms bdays -> (forall d es, In (d, es) bdays -> 1 <= d <= days_in_month (ta_month a)) ->
  (t_day bad = None /\ o = Raised IndexError \/
   (exists d h rest, t_day bad = Some d /\ days_in_month (ta_month a) < d /\ find_header DSET (t_lines bad) = Some (h, rest)) /\ o = Raised IndexError \/
   (exists d e, t_day bad = Some d /\ 1 <= d <= days_in_month (ta_month a) /\ read_member DSET (n_coefs L) nt (t_lines bad) = Err e /\ o = Raised e)) ->
  exists f', dealiasing_global_uplift when grace clock DREL DSET love DDEG INTERVAL BOUNDS (archives ++ a :: rest) f = (f', o) /\
    (forall a, In a archives -> outdated (f (ta_month a)) a -> exists u, f' (ta_month a) = Some (u, clock a) /\ month_file love nt L lon lat (days_in_month (ta_month a)) (days a) u) /\
    (forall a', In a' (a :: rest) -> f' (ta_month a') = f (ta_month a')).
Proof.
  intros when grace clock DREL DSET nt L love DDEG INTERVAL BOUNDS lon lat archives rest a ms bad tail f days bdays o ER HLv HG N1 N2 ND H ST HM H4 EM FB IB BAD.
  destruct (setup DREL nt L love DDEG INTERVAL BOUNDS lon lat ER HLv HG) as (df & P & DP & NT & HL & EP & LD & FD & EQ).
  assert (ND1 : NoDup (map ta_month archives)). { rewrite map_app in ND. apply NoDup_app_l in ND. exact ND. }
  destruct (archives_maps when grace clock love DSET nt L lon lat df P DP NT HL N1 N2 EP LD FD archives f days (a :: rest) ND1 H) as (f' & E & A & B).
  assert (SAME : forall a', In a' (a :: rest) -> f' (ta_month a') = f (ta_month a')).
  { intros a' I. apply B. intros b Ib _ X. rewrite map_app in ND. assert (I1 : In (ta_month a') (map ta_month archives)) by (rewrite X; now apply in_map). assert (I2 : In (ta_month a') (map ta_month (a :: rest))) by now apply in_map.
    clear - ND I1 I2. induction (map ta_month archives) as [|x l IH]; [destruct I1|]. cbn [app] in ND. inversion ND as [|? ? N1 N2]; subst. destruct I1 as [->|I1]; [apply N1; apply in_or_app; now right|auto]. }
  exists f'. rewrite EQ, E. split; [|split; [exact A|exact SAME]]. cbn [uplift_archives].
  rewrite (SAME a (or_introl eq_refl)). change (match f (ta_month a) with Some (_, t) => if Rlt_dec t (ta_mtime a) then true else false | None => true end) with (outdated_b (f (ta_month a)) a).
  rewrite (proj2 (outdated_ok _ _) ST). rewrite month_days_ok by auto. cbv zeta. set (n := days_in_month (ta_month a)) in *. pose proof (month_len_pos (ta_month a)) as MP. fold n in MP.
  assert (RS : forall s last, List.length s = (nt * Z.to_nat n)%nat -> exists s' last', read_slots DSET nt (n_coefs L) (ta_members a) s last = (s', last', o)).
  { rewrite EM. clear EM. induction FB as [|m [d es] ms' bd (D & LI & LE & FC) F IH]; intros s last LS.
    - cbn [app read_slots]. destruct BAD as [[-> ->]|[[(d & h & r & -> & Hd & FH) ->]|(d & e & -> & Hd & RM & ->)]].
      + eexists _, _. reflexivity.
      + rewrite FH. replace (py_index (List.length s) ((d - 1) * Z.of_nat nt)) with (@Err nat IndexError); [eexists _, _; reflexivity|]. symmetry. unfold py_index. rewrite LS.
        replace ((d - 1) * Z.of_nat nt <? 0) with false by nia. replace ((0 <=? (d - 1) * Z.of_nat nt) && ((d - 1) * Z.of_nat nt <? Z.of_nat (nt * Z.to_nat n)))%bool with false by (symmetry; apply andb_false_iff; right; apply Z.ltb_ge; nia). reflexivity.
      + destruct (find_header DSET (t_lines bad)) as [hd|] eqn:FH.
        * assert (EI : py_index (List.length s) ((d - 1) * Z.of_nat nt) = Ok (Z.to_nat (d - 1) * nt)%nat).
          { unfold py_index. rewrite LS. assert (HB : (Z.to_nat (d - 1) * nt + nt <= nt * Z.to_nat n)%nat) by nia. replace ((d - 1) * Z.of_nat nt) with (Z.of_nat (Z.to_nat (d - 1) * nt)) by nia. set (p := (Z.to_nat (d - 1) * nt)%nat) in *. clearbody p. replace (Z.of_nat p <? 0) with false by lia.
            replace ((0 <=? Z.of_nat p) && (Z.of_nat p <? Z.of_nat (nt * Z.to_nat n)))%bool with true by lia. now rewrite Nat2Z.id. }
          rewrite EI, RM. eexists _, _. reflexivity.
        * exfalso. destruct nt as [|nt']; [lia|]. cbn [read_member] in RM. rewrite FH in RM. discriminate.
    - cbn [fst snd app read_slots] in *. rewrite D. assert (NE : es <> []) by (intros ->; cbn in LE; congruence). pose proof (IB d es (or_introl eq_refl)) as HD. assert (HB : (Z.to_nat (d - 1) * nt + nt <= nt * Z.to_nat n)%nat) by nia.
      destruct (find_header DSET (t_lines m)) as [hd|] eqn:FH; [|exfalso; exact (listing_head DSET es _ LI NE FH)].
      assert (EI : py_index (List.length s) ((d - 1) * Z.of_nat nt) = Ok (Z.to_nat (d - 1) * nt)%nat).
      { unfold py_index. rewrite LS. replace ((d - 1) * Z.of_nat nt) with (Z.of_nat (Z.to_nat (d - 1) * nt)) by nia. set (p := (Z.to_nat (d - 1) * nt)%nat) in *. clearbody p. replace (Z.of_nat p <? 0) with false by lia.
        replace ((0 <=? Z.of_nat p) && (Z.of_nat p <? Z.of_nat (nt * Z.to_nat n)))%bool with true by lia. now rewrite Nat2Z.id. }
      assert (RM : read_member DSET (n_coefs L) nt (t_lines m) = Ok (Some es)). { rewrite <- LE. apply (read_listing DSET (n_coefs L) es (t_lines m) LI). eapply Forall_impl; [|exact FC]; cbv beta; tauto. }
      rewrite EI, RM. destruct (put_sets_ok nt d es s) as (s1 & E1 & L1 & _); [lia|lia|]. rewrite E1. apply IH; [|lia]. intros d' es' I. apply (IB d' es'). now right. }
  destruct (RS (repeat empty_slot (nt * Z.to_nat n)) [] ltac:(apply repeat_length)) as (s' & last' & E'). rewrite E'.
  destruct BAD as [[_ ->]|[[_ ->]|(d & e & _ & _ & _ & ->)]]; reflexivity.
Qed.
(** Running again writes nothing if the files are not older than the archives *)
Theorem C108_second_run : forall when grace clock DREL DSET nt L love DDEG INTERVAL BOUNDS lon lat (archives : list tarchive) (f : ufiles) (days : tarchive -> list (Z * sets)),
  release DREL = Ok (nt, L) -> love_ok love L -> grid_of 0 DDEG INTERVAL BOUNDS lon lat -> List.length lon <> 1%nat -> List.length lat <> 1%nat -> NoDup (map ta_month archives) ->
  (forall a, In a archives -> outdated (f (ta_month a)) a -> month_ok DSET nt L a (days a)) -> (forall a, In a archives -> (ta_mtime a <= clock a)%R) ->
  exists f', dealiasing_global_uplift when grace clock DREL DSET love DDEG INTERVAL BOUNDS archives f = (f', Done) /\
    forall clock2, dealiasing_global_uplift when grace clock2 DREL DSET love DDEG INTERVAL BOUNDS archives f' = (f', Done).
Proof.
  intros when grace clock DREL DSET nt L love DDEG INTERVAL BOUNDS lon lat archives f days ER HLv HG N1 N2 ND H MT.
  destruct (C108_maps when grace clock DREL DSET nt L love DDEG INTERVAL BOUNDS lon lat archives f days ER HLv HG N1 N2 ND H) as (f' & E & A & B). exists f'. split; [exact E|]. intros clock2.
  assert (NS : forall a, In a archives -> ~ outdated (f' (ta_month a)) a).
  { intros a I S. pose proof (outdated_ok (f (ta_month a)) a) as SB. destruct (outdated_b (f (ta_month a)) a).
    - destruct (A a I (proj1 SB eq_refl)) as (u & EU & _). rewrite EU in S. cbn [outdated] in S. specialize (MT a I). lra.
    - assert (KF : f' (ta_month a) = f (ta_month a)). { apply B. intros a' I' S' X. assert (a = a').
        { clear - ND I I' X. induction archives as [|a0 l IH]; [destruct I|]. cbn [map] in ND. inversion ND as [|? ? N1 N2]; subst. destruct I as [<-|I], I' as [<-|I']; auto; exfalso; apply N1; [rewrite X|rewrite <- X]; now apply in_map. }
        subst a'. apply SB in S'. discriminate. }
      rewrite KF in S. apply SB in S. discriminate. }
  destruct (setup DREL nt L love DDEG INTERVAL BOUNDS lon lat ER HLv HG) as (df & P & DP & _ & _ & _ & _ & _ & EQ). rewrite EQ. clear - NS. induction archives as [|a archives IH]; [reflexivity|]. cbn [uplift_archives].
  change (match f' (ta_month a) with Some (_, t) => if Rlt_dec t (ta_mtime a) then true else false | None => true end) with (outdated_b (f' (ta_month a)) a).
  destruct (outdated_b (f' (ta_month a)) a) eqn:OB; [exfalso; apply (NS a (or_introl eq_refl)); now apply outdated_ok|]. apply IH. intros a' I. apply NS. now right.
Qed.
(** a complete month and a month with one day *)
Definition ex_archive (fd : sets) (ds : list Z) : tarchive := mktarchive (2003, 1) 0 (map (fun d => mktmember (Some d) (lines_of "glo" fd)) ds).
Definition ex_days (fd : sets) (ds : list Z) : list (Z * sets) := map (fun d => (d, fd)) ds.
Lemma ex_month nt L (fd : sets) ord ds : nt <> 0%nat -> listing "glo" fd (lines_of "glo" fd) -> List.length fd = nt -> Forall (fun e => map key (snd e) = ord) fd -> NoDup ord -> (forall l k : nat, In (l, k) ord <-> (k <= l <= L)%nat) ->
  ds <> [] -> Forall (fun d => 1 <= d <= 31) ds -> month_ok "glo" nt L (ex_archive fd ds) (ex_days fd ds).
Proof.
  intros NT A B C D E NE F.
  assert (LK : map key (last_of (ex_days fd ds)) = ord).
  { unfold last_of. destruct (rev (flat_map snd (ex_days fd ds))) as [|e r] eqn:R.
    - exfalso. destruct ds as [|d ds]; [contradiction|]. apply (f_equal (@List.length _)) in R. rewrite rev_length in R. unfold ex_days in R. cbn [map flat_map snd] in R. rewrite app_length, B in R. cbn in R. lia.
    - assert (I : In e (flat_map snd (ex_days fd ds))) by (apply (proj2 (in_rev _ e)); rewrite R; now left). apply in_flat_map in I. destruct I as ([d es] & I1 & I2). unfold ex_days in I1. apply in_map_iff in I1. destruct I1 as (d' & E1 & _). injection E1 as _ <-. rewrite Forall_forall in C. now apply C. }
  unfold month_ok. cbn [ex_archive ta_month ta_members fst snd]. split; [lia|]. split; [discriminate|]. split; [destruct ds; [contradiction|discriminate]|]. split; [|split; [|split; [rewrite LK; exact D|intros l k; rewrite LK; apply E]]].
  - clear NE LK. induction F as [|d ds Hd F IH]; cbn [map]; constructor; auto. unfold member_ok. cbn [t_day t_lines fst snd]. split; [reflexivity|]. split; [exact A|]. split; [exact B|].
    eapply Forall_impl; [|exact C]. cbv beta. intros e K. rewrite K. split; [|exact D]. rewrite <- (map_length key), K. apply triangle_length; [exact D|exact E].
  - intros d es I. unfold ex_days in I. apply in_map_iff in I. destruct I as (d' & E1 & I). injection E1 as <- _. rewrite Forall_forall in F. apply (F d' I).
Qed.
Definition ex_all : list Z := map (fun k => Z.of_nat k + 1) (seq 0 31).
Example C108_example : exists (fd : sets) ord, month_ok "glo" 8 180 (ex_archive fd ex_all) (ex_days fd ex_all) /\ month_ok "glo" 8 180 (ex_archive fd [7]) (ex_days fd [7]) /\ days_in_month (2003, 1) = 31 /\ release "RL06" = Ok (8%nat, 180%nat) /\ 24 mod 8 = 0 /\
  (forall d es, In (d, es) (ex_days fd ex_all) -> List.length es = 8%nat /\ Forall (fun e => map key (snd e) = ord) es /\ map fst es = map (fun c => 24 / 8 * Z.of_nat c) (seq 0 8)) /\
  NoDup (map fst (ex_days fd ex_all)) /\ (forall d, 1 <= d <= 31 <-> In d (map fst (ex_days fd ex_all))) /\
  grid_of 0 [1%R] 1 None (map (fun i => (0 + INR i * 1)%R) (seq 0 (360 + 1))) (map (fun k => (90 - INR k * 1)%R) (seq 0 (180 + 1))).
Proof.
  destruct (flat_readable "glo" 8 180 (0, 0, 0) 0 2%R) as (A & B & C & D & E). cbn [m_lines] in A.
  assert (T : map fst (flat_day 8 180 2%R) = map (fun c => 24 / 8 * Z.of_nat c) (seq 0 8)) by (unfold flat_day; rewrite map_map; reflexivity).
  exists (flat_day 8 180 2%R), (lm_loop 180 180). generalize dependent (flat_day 8 180 2%R). generalize dependent (lm_loop 180 180). intros ord D E fd A B C T.
  assert (EF : map fst (ex_days fd ex_all) = ex_all). { unfold ex_days. rewrite map_map. cbn [fst]. apply map_id. }
  split; [apply (ex_month 8 180 fd ord); auto; [discriminate|]; apply Forall_forall; intros d I; unfold ex_all in I; apply in_map_iff in I; destruct I as (k & <- & I); apply in_seq in I; lia|].
  split; [apply (ex_month 8 180 fd ord); auto; [discriminate|repeat constructor; lia]|]. split; [reflexivity|]. split; [reflexivity|]. split; [reflexivity|]. split; [|split; [|split]].
  - intros d es I. unfold ex_days in I. apply in_map_iff in I. destruct I as (d' & E1 & _). injection E1 as _ <-. auto.
  - rewrite EF. unfold ex_all. apply FinFun.Injective_map_NoDup; [intros x y; lia|apply seq_NoDup].
  - rewrite EF. intros d. unfold ex_all. rewrite in_map_iff. split.
    + intros H. exists (Z.to_nat (d - 1)). split; [lia|]. apply in_seq. lia.
    + intros (k & <- & I). apply in_seq in I. lia.
  - exists 1%R, 1%R. split; [left; split; reflexivity|]. apply points; try lra; rewrite INR_IZR_INZ; [change (Z.of_nat 360) with 360|change (Z.of_nat 180) with 180]; lra.
Qed.
