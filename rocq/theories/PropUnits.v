(** Properties C39, C40: class units (gravity_toolkit/units.py).
    [at_deg o l v]: the factor array [o] is set and its value at degree l is v. *)
From Coq Require Import Reals Lra String ZifyBool.
From Verif Require Import Base UnitsModel UnitsProofs.
Close Scope Z_scope.
Open Scope R_scope.

Definition at_deg (o : option (list R)) (l : nat) (v : R) : Prop := exists xs, o = Some xs /\ nth_error xs l = Some v.

Lemma at_deg_intro o xs l lm : o = Some xs -> List.length xs = S lm -> (l <= lm)%nat -> at_deg o l (nth l xs 0).
Proof. intros -> H Hl. exists xs. split; [reflexivity|]. apply nth_error_nth'. lia. Qed.
Lemma at_deg_eq o xs l lm v : o = Some xs -> List.length xs = S lm -> (l <= lm)%nat -> nth l xs 0 = v -> at_deg o l v.
Proof. intros H1 H2 H3 <-. eapply at_deg_intro; eassumption. Qed.
Lemma at_deg_fun o l v w : at_deg o l v -> at_deg o l w -> v = w.
Proof. intros (x & E & H) (y & E' & H'). congruence. Qed.

(** the arguments a call needs: the degree range is set and the Love number
    tables reach it *)
Definition callable (u : units) (lm : nat) (hl kl ll : list R) : Prop :=
  lmax u = Some lm /\ (lm < List.length hl)%nat /\ (lm < List.length kl)%nat /\ (lm < List.length ll)%nat.

Ltac deg Hx := eapply at_deg_intro; [exact Hx|eassumption|assumption].

(** ** C39 *)
(** Wahr et al. (1998): the value of every factor set by [harmonic], degree by
    degree.  k = 1 + kl (elastic) or 1, divided by 1 - flat if ellipsoidal. *)
Theorem C39_harmonic_values : forall u lm hl kl ll (elastic ellipsoidal : bool), callable u lm hl kl ll ->
  exists h, harmonic hl kl ll elastic ellipsoidal u = Ok h /\ lmax h = Some lm /\ a_axis h = a_axis u /\ flat h = flat u /\
  forall l hl_l kl_l ll_l, (l <= lm)%nat -> nth_error hl l = Some hl_l -> nth_error kl l = Some kl_l -> nth_error ll l = Some ll_l ->
  let k := (if elastic then 1 + kl_l else 1) / (if ellipsoidal then 1 - flat u else 1) in
  at_deg (norm h) l 1 /\
  at_deg (cmwe h) l (rho_e u * rad_e u * (2 * INR l + 1) / (3 * k)) /\
  at_deg (mmwe h) l (10 * (rho_e u * rad_e u * (2 * INR l + 1) / (3 * k))) /\
  at_deg (mmGH h) l (10 * rad_e u) /\
  at_deg (mmCU h) l (10 * rad_e u * hl_l / k) /\
  at_deg (mmCH h) l (10 * rad_e u * ll_l / k) /\
  at_deg (cmVCU h) l (rad_e u * (2 * INR l + 1) / 2) /\
  at_deg (mVCU h) l (rad_e u * (2 * INR l + 1) / 2 / 100) /\
  at_deg (microGal h) l (10 ^ 6 * GM * (INR l + 1) / rad_e u ^ 2) /\
  at_deg (mbar h) l (g_wmo / 1000 * (rho_e u * rad_e u * (2 * INR l + 1) / (3 * k))) /\
  at_deg (Pa h) l (100 * (g_wmo / 1000 * (rho_e u * rad_e u * (2 * INR l + 1) / (3 * k)))).
Proof.
  intros u lm hl kl ll el ep (H0 & H1 & H2 & H3).
  destruct (harmonic_ok hl kl ll el ep u lm H0 H1 (fun _ => H2) H3) as (h & E & L & A & F & n1 & cw & mw & gh & cu & ch & cv & mv & ug & mb & pa &
    E1 & E2 & E3 & E4 & E5 & E6 & E7 & E8 & E9 & E10 & E11 & L1 & L2 & L3 & L4 & L5 & L6 & L7 & L8 & L9 & L10 & L11 & V).
  exists h. do 4 (split; [assumption|]). intros l a b c Hl Ha Hb Hc. cbv zeta.
  assert (K : frac kl el ep (flat u) l = (if el then 1 + b else 1) / (if ep then 1 - flat u else 1)).
  { unfold frac. rewrite (nth_error_nth _ _ 0 Hb). destruct el; [reflexivity|]. now rewrite Rplus_0_r. }
  destruct (V l Hl) as (V1 & V2 & V3 & V4 & V5 & V6 & V7 & V8 & V9 & V10 & V11).
  rewrite (nth_error_nth _ _ 0 Ha) in V5. rewrite (nth_error_nth _ _ 0 Hc) in V6. rewrite K in *.
  rewrite V10 in V11. rewrite V2 in V3, V10, V11. rewrite V7 in V8.
  repeat split; eapply at_deg_eq; eassumption.
Qed.
Print Assumptions C39_harmonic_values.

(** the same values through get(name), and no other name is accepted *)
Definition got (h : units) (name : string) (l : nat) (v : R) : Prop := exists xs, get h name = Ok (Some xs) /\ nth_error xs l = Some v.
Theorem C39_get_values : forall u lm hl kl ll (elastic ellipsoidal : bool), callable u lm hl kl ll ->
  exists h, harmonic hl kl ll elastic ellipsoidal u = Ok h /\
  (forall l hl_l kl_l ll_l, (l <= lm)%nat -> nth_error hl l = Some hl_l -> nth_error kl l = Some kl_l -> nth_error ll l = Some ll_l ->
  let k := (if elastic then 1 + kl_l else 1) / (if ellipsoidal then 1 - flat u else 1) in
  got h "norm" l 1 /\
  got h "cmwe" l (rho_e u * rad_e u * (2 * INR l + 1) / (3 * k)) /\
  got h "mmwe" l (10 * (rho_e u * rad_e u * (2 * INR l + 1) / (3 * k))) /\
  got h "mmGH" l (10 * rad_e u) /\
  got h "mmCU" l (10 * rad_e u * hl_l / k) /\
  got h "mmCH" l (10 * rad_e u * ll_l / k) /\
  got h "cmVCU" l (rad_e u * (2 * INR l + 1) / 2) /\
  got h "mVCU" l (rad_e u * (2 * INR l + 1) / 2 / 100) /\
  got h "microGal" l (10 ^ 6 * GM * (INR l + 1) / rad_e u ^ 2) /\
  got h "mbar" l (g_wmo / 1000 * (rho_e u * rad_e u * (2 * INR l + 1) / (3 * k))) /\
  got h "Pa" l (100 * (g_wmo / 1000 * (rho_e u * rad_e u * (2 * INR l + 1) / (3 * k))))) /\
  (forall name, ~ In name ["norm"; "cmwe"; "mmwe"; "mmGH"; "mmCU"; "mmCH"; "cmVCU"; "mVCU"; "microGal"; "mbar"; "Pa"] -> get h name = Err ValueError).
Proof.
  intros u lm hl kl ll el ep H. destruct (C39_harmonic_values u lm hl kl ll el ep H) as (h & E & _ & _ & _ & V).
  exists h. split; [exact E|]. split.
  - intros l a b c Hl Ha Hb Hc. specialize (V l a b c Hl Ha Hb Hc). cbv zeta in *.
    destruct V as ([x1 [V1 N1]] & [x2 [V2 N2]] & [x3 [V3 N3]] & [x4 [V4 N4]] & [x5 [V5 N5]] & [x6 [V6 N6]] & [x7 [V7 N7]] & [x8 [V8 N8]] & [x9 [V9 N9]] & [x10 [V10 N10]] & [x11 [V11 N11]]).
    unfold got, get. cbn [String.eqb Ascii.eqb Bool.eqb]. rewrite V1, V2, V3, V4, V5, V6, V7, V8, V9, V10, V11.
    repeat split; eexists; (split; [reflexivity|assumption]).
  - intros name N. unfold get. cbn [In] in N.
    repeat (match goal with |- (if String.eqb ?a ?b then _ else _) = _ => let Q := fresh "Q" in destruct (String.eqb_spec a b) as [Q|Q]; [exfalso; apply N; rewrite Q; tauto|clear Q] end).
    reflexivity.
Qed.

(** mm = 10 cm, Pa = 100 mbar, m = cm / 100 at every degree of every call *)
Theorem C39_unit_ratios : forall u lm hl kl ll (elastic ellipsoidal : bool), callable u lm hl kl ll ->
  exists h, harmonic hl kl ll elastic ellipsoidal u = Ok h /\
  forall l v, (l <= lm)%nat -> (at_deg (cmwe h) l v -> at_deg (mmwe h) l (10 * v)) /\
    (at_deg (mbar h) l v -> at_deg (Pa h) l (100 * v)) /\ (at_deg (cmVCU h) l v -> at_deg (mVCU h) l (v / 100)).
Proof.
  intros u lm hl kl ll el ep H. destruct (C39_harmonic_values u lm hl kl ll el ep H) as (h & E & _ & _ & _ & V).
  exists h. split; [exact E|]. intros l v Hl. destruct H as (_ & H1 & H2 & H3).
  destruct (nth_error hl l) as [a|] eqn:Ea; [|apply nth_error_None in Ea; lia].
  destruct (nth_error kl l) as [b|] eqn:Eb; [|apply nth_error_None in Eb; lia].
  destruct (nth_error ll l) as [c|] eqn:Ec; [|apply nth_error_None in Ec; lia].
  destruct (V l a b c Hl Ea Eb Ec) as (_ & V2 & V3 & _ & _ & _ & V7 & V8 & _ & V10 & V11).
  split; [|split]; intros Hv.
  - now rewrite (at_deg_fun _ _ _ _ Hv V2).
  - now rewrite (at_deg_fun _ _ _ _ Hv V10).
  - now rewrite (at_deg_fun _ _ _ _ Hv V7).
Qed.
Print Assumptions C39_unit_ratios.

(** converting a field to harmonics (spatial factors, which carry the 1/(4 pi) of
    the integration over the sphere) and back (harmonic factors) is the identity:
    the product of the two factors is 1/(4 pi) at every degree *)
Theorem C39_roundtrip : forall u v lm hl kl ll (elastic : bool),
  callable u lm hl kl ll -> callable v lm hl kl ll -> a_axis v = a_axis u -> flat v = flat u -> 0 < a_axis u ->
  exists h s, harmonic hl kl ll elastic false u = Ok h /\ spatial hl kl ll elastic v = Ok s /\
  forall l, (l <= lm)%nat -> (elastic = true -> nth_error kl l <> Some (-1)) ->
  exists c c' m m' g g', at_deg (cmwe h) l c /\ at_deg (cmwe s) l c' /\ 4 * PI * (c * c') = 1 /\
    at_deg (mmwe h) l m /\ at_deg (mmwe s) l m' /\ 4 * PI * (m * m') = 1 /\
    at_deg (microGal h) l g /\ at_deg (microGal s) l g' /\ 4 * PI * (g * g') = 1.
Proof.
  intros u v lm hl kl ll el (H0 & H1 & H2 & H3) (G0 & _) Ea Ef Hp.
  destruct (harmonic_ok hl kl ll el false u lm H0 H1 (fun _ => H2) H3) as (h & E & L & A & F & n1 & cw & mw & gh & cu & ch & cv & mv & ug & mb & pa &
    E1 & E2 & E3 & E4 & E5 & E6 & E7 & E8 & E9 & E10 & E11 & L1 & L2 & L3 & L4 & L5 & L6 & L7 & L8 & L9 & L10 & L11 & V).
  destruct (spatial_ok hl kl ll el v lm G0 (fun _ => H2)) as (s & Es & _ & _ & _ & _ & _ & _ & _ & _ & _ & sn & scw & smw & sgh & sug &
    S1 & S2 & S3 & S4 & S5 & SL1 & SL2 & SL3 & SL4 & SL5 & W).
  exists h, s. split; [exact E|]. split; [exact Es|]. intros l Hl Hk.
  exists (nth l cw 0), (nth l scw 0), (nth l mw 0), (nth l smw 0), (nth l ug 0), (nth l sug 0).
  destruct (V l Hl) as (_ & V2 & V3 & _ & _ & _ & _ & _ & V9 & _). destruct (W l Hl) as (_ & W2 & W3 & _ & W5).
  assert (Er : rad_e v = rad_e u) by (unfold rad_e; now rewrite Ea, Ef).
  assert (Eo : rho_e v = rho_e u) by (unfold rho_e; now rewrite Er).
  rewrite Er, ?Eo, Ef in *.
  pose proof (rad_pos u Hp). pose proof (rho_pos u Hp). pose proof GM_pos. pose proof PI_RGT_0.
  pose proof (INR_odd l). pose proof (INR_suc l).
  assert (Kn : frac kl el false (flat u) l <> 0).
  { unfold frac. destruct el; [|lra]. destruct (nth_error kl l) as [k|] eqn:Ek; [|apply nth_error_None in Ek; lia].
    rewrite (nth_error_nth _ _ 0 Ek). intros Z. apply (Hk eq_refl). f_equal. lra. }
  split; [deg E2|]. split; [deg S2|]. split; [rewrite V2, W2; field; repeat split; lra|].
  split; [deg E3|]. split; [deg S3|]. split; [rewrite V3, W3, V2, W2; field; repeat split; lra|].
  split; [deg E9|]. split; [deg S5|]. rewrite V9, W5. field. repeat split; lra.
Qed.
Print Assumptions C39_roundtrip.

(** with the oblateness option only the harmonic factors change: the round trip
    of water equivalent is off by exactly (1 - flat) *)
Theorem C39_roundtrip_ellipsoidal : forall u lm hl kl ll (elastic : bool),
  callable u lm hl kl ll -> 0 < a_axis u -> flat u <> 1 ->
  exists h s, harmonic hl kl ll elastic true u = Ok h /\ spatial hl kl ll elastic u = Ok s /\
  forall l, (l <= lm)%nat -> (elastic = true -> nth_error kl l <> Some (-1)) ->
  exists c c', at_deg (cmwe h) l c /\ at_deg (cmwe s) l c' /\ 4 * PI * (c * c') = 1 - flat u.
Proof.
  intros u lm hl kl ll el (H0 & H1 & H2 & H3) Hp Hf.
  destruct (harmonic_ok hl kl ll el true u lm H0 H1 (fun _ => H2) H3) as (h & E & L & A & F & n1 & cw & mw & gh & cu & ch & cv & mv & ug & mb & pa &
    E1 & E2 & E3 & E4 & E5 & E6 & E7 & E8 & E9 & E10 & E11 & L1 & L2 & L3 & L4 & L5 & L6 & L7 & L8 & L9 & L10 & L11 & V).
  destruct (spatial_ok hl kl ll el u lm H0 (fun _ => H2)) as (s & Es & _ & _ & _ & _ & _ & _ & _ & _ & _ & sn & scw & smw & sgh & sug &
    S1 & S2 & S3 & S4 & S5 & SL1 & SL2 & SL3 & SL4 & SL5 & W).
  exists h, s. split; [exact E|]. split; [exact Es|]. intros l Hl Hk. exists (nth l cw 0), (nth l scw 0).
  destruct (V l Hl) as (_ & V2 & _). destruct (W l Hl) as (_ & W2 & _).
  pose proof (rad_pos u Hp). pose proof (rho_pos u Hp). pose proof PI_RGT_0. pose proof (INR_odd l).
  assert (Kn : frac kl el false (flat u) l <> 0).
  { unfold frac. destruct el; [|lra]. destruct (nth_error kl l) as [k|] eqn:Ek; [|apply nth_error_None in Ek; lia].
    rewrite (nth_error_nth _ _ 0 Ek). intros Z. apply (Hk eq_refl). f_equal. lra. }
  split; [deg E2|]. split; [deg S2|]. rewrite V2, W2, frac_ellip. field. repeat split; lra.
Qed.
Print Assumptions C39_roundtrip_ellipsoidal.

(** geoid height: harmonic factors give millimetres, spatial factors take
    centimetres, so the round trip multiplies by ten *)
Theorem C39_geoid_roundtrip_refuted : forall u lm hl kl ll (elastic ellipsoidal : bool),
  callable u lm hl kl ll -> 0 < a_axis u ->
  exists h s, harmonic hl kl ll elastic ellipsoidal u = Ok h /\ spatial hl kl ll elastic u = Ok s /\
  forall l, (l <= lm)%nat -> exists g g', at_deg (mmGH h) l g /\ at_deg (mmGH s) l g' /\ 4 * PI * (g * g') = 10.
Proof.
  intros u lm hl kl ll el ep (H0 & H1 & H2 & H3) Hp.
  destruct (harmonic_ok hl kl ll el ep u lm H0 H1 (fun _ => H2) H3) as (h & E & L & A & F & n1 & cw & mw & gh & cu & ch & cv & mv & ug & mb & pa &
    E1 & E2 & E3 & E4 & E5 & E6 & E7 & E8 & E9 & E10 & E11 & L1 & L2 & L3 & L4 & L5 & L6 & L7 & L8 & L9 & L10 & L11 & V).
  destruct (spatial_ok hl kl ll el u lm H0 (fun _ => H2)) as (s & Es & _ & _ & _ & _ & _ & _ & _ & _ & _ & sn & scw & smw & sgh & sug &
    S1 & S2 & S3 & S4 & S5 & SL1 & SL2 & SL3 & SL4 & SL5 & W).
  exists h, s. split; [exact E|]. split; [exact Es|]. intros l Hl. exists (nth l gh 0), (nth l sgh 0).
  destruct (V l Hl) as (_ & _ & _ & V4 & _). destruct (W l Hl) as (_ & _ & _ & W4 & _).
  pose proof (rad_pos u Hp). pose proof PI_RGT_0.
  split; [deg E4|]. split; [deg S4|]. rewrite V4, W4. field. split; lra.
Qed.
Print Assumptions C39_geoid_roundtrip_refuted.

(** [spatial] on an object on which [harmonic] was called keeps the harmonic
    factors of the other units: a reader of those attributes gets factors for
    the opposite conversion *)
Theorem C39_spatial_keeps_stale_factors : forall u lm hl kl ll (elastic ellipsoidal : bool), callable u lm hl kl ll ->
  exists h s, harmonic hl kl ll elastic ellipsoidal u = Ok h /\ spatial hl kl ll elastic h = Ok s /\
    mbar s = mbar h /\ Pa s = Pa h /\ mmCU s = mmCU h /\ mmCH s = mmCH h /\ cmVCU s = cmVCU h /\ mVCU s = mVCU h /\
    mbar s <> None.
Proof.
  intros u lm hl kl ll el ep (H0 & H1 & H2 & H3).
  destruct (harmonic_ok hl kl ll el ep u lm H0 H1 (fun _ => H2) H3) as (h & E & L & _ & _ & n1 & cw & mw & gh & cu & ch & cv & mv & ug & mb & pa &
    _ & _ & _ & _ & _ & _ & _ & _ & _ & E10 & _).
  destruct (spatial_ok hl kl ll el h lm L (fun _ => H2)) as (s & Es & _ & _ & _ & S5 & S6 & S7 & S8 & S9 & S10 & _).
  exists h, s. do 8 (split; [assumption|]). rewrite S9, E10. discriminate.
Qed.
Print Assumptions C39_spatial_keeps_stale_factors.

(** Earth parameters: the mean radius is that of the sphere with the volume of
    the ellipsoid, and density, mass, radius, GM and G are consistent *)
Theorem C39_earth_parameters : forall u, 0 < a_axis u -> flat u < 1 ->
  4 / 3 * PI * rad_e u ^ 3 = 4 / 3 * PI * (a_axis u * a_axis u * b_axis u) /\
  mass u = rho_e u * (4 / 3 * PI * rad_e u ^ 3) /\ G * mass u = GM /\ 0 < rho_e u /\ 0 < rad_e u.
Proof.
  intros u H F. rewrite (rad_cubed u F). split; [ring|]. split; [unfold mass; rewrite rad_cubed by exact F; ring|].
  split; [now apply mass_eq|]. split; [now apply rho_pos|now apply rad_pos].
Qed.
Print Assumptions C39_earth_parameters.

(** calls that cannot be served raise *)
Theorem C39_no_degree : forall u hl kl ll elastic ellipsoidal, lmax u = None ->
  harmonic hl kl ll elastic ellipsoidal u = Err TypeError /\ spatial hl kl ll elastic u = Err TypeError.
Proof. intros. unfold harmonic, spatial. now rewrite H. Qed.
Theorem C39_short_love_numbers : forall u lm hl kl ll ellipsoidal, lmax u = Some lm -> (List.length kl <= lm)%nat ->
  harmonic hl kl ll true ellipsoidal u = Err IndexError /\ spatial hl kl ll true u = Err IndexError.
Proof.
  intros. unfold harmonic, spatial, fraction, take_idx. rewrite H.
  now rewrite (proj2 (Nat.leb_gt (S lm) (List.length kl))) by lia.
Qed.
Theorem C39_init_unset : forall lm a f, let u := units_init lm a f in
  norm u = None /\ cmwe u = None /\ mmwe u = None /\ mmGH u = None /\ microGal u = None /\ mbar u = None /\ Pa u = None.
Proof. intros. repeat split. Qed.

Example C39_example : exists u, callable u 2 [0;0;-1] [0;0;-3/10] [0;0;2/100] /\ 0 < a_axis u /\ flat u < 1 /\
  nth_error [0;0;-3/10] 2 <> Some (-1) /\
  exists h s, harmonic [0;0;-1] [0;0;-3/10] [0;0;2/100] true false u = Ok h /\ spatial [0;0;-1] [0;0;-3/10] [0;0;2/100] true u = Ok s.
Proof.
  exists (units_init (Some 2%nat) a_default flat_default). repeat split; cbn; try lia.
  - unfold a_default; lra.
  - unfold flat_default; lra.
  - intros E. injection E. lra.
  - eauto.
Qed.

(** ** C40 *)
Open Scope string_scope.
(** the documented table *)
Inductive unit_code : Z -> string -> Prop :=
| uc0 : unit_code 0 "norm" | uc1 : unit_code 1 "cmwe" | uc2 : unit_code 2 "mmGH" | uc3 : unit_code 3 "mmCU"
| uc4 : unit_code 4 "microGal" | uc5 : unit_code 5 "mbar" | uc6 : unit_code 6 "cmVCU".

Theorem C40_documented_codes : forall n s, unit_code n s -> bycode n = Ok s.
Proof. destruct 1; reflexivity. Qed.
Theorem C40_nonnegative_codes : forall n s, (0 <= n)%Z -> (bycode n = Ok s <-> unit_code n s).
Proof.
  intros n s Hn. split; [|apply C40_documented_codes]. intros E.
  destruct (Z_lt_dec n 7) as [H|H].
  - assert (C : (n = 0 \/ n = 1 \/ n = 2 \/ n = 3 \/ n = 4 \/ n = 5 \/ n = 6)%Z) by lia.
    destruct C as [C|[C|[C|[C|[C|[C|C]]]]]]; subst n; cbn in E; injection E as <-; constructor.
  - exfalso. unfold bycode, py_get, named_units in E. cbn [List.length] in E.
    replace (n <? 0)%Z with false in E by lia. replace ((0 <=? n) && (n <? Z.of_nat 7))%Z with false in E by lia. discriminate.
Qed.
(** every code: accepted exactly from -7 to 6, the negative ones alias the last
    entries; anything else raises ValueError *)
Theorem C40_all_codes : forall n, (exists s, bycode n = Ok s /\ (unit_code n s \/ unit_code (n + 7) s) /\ (-7 <= n < 7)%Z) \/
  (bycode n = Err ValueError /\ ~ (-7 <= n < 7)%Z).
Proof.
  intros n. destruct (Z_le_dec (-7) n) as [H1|H1]; [destruct (Z_lt_dec n 7) as [H2|H2]|].
  - left. assert (C : (n = 0 \/ n = 1 \/ n = 2 \/ n = 3 \/ n = 4 \/ n = 5 \/ n = 6 \/
      n = -1 \/ n = -2 \/ n = -3 \/ n = -4 \/ n = -5 \/ n = -6 \/ n = -7)%Z) by lia.
    repeat (destruct C as [C|C]; [subst n; eexists; split; [vm_compute; reflexivity|]; split; [(left; constructor) || (right; cbn; constructor)|lia]|]).
    subst n; eexists; split; [vm_compute; reflexivity|]; split; [right; cbn; constructor|lia].
  - right. split; [|lia]. unfold bycode, py_get, named_units. cbn [List.length].
    replace (n <? 0)%Z with false by lia. now replace ((0 <=? n) && (n <? Z.of_nat 7))%Z with false by lia.
  - right. split; [|lia]. unfold bycode, py_get, named_units. cbn [List.length].
    replace (n <? 0)%Z with true by lia. now replace ((0 <=? n + Z.of_nat 7) && (n + Z.of_nat 7 <? Z.of_nat 7))%Z with false by lia.
Qed.
Theorem C40_negative_codes_refuted : bycode (-1) = Ok "cmVCU" /\ ~ (exists s, unit_code (-1) s).
Proof. split; [reflexivity|]. intros (s & H). inversion H. Qed.
(** every named code is a unit that [harmonic] sets *)
Theorem C40_codes_have_factors : forall n s u lm hl kl ll el ep, bycode n = Ok s -> callable u lm hl kl ll ->
  exists h xs, harmonic hl kl ll el ep u = Ok h /\ get h s = Ok (Some xs) /\ List.length xs = S lm.
Proof.
  intros n s u lm hl kl ll el ep E (H0 & H1 & H2 & H3).
  destruct (harmonic_ok hl kl ll el ep u lm H0 H1 (fun _ => H2) H3) as (h & Eh & L & A & F & n1 & cw & mw & gh & cu & ch & cv & mv & ug & mb & pa &
    E1 & E2 & E3 & E4 & E5 & E6 & E7 & E8 & E9 & E10 & E11 & L1 & L2 & L3 & L4 & L5 & L6 & L7 & L8 & L9 & L10 & L11 & V).
  exists h. destruct (C40_all_codes n) as [(s' & E' & [C|C] & _)|[E' _]]; [| |congruence];
  (assert (s' = s) by congruence; subst s'; clear - C Eh E1 E2 E3 E4 E5 E6 E7 E8 E9 E10 E11 L1 L2 L3 L4 L5 L6 L7 L8 L9 L10 L11;
   inversion C; subst; eexists; (split; [exact Eh|]); unfold get; cbn; (split; [f_equal; eassumption|eassumption])).
Qed.
Print Assumptions C40_codes_have_factors.
(** every coded unit has attributes; Pa, a unit set by [harmonic], has none *)
Theorem C40_codes_have_attributes : forall n s, bycode n = Ok s -> exists a, get_attributes s = Ok a.
Proof.
  intros n s E. destruct (C40_all_codes n) as [(s' & E' & [C|C] & _)|[E' _]]; [| |congruence];
  (assert (s' = s) by congruence; subst s'; inversion C; cbn; eauto).
Qed.
Theorem C40_Pa_attributes_refuted : get_attributes "Pa" = Err ValueError.
Proof. reflexivity. Qed.
Theorem C40_unknown_attributes : forall s, (forall p, In p named_attributes -> fst p <> s) -> get_attributes s = Err ValueError.
Proof.
  intros s H. unfold get_attributes. destruct (find _ _) eqn:E; [|reflexivity].
  apply find_some in E. destruct E as [E1 E2]. apply String.eqb_eq in E2. now elim (H _ E1).
Qed.
Example C40_example : bycode 4 = Ok "microGal" /\ unit_code 4 "microGal" /\ bycode 7 = Err ValueError.
Proof. repeat split. constructor. Qed.
