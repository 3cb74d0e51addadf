(** C100: maps of the error of GRACE fields (model: ErrorModel.v). *)
From Coq Require Import Reals Lra Lia String Sorting.Sorted ZifyBool ZifyNat.
From Coquelicot Require Import Coquelicot.
From Verif Require PropKernel LegendreProofs.
From Verif Require Import FourierGenProofs Base UnitsModel PropUnits GaussModel PropGauss LegendreModel LegendreSpec2 DestripeModel DestripeProofs SummationModel SummationProofs PropFactors GenModel MasconModel LinAlg TsModel PropTs PropLegendre PropSummation
  PropSmoothMap PropMascon PropSmooth PropSlr Parseval Arr HarmModel HarmProofs HarmProofs2 HarmProofs3 MapsModel MapsProofs PropMaps ErrorModel.
Close Scope Z_scope.
Close Scope string_scope.
Open Scope R_scope.

(** ** Specification *)
(** the run of grace_spatial_maps (C97) with the same options, and nothing removed but the mean field *)
Definition as_maps (e : erun) : mrun :=
  let none := zeros (e_lmax e) (order_of (e_lmax e) (e_mmax e)) None TNone TNone in
  mkmrun (e_lmin e) (e_lmax e) (e_mmax e) (e_love e) (e_rad e) (e_destripe e) (e_units e) (e_ddeg e) (e_interval e) (e_bounds e)
    (e_grace e) (e_mean e) none [] [IndexFile] false none.
(** half of the window: 13 months; 39 ten-day fields for the first two releases of CNES *)
Definition half_window (e : erun) : nat :=
  if string_dec (e_proc e) "CNES" then (if in_dec string_dec (e_drel e) ["RL01"; "RL02"]%string then 19%nat else 6%nat) else 6%nat.
(** a run with enough months, in each window of which trend, annual and semi-annual signals can be told apart *)
Definition errors_ok (e : erun) (n : nat) (ts : list R) (ms : list Z) : Prop :=
  run_ok (as_maps e) n ts ms (fun _ t => t) /\ (2 * half_window e < n)%nat /\ forall k, (k + 2 * half_window e < n)%nat -> separable ts (half_window e) k.
(** the root mean square of what remains of the values y 0 .. y (n-1), at the middle of each window of 2H+1 months, after the best fitting signal *)
Definition residual_rms (ts : list R) (H n : nat) (y : nat -> R) (v : R) : Prop :=
  0 <= v /\ exists g, (forall k, (k < n - 2 * H)%nat -> best ts (map y (seq 0 n)) H k (g k)) /\
    v ^ 2 = sumn (n - 2 * H) (fun k => (y (k + H)%nat - sig (g k) (nth (k + H) ts 0)) ^ 2) / INR (n - 2 * H).
(** the coefficient (cs, l, m) of month t, less the mean field, destriped if asked for *)
Definition coefficient (e : erun) (n t : nat) : coefs := filtered (as_maps e) (fun cs l m => part (e_grace e) t cs l m - reference (as_maps e) n cs l m).
(** a field with a single coefficient *)
Definition only (cs0 : bool) (l0 m0 : nat) (v : R) : coefs := fun cs l m => if (Bool.eqb cs cs0 && (l =? l0) && (m =? m0))%nat%bool then v else 0.
(** the error v at longitude x and latitude y, from errors D of the coefficients of N months: the root of the sum of the squares of the changes [u] of the map
    of the program C97 when one coefficient after the other is off by D / sqrt N *)
Definition error_at (r : mrun) (D : coefs) (N x y v : R) : Prop :=
  0 <= v /\ exists u, (forall cs l m, (m <= l <= p_lmax r)%nat -> (m <= max_order r)%nat -> map_of r (only cs l m (D cs l m / sqrt N)) x y (u cs l m)) /\
    v ^ 2 = sumn (max_order r + 1) (fun m => sumn (p_lmax r + 1) (fun l => if (m <=? l)%nat then u false l m ^ 2 + u true l m ^ 2 else 0)).
(** a directory without a file of this name *)
Definition not_stored (d : dir) (k : key) : Prop := forall s, ~ In (k, s) d.
(** the file with the errors of the coefficients is named after these options and the first and last month only *)
Definition error_file (e : erun) (ms : list Z) : key :=
  mkkey (e_proc e) (e_drel e) (e_dset e) (e_lmax e) (if (max_order (as_maps e) =? e_lmax e)%nat then None else Some (max_order (as_maps e))) (e_destripe e) (e_atm e)
    (nth 0 ms 0%Z) (nth (List.length ms - 1) ms 0%Z) (e_form e).

(** ** Proofs *)
Lemma half_ok e : half_width (e_proc e) (e_drel e) = half_window e.
Proof.
  unfold half_width, half_window. destruct (String.eqb_spec (e_proc e) "CNES"), (string_dec (e_proc e) "CNES"); try congruence; cbn [andb]; [|reflexivity].
  destruct (in_dec string_dec (e_drel e) ["RL01"; "RL02"]%string) as [I|I]; destruct (String.eqb_spec (e_drel e) "RL01"); destruct (String.eqb_spec (e_drel e) "RL02"); cbn [orb]; try reflexivity; exfalso; cbn in I; intuition congruence.
Qed.
Lemma Rsum_sumn {A} (f : A -> R) (l : list A) d : Rsum (map f l) = sumn (List.length l) (fun k => f (nth k l d)).
Proof.
  induction l as [|a l IH]; [reflexivity|]. cbn [map Rsum List.length]. rewrite LegendreFourier.sumn_first. cbn [nth]. rewrite IH. reflexivity.
Qed.
Lemma series_nth n (y : nat -> R) k : (k < n)%nat -> val (map y (seq 0 n)) k = y k.
Proof. intros H. unfold val. rewrite (nth_indep _ 0 (y 0%nat)) by (rewrite map_length, seq_length; lia). rewrite (map_nth y), seq_nth by lia. reflexivity. Qed.
Lemma map_seq_ext {A} (f g : nat -> A) n : (forall k, (k < n)%nat -> f k = g k) -> map f (seq 0 n) = map g (seq 0 n).
Proof. intros H. apply map_ext_in. intros k Hk. apply in_seq in Hk. apply H. lia. Qed.

Section Noise.
Context (erf : R -> R) (tppf : R -> Z -> R).
Lemma coef_error_ok L M n ts ms Y h H cs l m : holds L M n ts ms Y h -> (2 * H < n)%nat -> (2 <= n)%nat -> (forall k, (k + 2 * H < n)%nat -> separable ts H k) ->
  (m <= l <= L)%nat -> (m <= M)%nat ->
  exists v tm, coef_error erf tppf H ts (chan h cs) l m = Ok (v, (n - 2 * H)%nat, tm) /\ tm = Rmean (TsModel.slice ts H (n - H)) /\ residual_rms ts H n (fun t => Y t cs l m) v.
Proof.
  intros Hh Hn N2 Hs Hl Hm. destruct Hh as [h1 h2 h3 h4 h5 h6 h7 h8 h9 h10 h11]. unfold coef_error.
  assert (S : rows (chan h cs) = (L + 1)%nat /\ cols (chan h cs) = (M + 1)%nat /\ depth (chan h cs) = Some n).
  { destruct h5 as (a & b & c). destruct cs; cbn [chan]; repeat split; congruence. }
  destruct S as (S1 & S2 & S3). rewrite S3, S1, S2. replace ((L + 1 <=? l) || (M + 1 <=? m))%nat%bool with false by lia.
  rewrite (map_seq_ext (fun t => get (chan h cs) l m t) (fun t => Y t cs l m)) by (intros; apply h11; auto).
  set (d := map (fun t => Y t cs l m) (seq 0 n)).
  assert (Ld : List.length d = n) by (unfold d; rewrite map_length, seq_length; reflexivity).
  destruct (C71_returns erf tppf ts d H 0 0 0) as [RT _]; [congruence|lia|lia|]. rewrite h9 in RT. destruct (RT Hs) as (out & time & E). rewrite E. cbn [bind fst snd].
  destruct (smooth_facts _ _ _ _ _ _ _ _ _ _ E ltac:(congruence)) as (_ & LO & TM & W). rewrite h9 in LO, TM.
  rewrite LO. replace (n - 2 * H =? 0)%nat with false by lia. do 2 eexists. split; [reflexivity|]. split; [rewrite TM; reflexivity|].
  split; [apply sqrt_pos|]. exists (fun k => fit ts d H k). split; [intros; apply fit_best|].
  assert (P : 0 < INR (n - 2 * H)) by (apply lt_0_INR; lia).
  set (w0 := mkseas 0 0 0 0 0 0 0 0 0 0 0 0). rewrite (Rsum_sumn (fun w => s_noise w ^ 2) out w0). rewrite LO.
  rewrite pow2_sqrt.
  - f_equal. apply sumn_ext. intros k Hk. f_equal. specialize (W k w0 ltac:(lia)). apply window_ok in W. cbv zeta in W. destruct W as (_ & A1 & _ & A3 & A4 & A5 & _ & A7 & _).
    rewrite A7, A5, A1, A3, A4. unfold d. rewrite series_nth by lia. fold d. unfold sig, val. ring.
  - unfold Rdiv. apply Rmult_le_pos; [|left; apply Rinv_0_lt_compat; exact P]. apply PropKernel.sumn_nonneg. intros. apply pow2_ge_0.
Qed.

Lemma delta_ok L M n ts ms Y h H : holds L M n ts ms Y h -> (2 * H < n)%nat -> (2 <= n)%nat -> (forall k, (k + 2 * H < n)%nat -> separable ts H k) -> (M <= L)%nat ->
  exists D delta, delta_field erf tppf H L M h = Ok delta /\ holds1 L M (Rmean (TsModel.slice ts H (n - H))) (Z.of_nat (n - 2 * H)) D delta /\
    forall cs l m, (m <= l <= L)%nat -> (m <= M)%nat -> residual_rms ts H n (fun t => Y t cs l m) (D cs l m).
Proof.
  intros Hh Hn N2 Hs HM.
  set (one := fun p : nat * nat => bind (coef_error erf tppf H ts (clm h) (fst p) (snd p)) (fun c => bind (coef_error erf tppf H ts (slm h) (fst p) (snd p)) (fun s => Ok (p, fst (fst c), s)))).
  set (tm := Rmean (TsModel.slice ts H (n - H))).
  assert (ONE : forall p, In p (lm_loop L M) -> exists a b, one p = Ok (p, a, (b, (n - 2 * H)%nat, tm)) /\
     residual_rms ts H n (fun t => Y t false (fst p) (snd p)) a /\ residual_rms ts H n (fun t => Y t true (fst p) (snd p)) b).
  { intros [l m] Hp. apply lm_loop_in in Hp. destruct Hp as [Hl Hm].
    destruct (coef_error_ok L M n ts ms Y h H false l m Hh Hn N2 Hs Hl Hm) as (a & t1 & E1 & T1 & R1).
    destruct (coef_error_ok L M n ts ms Y h H true l m Hh Hn N2 Hs Hl Hm) as (b & t2 & E2 & T2 & R2).
    exists a, b. unfold one. cbn [fst snd]. cbn [chan] in E1, E2. rewrite E1, E2. cbn [bind fst snd]. subst t2. auto. }
  destruct (mapM_all one (lm_loop L M)) as (es & EM). { intros p Hp. destruct (ONE p Hp) as (a & b & E & _). eauto. }
  pose proof (mapM_nth _ _ _ EM) as [LE VE].
  assert (INE : forall x, In x es -> exists p a b, In p (lm_loop L M) /\ x = (p, a, (b, (n - 2 * H)%nat, tm)) /\
     residual_rms ts H n (fun t => Y t false (fst p) (snd p)) a /\ residual_rms ts H n (fun t => Y t true (fst p) (snd p)) b).
  { intros x Hx. destruct (In_nth _ _ x Hx) as (k & Hk & Ek). specialize (VE k (0%nat, 0%nat) x ltac:(lia)).
    assert (Ip : In (nth k (lm_loop L M) (0%nat, 0%nat)) (lm_loop L M)) by (apply nth_In; lia).
    destruct (ONE _ Ip) as (a & b & E & R1 & R2). rewrite E in VE. rewrite Ek in VE. exists (nth k (lm_loop L M) (0%nat, 0%nat)), a, b. split; [exact Ip|]. split; [congruence|]. auto. }
  assert (INP : forall p, In p (lm_loop L M) -> exists x, In x es /\ fst (fst x) = p).
  { intros p Hp. destruct (In_nth _ _ p Hp) as (k & Hk & Ek). destruct (ONE p Hp) as (a & b & E & _).
    specialize (VE k p (p, a, (b, (n - 2 * H)%nat, tm)) Hk). rewrite Ek, E in VE. exists (p, a, (b, (n - 2 * H)%nat, tm)). split; [|reflexivity]. assert (X : (p, a, (b, (n - 2 * H)%nat, tm)) = nth k es (p, a, (b, (n - 2 * H)%nat, tm))) by congruence. rewrite X. apply nth_In. lia. }
  set (key := fun x : nat * nat * R * (R * nat * R) => fst (fst x)).
  assert (ND : forall x y, In x es -> In y es -> key x = key y -> x = y).
  { intros x y Hx Hy E. destruct (In_nth _ _ x Hx) as (i & Hi & Ei). destruct (In_nth _ _ y Hy) as (j & Hj & Ej).
    assert (K : forall k, (k < List.length es)%nat -> key (nth k es x) = nth k (lm_loop L M) (0%nat, 0%nat)).
    { intros k Hk. specialize (VE k (0%nat, 0%nat) x ltac:(lia)). destruct (ONE (nth k (lm_loop L M) (0%nat, 0%nat))) as (a & b & E1 & _); [apply nth_In; lia|]. rewrite E1 in VE.
      assert (X : nth k es x = (nth k (lm_loop L M) (0%nat, 0%nat), a, (b, (n - 2 * H)%nat, tm))) by congruence. rewrite X. reflexivity. }
    assert (IJ : i = j). { apply (proj1 (NoDup_nth (lm_loop L M) (0%nat, 0%nat)) (lm_loop_nodup L M)); try lia. rewrite <- (K i Hi), <- (K j Hj), Ei. rewrite (nth_indep es x y Hj), Ej. exact E. }
    subst j. rewrite <- Ei, (nth_indep es x y Hi). exact Ej. }
  unfold delta_field. destruct Hh as [h1 h2 h3 h4 h5 h6 h7 h8 h9 h10 h11]. rewrite h7. cbn [list_of bind].
  match goal with |- context [mapM ?f (lm_loop L M)] => change (mapM f (lm_loop L M)) with (mapM one (lm_loop L M)) end. rewrite EM. cbn [bind].
  destruct (fold_set_keys key (fun x _ => snd (fst x)) es (full (L + 1) (M + 1) None 0) ND) as [Sc Vc].
  destruct (fold_set_keys key (fun x _ => fst (fst (snd x))) es (full (L + 1) (M + 1) None 0) ND) as [Ss Vs].
  unfold key in Sc, Vc, Ss, Vs. cbv zeta in Sc, Vc, Ss, Vs.
  set (c := fold_left (fun (acc : arr R) (p : nat * nat * R * (R * nat * R)) => set_lm acc (fst (fst (fst p))) (snd (fst (fst p))) (fun _ : nat => snd (fst p))) es (full (L + 1) (M + 1) None 0)) in *.
  set (s := fold_left (fun (acc : arr R) (p : nat * nat * R * (R * nat * R)) => set_lm acc (fst (fst (fst p))) (snd (fst (fst p))) (fun _ : nat => fst (fst (snd p)))) es (full (L + 1) (M + 1) None 0)) in *.
  exists (fun (cs : bool) (l m : nat) => get (if cs then s else c) l m 0), (mkharm L M c s (TScalar tm) (TScalar (Z.of_nat (n - 2 * H)))). split; [|split].
  - destruct (rev es) as [|x rest] eqn:Er.
    { destruct (INP (0%nat, 0%nat)) as (x & Hx & _); [apply lm_loop_in; lia|]. apply in_rev in Hx. rewrite Er in Hx. destruct Hx. }
    assert (Hx : In x es) by (apply in_rev; rewrite Er; left; reflexivity). destruct (INE x Hx) as (p & a & b & _ & -> & _). reflexivity.
  - destruct Sc as (c1 & c2 & c3). destruct Ss as (s1 & s2 & s3). cbn [full rows cols depth] in *.
    constructor; cbn [lmax mmax clm slm time month]; try assumption; try reflexivity; try (repeat split; congruence).
  - intros cs l m Hl Hm. destruct (INP (l, m)) as (x & Hx & Kx); [apply lm_loop_in; lia|]. destruct (INE x Hx) as (p & a & b & _ & -> & R1 & R2). cbn [fst] in Kx. subst p. cbn [fst snd] in R1, R2.
    destruct (Vc l m 0%nat) as [Vc' _]. destruct (Vs l m 0%nat) as [Vs' _]. specialize (Vc' _ Hx eq_refl). specialize (Vs' _ Hx eq_refl). cbn [fst snd] in Vc', Vs'.
    destruct cs; [rewrite Vs'|rewrite Vc']; assumption.
Qed.
End Noise.

(** files *)
Lemma key_refl k : key_eqb k k = true.
Proof.
  unfold key_eqb. rewrite !String.eqb_refl, !Nat.eqb_refl, !Z.eqb_refl. destruct (k_order k), (k_destripe k), (k_atm k), (k_form k); cbn; rewrite ?Nat.eqb_refl; reflexivity.
Qed.
Lemma key_same a b : key_eqb a b = true -> a = b.
Proof.
  unfold key_eqb. rewrite !Bool.andb_true_iff. intros (((((((((A & B) & C) & D) & E) & F) & G) & H) & J) & K). destruct a as [a1 a2 a3 a4 a5 a6 a7 a8 a9 a10], b as [b1 b2 b3 b4 b5 b6 b7 b8 b9 b10]. cbn in A, B, C, D, E, F, G, H, J, K.
  apply String.eqb_eq in A, B, C. apply Nat.eqb_eq in D. apply Bool.eqb_prop in F, G. apply Z.eqb_eq in H, J. subst. f_equal.
  - destruct a5, b5; cbn in E; try discriminate E; [apply Nat.eqb_eq in E; subst|]; reflexivity.
  - destruct a10, b10; cbn in K; try discriminate K; reflexivity.
Qed.
Lemma find_none d k : not_stored d k -> find_file d k = None.
Proof.
  unfold find_file, not_stored. intros H. destruct (find _ d) as [(k' & s)|] eqn:E; [|reflexivity]. apply find_some in E. destruct E as (E1 & E2). cbn [fst] in E2. apply key_same in E2. subst. destruct (H s E1).
Qed.
Lemma find_new d k s : find_file ((k, s) :: d) k = Some s.
Proof. unfold find_file. cbn [find fst]. rewrite key_refl. reflexivity. Qed.
Lemma holds1_ext L M t mo D D' h : holds1 L M t mo D h -> (forall cs l m, (m <= l <= L)%nat -> (m <= M)%nat -> D cs l m = D' cs l m) -> holds1 L M t mo D' h.
Proof. intros [? ? ? ? ? ? ? ? V] E. constructor; auto. intros cs l m Hl Hm. rewrite V by assumption. apply E; assumption. Qed.
Lemma trunc_ok L M t mo D h lmin : holds1 L M t mo D h -> (1 <= M)%nat -> (M <= L)%nat -> holds1 L M t mo (fun cs l m => if (lmin <=? l)%nat then D cs l m else 0) (truncate h (Some L) lmin (Some M)).
Proof.
  intros [a1 a2 a3 a4 a5 a6 a7 a8 a9] HM HL. destruct (truncate_spec h L lmin M ltac:(lia)) as (b1 & b2 & b3 & b4 & b5).
  destruct (b5 clm (or_introl eq_refl)) as (c1 & c2 & c3 & c4). destruct (b5 slm (or_intror eq_refl)) as (s1 & s2 & s3 & s4). destruct a5 as (e1 & e2 & e3).
  constructor; try congruence; [repeat split; congruence|]. intros cs l m Hl Hm. destruct cs; cbn [chan].
  - rewrite s4 by lia. replace ((lmin <=? l) && (l <=? lmax h) && (m <=? mmax h))%nat with (lmin <=? l)%nat by lia. rewrite <- (a9 true) by assumption. reflexivity.
  - rewrite c4 by lia. replace ((lmin <=? l) && (l <=? lmax h) && (m <=? mmax h))%nat with (lmin <=? l)%nat by lia. rewrite <- (a9 false) by assumption. reflexivity.
Qed.
Section Files.
Context (rd rt : R -> R) (grace : R -> Z).
Lemma array_file f L M t mo D h : holds1 L M t mo D h -> (M <= L)%nat -> f <> FAscii ->
  exists s r, write_delta rd rt f h = Ok s /\ read_delta grace s = Ok r /\ holds1 L M t mo D r.
Proof.
  intros H HL Hf. pose proof (holds1_wf _ _ _ _ _ _ H) as W. destruct H as [a1 a2 a3 a4 a5 a6 a7 a8 a9].
  destruct (nc_roundtrip h [mo] W ltac:(lia)) as (x & r & E1 & E2 & b1 & b2 & b3 & b4 & (T1 & T2) & (T3 & T4)).
  - rewrite a6. exists t, mo. repeat split; assumption.
  - constructor; [intros []|constructor].
  - rewrite a6. discriminate.
  - exists (ArrayFile x), r. split; [destruct f; [congruence| |]; cbn [write_delta]; rewrite E1; reflexivity|]. split; [exact E2|].
    destruct T1 as (c1 & c2 & c3). destruct T3 as (s1 & s2 & s3). destruct a5 as (e1 & e2 & e3). constructor; try congruence; [repeat split; congruence|].
    intros cs l m Hl Hm. assert (I : inb (clm h) l m 0) by (unfold inb, nslice; rewrite a3, a4, a6; lia). assert (I' : inb (slm h) l m 0) by (unfold inb, nslice; rewrite <- e1, <- e2, <- e3, a3, a4, a6; lia).
    destruct cs; cbn [chan]; [rewrite T4 by exact I'|rewrite T2 by exact I]; replace (m <=? l)%nat with true by lia; [apply (a9 true)|apply (a9 false)]; assumption.
Qed.
Lemma text_file L M t mo D h : holds1 L M t mo D h -> (M <= L)%nat ->
  exists s r, write_delta rd rt FAscii h = Ok s /\ read_delta grace s = Ok r /\ holds1 L M (rt t) (grace (rt t)) (fun cs l m => rd (D cs l m)) r.
Proof.
  intros H HL. destruct H as [a1 a2 a3 a4 a5 a6 a7 a8 a9]. set (h' := mkharm (lmax h) (mmax h) (clm h) (slm h) (time h) (TScalar (grace (rt t)))).
  assert (W : wf h'). { split; [cbn; congruence|]. split; [cbn; congruence|]. split; [exact a5|]. cbn [h' clm]. rewrite a6. exact I. }
  destruct (ascii_roundtrip rd rt grace true h' t W ltac:(cbn; lia)) as (ls & r & E1 & E2 & b1 & b2 & b3 & b0 & b5 & b6); [repeat split; assumption|].
  exists (TextFile ls), r. split; [cbn [write_delta]; replace (to_ascii rd rt true h) with (to_ascii rd rt true h') by reflexivity; rewrite E1; reflexivity|]. split; [exact E2|].
  destruct (b5 eq_refl) as [b7 b8]. cbn [h' lmax mmax clm slm month] in *. clear E1 E2.
  assert (S : rows (clm r) = (L + 1)%nat /\ cols (clm r) = (M + 1)%nat /\ same_shape (clm r) (slm r)). { destruct b0 as (x1 & x2 & x3 & _). split; [congruence|]. split; [congruence|]. exact x3. }
  destruct S as (S1 & S2 & S3). constructor; try congruence. intros cs l m Hl Hm. destruct (b6 l m ltac:(lia) ltac:(lia)) as [V1 V2]. replace (m <=? l)%nat with true in V1, V2 by lia.
  destruct cs; cbn [chan]; [rewrite V2, <- (a9 true) by assumption|rewrite V1, <- (a9 false) by assumption]; reflexivity.
Qed.
End Files.

(** the map *)
Definition trig (cs : bool) (m : nat) (phi : R) : R := if cs then sin (INR m * phi) else cos (INR m * phi).
Lemma series_only cs0 l0 m0 (q : coefs) lmin L M th phi : (m0 <= l0 <= L)%nat -> (m0 <= M)%nat ->
  series (fun l m => if (Bool.eqb false cs0 && (l =? l0) && (m =? m0))%nat%bool then q false l m else 0) (fun l m => if (Bool.eqb true cs0 && (l =? l0) && (m =? m0))%nat%bool then q true l m else 0) lmin L M th phi =
  if (lmin <=? l0)%nat then Nlm l0 m0 (cos th) * (q cs0 l0 m0 * trig cs0 m0 phi) else 0.
Proof.
  intros Hl Hm. unfold series.
  rewrite (sumn_ext _ _ (fun m => if (m =? m0)%nat then (if (lmin <=? l0)%nat then Nlm l0 m (cos th) * (q cs0 l0 m * trig cs0 m phi) else 0) else 0)).
  - rewrite (sumn_pick (M + 1) m0 (fun m => if (lmin <=? l0)%nat then Nlm l0 m (cos th) * (q cs0 l0 m * trig cs0 m phi) else 0)) by lia. reflexivity.
  - intros m Hm'. rewrite (sumn_ext _ _ (fun l => if (l =? l0)%nat then (if (m =? m0)%nat then (if (lmin <=? l)%nat then Nlm l m (cos th) * (q cs0 l m * trig cs0 m phi) else 0) else 0) else 0)).
    + rewrite (sumn_pick (L + 1) l0 (fun l => if (m =? m0)%nat then (if (lmin <=? l)%nat then Nlm l m (cos th) * (q cs0 l m * trig cs0 m phi) else 0) else 0)) by lia. reflexivity.
    + intros l Hl'. destruct (l =? l0)%nat, (m =? m0)%nat, cs0, (lmin <=? l)%nat; cbn [Bool.eqb andb trig]; ring.
Qed.
Lemma error_grid_ok LMIN L M wt df delta t N D lon lat P dP :
  (2 <= L)%nat -> (1 <= M <= L)%nat -> List.length wt = (L + 1)%nat -> List.length df = (L + 1)%nat -> plm_holmes L (map (fun x => cos (colat x)) lat) None = Ok (P, dP) ->
  holds1 L M t N D delta -> (0 < N)%Z ->
  squared_ok M P = Ok tt /\ exists g, error_grid LMIN L M df wt lon lat P delta N = Ok g /\ rows g = List.length lat /\ cols g = List.length lon /\ depth g = None /\
    forall i k x y, nth_error lon i = Some x -> nth_error lat k = Some y -> -90 < y < 90 ->
      let u := fun cs l m => if (LMIN <=? l)%nat then Nlm l m (cos (colat y)) * (nth l df 0 * nth l wt 0 * (D cs l m / sqrt (IZR N)) * trig cs m (deg x)) else 0 in
      get g k i 0 = sqrt (sumn (M + 1) (fun m => sumn (L + 1) (fun l => if (m <=? l)%nat then u false l m ^ 2 + u true l m ^ 2 else 0))).
Proof.
  cbv zeta. intros HL HM Lw Ld E0 HD HN.
  destruct (all_tables L (map (fun x => cos (colat x)) lat) "holmes" None HL ltac:(cbn; lia) ltac:(cbn; tauto)) as (P' & dP' & E & R1 & R2 & R3 & _ & _ & _ & V).
  assert (E' : plm_holmes L (map (fun x => cos (colat x)) lat) None = Ok (P', dP')) by exact E. rewrite E0 in E'. injection E' as <- <-. clear E.
  change (ncols None L) with (L + 1)%nat in R2. split; [unfold squared_ok; rewrite R3, R2; replace (L + 1 <=? M)%nat with false by lia; reflexivity|].
  unfold error_grid. destruct (mul_ok df wt (L + 1) Ld Lw) as (f & Ef & Lf & Vf). rewrite Ef. cbn [bind].
  pose proof (trunc_ok L M t N D delta LMIN HD ltac:(lia) ltac:(lia)) as HT.
  destruct (convolve_ok L M t N _ _ f HT ltac:(lia)) as (y & Ey & HY). rewrite Ey. cbn [bind]. replace (N =? 0)%Z with false by lia. cbn [scale bind].
  eexists. split; [reflexivity|]. split; [reflexivity|]. split; [reflexivity|]. split; [reflexivity|]. intros i k x yy Hx Hy Hr. cbn [get power clm slm amap].
  rewrite (nth_error_nth lon i 0 Hx). f_equal. rewrite <- sumn_plus. apply sumn_ext. intros m Hm. rewrite <- !sumn_scal, <- sumn_plus. apply sumn_ext. intros l Hl.
  assert (PV : get P l m k = Nlm l m (cos (colat yy))).
  { destruct (V l m k (cos (colat yy)) ltac:(lia) ltac:(unfold upto_order; lia)) as [V1 _]; [apply (map_nth_error (fun x => cos (colat x))); exact Hy|]. rewrite V1, LegendreProofs.uval_in by (apply colat_cos_in; exact Hr). symmetry. apply Nlm_NU. }
  rewrite PV. assert (QN : sqrt (IZR N) * sqrt (IZR N) = IZR N) by (apply sqrt_sqrt; apply (IZR_le 0); lia).
  assert (PN : 0 < sqrt (IZR N)) by (apply sqrt_lt_R0; apply (IZR_lt 0); lia).
  destruct (Nat.leb_spec m l) as [K|K].
  - pose proof (s_val _ _ _ _ _ _ HY false l m ltac:(lia) ltac:(lia)) as V1. pose proof (s_val _ _ _ _ _ _ HY true l m ltac:(lia) ltac:(lia)) as V2. cbn [chan] in V1, V2. rewrite V1, V2, Vf by lia.
    replace (1 / IZR N) with ((/ sqrt (IZR N)) ^ 2) by (rewrite <- QN at 2; field; lra). unfold trig. unfold Rdiv.
    set (qN := / sqrt (IZR N)). clearbody qN. destruct (LMIN <=? l)%nat; ring.
  - rewrite Nlm_high by lia. ring.
Qed.
Lemma error_map_ok e wt df delta t N D lon lat :
  let r := as_maps e in let L := p_lmax r in let M := max_order r in
  (2 <= L)%nat -> (M <= L)%nat -> List.length wt = (L + 1)%nat -> degree_factor L (UCode (e_units e)) (Some (e_love e)) = Ok df -> List.length df = (L + 1)%nat ->
  grid_of (-180) (e_ddeg e) (e_interval e) (e_bounds e) lon lat -> holds1 L M t N D delta -> (0 < N)%Z ->
  exists g, error_map e wt delta N = Ok (lon, lat, g) /\ rows g = List.length lat /\ cols g = List.length lon /\ depth g = None /\
    forall i k x y, nth_error lon i = Some x -> nth_error lat k = Some y -> -90 < y < 90 ->
      let u := fun cs l m => if (e_lmin e <=? l)%nat then Nlm l m (cos (colat y)) * (nth l df 0 * nth l wt 0 * (D cs l m / sqrt (IZR N)) * trig cs m (deg x)) else 0 in
      get g k i 0 = sqrt (sumn (M + 1) (fun m => sumn (L + 1) (fun l => if (m <=? l)%nat then u false l m ^ 2 + u true l m ^ 2 else 0))).
Proof.
  cbv zeta. intros HL HM Lw Ed Ld (dlon & dlat & Hs & Ha) HD HN. pose proof (mo_pos (as_maps e) HL) as HM1.
  unfold error_map. change (e_lmax e) with (p_lmax (as_maps e)). change (order_of (p_lmax (as_maps e)) (e_mmax e)) with (max_order (as_maps e)).
  rewrite (steps_ok _ _ _ Hs). cbn [bind fst snd]. rewrite (axes_ok _ _ _ _ _ _ _ Ha). cbn [bind]. rewrite Ed. cbn [bind].
  destruct (holmes_rows (p_lmax (as_maps e)) (map (fun x => cos (colat x)) lat) HL) as (P & dP & EP & _). rewrite EP. cbn [bind fst].
  destruct (error_grid_ok (e_lmin e) _ _ wt df delta t N D lon lat P dP HL (conj HM1 HM) Lw Ld EP HD HN) as (SQ & g & EG & G). rewrite SQ. cbn [bind]. rewrite EG. cbn [bind].
  exists g. split; [reflexivity|]. exact G.
Qed.
Lemma error_at_ok e wt df D N x y v : let r := as_maps e in
  (forall l, (l <= p_lmax r)%nat -> unit_factor (e_units e) (e_love e) l (nth l df 0)) -> (forall l, (l <= p_lmax r)%nat -> gauss_weight (e_rad e) l (nth l wt 0)) ->
  (let u := fun cs l m => if (e_lmin e <=? l)%nat then Nlm l m (cos (colat y)) * (nth l df 0 * nth l wt 0 * (D cs l m / sqrt N) * trig cs m (deg x)) else 0 in
   v = sqrt (sumn (max_order r + 1) (fun m => sumn (p_lmax r + 1) (fun l => if (m <=? l)%nat then u false l m ^ 2 + u true l m ^ 2 else 0)))) ->
  error_at r D N x y v.
Proof.
  cbv zeta. intros Vd Vw ->. split; [apply sqrt_pos|].
  exists (fun cs l m => if (e_lmin e <=? l)%nat then Nlm l m (cos (colat y)) * (nth l df 0 * nth l wt 0 * (D cs l m / sqrt N) * trig cs m (deg x)) else 0). split.
  - intros cs l m Hl Hm. exists (fun l => nth l df 0), (fun l => nth l wt 0). split; [intros k Hk; split; [apply Vd|apply Vw]; exact Hk|].
    rewrite <- (series_only cs l m (fun cs l m => nth l df 0 * nth l wt 0 * (D cs l m / sqrt N)) (e_lmin e) (p_lmax (as_maps e)) (max_order (as_maps e)) (colat y) (deg x) Hl Hm).
    change (p_lmin (as_maps e)) with (e_lmin e). apply series_ext2. intros l' m' _ _. unfold only. split.
    + destruct cs, (Nat.eqb_spec l' l) as [->|], (Nat.eqb_spec m' m) as [->|]; cbn [Bool.eqb andb]; ring.
    + destruct cs, (Nat.eqb_spec l' l) as [->|], (Nat.eqb_spec m' m) as [->|]; cbn [Bool.eqb andb]; ring.
  - apply pow2_sqrt. apply PropKernel.sumn_nonneg. intros m _. apply PropKernel.sumn_nonneg. intros l _. destruct (m <=? l)%nat; [|lra]. apply Rplus_le_le_0_compat; apply pow2_ge_0.
Qed.

Section Run.
Context (erf : R -> R) (tppf : R -> Z -> R) (rd rt : R -> R) (grace : R -> Z).
Let prog := grace_spatial_error erf tppf rd rt grace.

Lemma last_get (ms : list Z) n : List.length ms = n -> (1 <= n)%nat -> py_get ms 0 = Ok (nth 0 ms 0%Z) /\ py_get ms (-1) = Ok (nth (List.length ms - 1) ms 0%Z).
Proof.
  intros Hl Hn. unfold py_get. rewrite Hl. change (0 <? 0)%Z with false. change (-1 <? 0)%Z with true. cbv iota.
  replace ((0 <=? 0) && (0 <? Z.of_nat n))%Z with true by lia. replace ((0 <=? -1 + Z.of_nat n) && (-1 + Z.of_nat n <? Z.of_nat n))%Z with true by lia.
  change (Z.to_nat 0) with 0%nat. replace (Z.to_nat (-1 + Z.of_nat n)) with (n - 1)%nat by lia.
  rewrite (nth_error_nth' ms (n := 0) 0%Z) by lia. rewrite (nth_error_nth' ms (n := (n - 1)%nat) 0%Z) by lia. split; reflexivity.
Qed.
(** everything before the coefficient errors *)
Lemma prelude e n ts ms : errors_ok e n ts ms -> settings_ok (as_maps e) ->
  exists wt df h, (forall d, prog e d = let r := get_delta erf tppf rd rt grace e (error_file e ms) h d in (fst r, bind (snd r) (fun dn => error_map e wt (fst dn) (snd dn)))) /\
    holds (p_lmax (as_maps e)) (max_order (as_maps e)) n ts ms (fun t => coefficient e n t) h /\
    List.length wt = (p_lmax (as_maps e) + 1)%nat /\ (forall l, (l <= p_lmax (as_maps e))%nat -> gauss_weight (e_rad e) l (nth l wt 0)) /\
    degree_factor (p_lmax (as_maps e)) (UCode (e_units e)) (Some (e_love e)) = Ok df /\ List.length df = (p_lmax (as_maps e) + 1)%nat /\
    (forall l, (l <= p_lmax (as_maps e))%nat -> unit_factor (e_units e) (e_love e) l (nth l df 0)).
Proof.
  intros (V & Hn & Hs) (HR & HLv & name & HU). pose proof (g_degree _ _ _ _ _ V) as HL. destruct (months_len _ _ _ _ _ V) as [L1 L2]. pose proof (g_months _ _ _ _ _ V) as Hn2.
  destruct (factors_all _ _ _ _ HU HLv) as (df & Ed & Ld & Vd). destruct (weights_all (p_rad (as_maps e)) (p_lmax (as_maps e)) ltac:(lia) HR) as (wt & Ew & Lw & Vw).
  destruct (centred_ok _ _ _ _ _ V) as (h1 & E1 & K1). destruct (maybe_destripe_ok (p_destripe (as_maps e)) _ _ _ _ _ _ _ K1 ltac:(lia)) as (h2 & E2 & K2).
  exists wt, df, h2. split; [|split; [exact K2|repeat (split; [assumption|]); assumption]]. intros d. unfold prog, grace_spatial_error.
  change (smoothing (p_rad (as_maps e)) (p_lmax (as_maps e))) with (smoothing (e_rad e) (e_lmax e)) in Ew. rewrite Ew. cbn [bind].
  change (centred (p_grace (as_maps e)) (p_mean (as_maps e))) with (centred (e_grace e) (e_mean e)) in E1. rewrite E1. cbn [bind].
  change (p_destripe (as_maps e)) with (e_destripe e) in E2. rewrite E2. cbn [bind]. destruct K2 as [h1' h2' h3' h4' h5' h6' h7' h8' h9' h10' h11']. rewrite h8'. cbn [list_of bind].
  destruct (last_get ms n L2 ltac:(lia)) as [G1 G2]. rewrite G1, G2. cbn [bind]. reflexivity.
Qed.
(** a run without a file of coefficient errors *)
Lemma fresh e n ts ms d lon lat : errors_ok e n ts ms -> settings_ok (as_maps e) -> grid_of (-180) (e_ddeg e) (e_interval e) (e_bounds e) lon lat ->
  not_stored d (error_file e ms) ->
  exists D delta s g tm, prog e d = ((error_file e ms, s) :: d, Ok (lon, lat, g)) /\ write_delta rd rt (e_form e) delta = Ok s /\
    holds1 (p_lmax (as_maps e)) (max_order (as_maps e)) tm (Z.of_nat (n - 2 * half_window e)) D delta /\ tm = Rmean (TsModel.slice ts (half_window e) (n - half_window e)) /\
    (forall cs l m, (m <= l <= p_lmax (as_maps e))%nat -> (m <= max_order (as_maps e))%nat -> residual_rms ts (half_window e) n (fun t => coefficient e n t cs l m) (D cs l m)) /\
    rows g = List.length lat /\ cols g = List.length lon /\ depth g = None /\
    forall i k x y, nth_error lon i = Some x -> nth_error lat k = Some y -> -90 < y < 90 -> error_at (as_maps e) D (INR (n - 2 * half_window e)) x y (get g k i 0).
Proof.
  intros V HS HG HF. destruct (prelude e n ts ms V HS) as (wt & df & h & EP & K & Lw & Vw & Ed & Ld & Vd). destruct V as (V & Hn & Hsep). pose proof (g_degree _ _ _ _ _ V) as HL. pose proof (g_order _ _ _ _ _ V) as HM. pose proof (g_months _ _ _ _ _ V) as Hn2.
  destruct (delta_ok erf tppf _ _ n ts ms _ h (half_window e) K Hn Hn2 Hsep HM) as (D & delta & E1 & K1 & RD).
  assert (WS : exists s, write_delta rd rt (e_form e) delta = Ok s).
  { destruct (e_form e) eqn:Ef; [destruct (text_file rd rt grace _ _ _ _ _ _ K1 HM) as (s & _ & E & _); eauto|..];
      destruct (array_file rd rt grace (e_form e) _ _ _ _ _ _ K1 HM) as (s & _ & E & _); try congruence; rewrite Ef in E; eauto. }
  destruct WS as (s & ES).
  destruct (error_map_ok e wt df delta _ (Z.of_nat (n - 2 * half_window e)) D lon lat HL HM Lw Ed Ld HG K1 ltac:(lia)) as (g & EG & G1 & G2 & G3 & G4).
  exists D, delta, s, g. eexists. split; [|split; [exact ES|split; [exact K1|split; [reflexivity|split; [exact RD|split; [exact G1|split; [exact G2|split; [exact G3|]]]]]]]].
  - rewrite EP. unfold get_delta. rewrite (find_none _ _ HF), half_ok. change (e_lmax e) with (p_lmax (as_maps e)). change (order_of (p_lmax (as_maps e)) (e_mmax e)) with (max_order (as_maps e)). rewrite E1, ES.
    cbv zeta. cbn [fst snd]. rewrite (s_ms _ _ _ _ _ _ K1). cbn [scalar bind fst snd]. rewrite EG. reflexivity.
  - intros i k x y Hx Hy Hr. apply (error_at_ok e wt df D _ x y _ Vd Vw). cbv zeta. rewrite (G4 i k x y Hx Hy Hr), <- INR_IZR_INZ. reflexivity.
Qed.
(** a run that finds such a file *)
Lemma reused e n ts ms d lon lat s r tm N D : errors_ok e n ts ms -> settings_ok (as_maps e) -> grid_of (-180) (e_ddeg e) (e_interval e) (e_bounds e) lon lat ->
  find_file d (error_file e ms) = Some s -> read_delta grace s = Ok r -> holds1 (p_lmax (as_maps e)) (max_order (as_maps e)) tm N D r -> (0 < N)%Z ->
  exists g, prog e d = (d, Ok (lon, lat, g)) /\ rows g = List.length lat /\ cols g = List.length lon /\ depth g = None /\
    forall i k x y, nth_error lon i = Some x -> nth_error lat k = Some y -> -90 < y < 90 -> error_at (as_maps e) D (IZR N) x y (get g k i 0).
Proof.
  intros V HS HG HF ER K1 HN. destruct (prelude e n ts ms V HS) as (wt & df & h & EP & _ & Lw & Vw & Ed & Ld & Vd). destruct V as (V & Hn & Hsep). pose proof (g_degree _ _ _ _ _ V) as HL. pose proof (g_order _ _ _ _ _ V) as HM.
  pose proof (trunc_ok _ _ tm N D r 0 K1 ltac:(pose proof (mo_pos _ HL); lia) HM) as KT. cbn [Nat.leb] in KT.
  destruct (error_map_ok e wt df _ tm N D lon lat HL HM Lw Ed Ld HG KT HN) as (g & EG & G1 & G2 & G3 & G4).
  exists g. split; [|split; [exact G1|split; [exact G2|split; [exact G3|]]]].
  - rewrite EP. unfold get_delta. rewrite HF. change (e_lmax e) with (p_lmax (as_maps e)). change (order_of (p_lmax (as_maps e)) (e_mmax e)) with (max_order (as_maps e)).
    cbv zeta. cbn [fst snd]. rewrite ER. cbn [bind]. rewrite (s_ms _ _ _ _ _ _ KT). cbn [scalar bind fst snd]. rewrite EG. reflexivity.
  - intros i k x y Hx Hy Hr. apply (error_at_ok e wt df D _ x y _ Vd Vw). cbv zeta. rewrite (G4 i k x y Hx Hy Hr). reflexivity.
Qed.
End Run.

(** ** uniqueness and scaling *)
Lemma wahr_unique l h k ll name v v' : wahr l h k ll name v -> wahr l h k ll name v' -> v = v'.
Proof. intros A B. destruct A; inversion B; subst; reflexivity. Qed.
Lemma code_unique c a b : unit_code c a -> unit_code c b -> a = b.
Proof. intros A B. apply C40_documented_codes in A. apply C40_documented_codes in B. congruence. Qed.
Lemma factor_unique c love l v v' : unit_factor c love l v -> unit_factor c love l v' -> v = v'.
Proof. destruct love as [[h k] ll]. intros (a & A1 & A2) (b & B1 & B2). rewrite (code_unique _ _ _ B1 A1) in B2. eapply wahr_unique; eassumption. Qed.
Lemma weight_unique RAD l w w' : radius_ok RAD -> gauss_weight RAD l w -> gauss_weight RAD l w' -> w = w'.
Proof.
  intros HR [[A1 A2]|(A1 & b & A2 & A3)] [[B1 B2]|(B1 & b' & B2 & B3)]; try (exfalso; Lra.lra); [congruence|]. destruct HR as [HR|HR]; [exfalso; Lra.lra|].
  rewrite (half_unique _ _ HR A2) in A3. rewrite (half_unique _ _ HR B2) in B3. congruence.
Qed.
Lemma map_unique r Y x y v v' : settings_ok r -> map_of r Y x y v -> map_of r Y x y v' -> v = v'.
Proof.
  intros (HR & _) (f & w & A & ->) (f' & w' & B & ->). apply series_ext2. intros l m Hl Hm. destruct (A l Hl) as [A1 A2]. destruct (B l Hl) as [B1 B2].
  rewrite (factor_unique _ _ _ _ _ A1 B1), (weight_unique _ _ _ _ HR A2 B2). split; reflexivity.
Qed.
Lemma map_scale r Y Z a x y v : (forall cs l m, Z cs l m = a * Y cs l m) -> map_of r Y x y v -> map_of r Z x y (a * v).
Proof.
  intros E (f & w & A & ->). exists f, w. split; [exact A|].
  match goal with |- a * series ?c ?s _ _ _ _ _ = _ => transitivity (a * series c s (p_lmin r) (p_lmax r) (max_order r) (colat y) (deg x) + 0 * series c s (p_lmin r) (p_lmax r) (max_order r) (colat y) (deg x)); [ring|] end.
  rewrite <- series_lin. apply series_ext2. intros l m _ _. rewrite !E. split; ring.
Qed.
Lemma map_zero r Y x y v : (forall cs l m, Y cs l m = 0) -> map_of r Y x y v -> v = 0.
Proof. intros E (f & w & A & ->). rewrite <- (series_zero (p_lmin r) (p_lmax r) (max_order r) (colat y) (deg x)). apply series_ext2. intros. rewrite !E. split; ring. Qed.
Lemma sq_unique a b : 0 <= a -> 0 <= b -> a ^ 2 = b ^ 2 -> a = b.
Proof. intros A B E. apply Rsqr_inj; auto. unfold Rsqr. simpl in E. Lra.lra. Qed.
Lemma error_unique r D D' N x y v v' : settings_ok r -> (forall cs l m, (m <= l <= p_lmax r)%nat -> (m <= max_order r)%nat -> D cs l m = D' cs l m) ->
  error_at r D N x y v -> error_at r D' N x y v' -> v = v'.
Proof.
  intros HS ED (P & u & U & E) (P' & u' & U' & E'). apply sq_unique; auto. rewrite E, E'. apply sumn_ext. intros m Hm. apply sumn_ext. intros l Hl. destruct (Nat.leb_spec m l) as [K|K]; [|reflexivity].
  assert (Q : forall cs, u cs l m = u' cs l m). { intros cs. specialize (U cs l m ltac:(lia) ltac:(lia)). specialize (U' cs l m ltac:(lia) ltac:(lia)). rewrite ED in U by lia. eapply map_unique; eassumption. }
  rewrite !Q. reflexivity.
Qed.
Lemma error_scale r D N N' x y v : 0 < N -> 0 < N' -> error_at r D N x y v -> error_at r D N' x y (sqrt N / sqrt N' * v).
Proof.
  intros HN HN' (P & u & U & E). pose proof (sqrt_lt_R0 N HN) as S. pose proof (sqrt_lt_R0 N' HN') as S'.
  assert (Q : 0 < sqrt N / sqrt N') by (apply Rdiv_lt_0_compat; assumption). split; [apply Rmult_le_pos; Lra.lra|].
  exists (fun cs l m => sqrt N / sqrt N' * u cs l m). split.
  - intros cs l m Hl Hm. eapply map_scale; [|apply U; assumption]. intros cs' l' m'. unfold only. destruct (_ && _)%bool; [field; Lra.lra|ring].
  - rewrite Rpow_mult_distr, E, <- sumn_scal. apply sumn_ext. intros m _. rewrite <- sumn_scal. apply sumn_ext. intros l _. destruct (m <=? l)%nat; ring.
Qed.
Lemma error_zero r D N x y v : (forall cs l m, (m <= l <= p_lmax r)%nat -> (m <= max_order r)%nat -> D cs l m = 0) -> error_at r D N x y v -> v = 0.
Proof.
  intros Z (P & u & U & E). apply sq_unique; [exact P|Lra.lra|]. rewrite E. rewrite (sumn_ext _ _ (fun _ => 0)); [rewrite sumn_zero; ring|]. intros m Hm.
  rewrite (sumn_ext _ _ (fun _ => 0)); [apply sumn_zero|]. intros l Hl. destruct (Nat.leb_spec m l) as [K|K]; [|reflexivity].
  assert (Q : forall cs, u cs l m = 0). { intros cs. specialize (U cs l m ltac:(lia) ltac:(lia)). eapply map_zero; [|exact U]. intros cs' l' m'. unfold only. destruct (_ && _)%bool; [|reflexivity]. rewrite Z by lia. unfold Rdiv. ring. }
  rewrite !Q. ring.
Qed.
(** signals *)
Definition splus (a b : signal) : signal := mksig (g_c a + g_c b) (g_trend a + g_trend b) (g_as a + g_as b) (g_ac a + g_ac b) (g_ss a + g_ss b) (g_sc a + g_sc b).
Definition sopp (a : signal) : signal := mksig (- g_c a) (- g_trend a) (- g_as a) (- g_ac a) (- g_ss a) (- g_sc a).
Lemma sig_plus a b x : sig (splus a b) x = sig a x + sig b x.
Proof. unfold sig, PropSmooth.line, annual, semiannual, splus. cbn [g_c g_trend g_as g_ac g_ss g_sc]. ring. Qed.
Lemma sig_opp a x : sig (sopp a) x = - sig a x.
Proof. unfold sig, PropSmooth.line, annual, semiannual, sopp. cbn [g_c g_trend g_as g_ac g_ss g_sc]. ring. Qed.
Lemma rms_unique ts H n y v v' : (forall k, (k + 2 * H < n)%nat -> separable ts H k) -> residual_rms ts H n y v -> residual_rms ts H n y v' -> v = v'.
Proof.
  intros S (P & g & B & E) (P' & g' & B' & E'). apply sq_unique; auto. rewrite E, E'. f_equal. apply sumn_ext. intros k Hk. specialize (S k ltac:(lia)).
  rewrite (best_fit _ _ _ _ _ S (B k Hk)), (best_fit _ _ _ _ _ S (B' k Hk)). reflexivity.
Qed.
Lemma misfit_shift ts H n y y' s k g : (k < n - 2 * H)%nat -> (forall t, (t < n)%nat -> y' t = y t + sig s (nth t ts 0)) ->
  misfit ts (map y' (seq 0 n)) H k (sig (splus g s)) = misfit ts (map y (seq 0 n)) H k (sig g).
Proof. intros Hk E. unfold misfit. apply rsum_ext. intros i Hi. rewrite !series_nth by lia. rewrite E by lia. rewrite sig_plus. unfold val. f_equal. ring. Qed.
Lemma rms_shift ts H n y y' s v : (forall t, (t < n)%nat -> y' t = y t + sig s (nth t ts 0)) -> residual_rms ts H n y v -> residual_rms ts H n y' v.
Proof.
  intros E (P & g & B & Q). split; [exact P|]. exists (fun k => splus (g k) s). split.
  - intros k Hk g'. rewrite (misfit_shift ts H n y y' s k (g k) Hk E).
    assert (X : misfit ts (map y' (seq 0 n)) H k (sig g') = misfit ts (map y (seq 0 n)) H k (sig (splus g' (sopp s)))).
    { rewrite <- (misfit_shift ts H n y y' s k (splus g' (sopp s)) Hk E). unfold misfit. apply rsum_ext. intros i _. rewrite !sig_plus, sig_opp. f_equal. ring. }
    rewrite X. apply B. exact Hk.
  - rewrite Q. f_equal. apply sumn_ext. intros k Hk. rewrite E by lia. rewrite sig_plus. f_equal. ring.
Qed.
Lemma rms_zero ts H n y v : (forall k, (k + 2 * H < n)%nat -> separable ts H k) -> (exists s, forall t, (t < n)%nat -> y t = sig s (nth t ts 0)) -> residual_rms ts H n y v -> v = 0.
Proof.
  intros S (s & E) (P & g & B & Q). apply sq_unique; [exact P|Lra.lra|]. rewrite Q. rewrite (sumn_ext _ _ (fun _ => 0)); [rewrite sumn_zero; unfold Rdiv; ring|]. intros k Hk.
  specialize (S k ltac:(lia)). rewrite (best_fit _ _ _ _ _ S (B k Hk)). rewrite <- (best_fit _ _ _ _ s S).
  - rewrite E by lia. ring.
  - apply exact_best. intros i Hi. rewrite series_nth by lia. apply E. lia.
Qed.
(** the filter of a field of signals is a field of signals *)
Definition bas (j : nat) (x : R) : R := match j with 0%nat => 1 | 1%nat => x | 2%nat => sin (2 * PI * x) | 3%nat => cos (2 * PI * x) | 4%nat => sin (4 * PI * x) | _ => cos (4 * PI * x) end.
Lemma sig_bas g x : sig g x = sumn 6 (fun j => bas j x * vec g j).
Proof. cbn [sumn bas vec]. unfold sig, PropSmooth.line, annual, semiannual. ring. Qed.
Lemma filter_signal r (G : bool -> nat -> nat -> signal) cs l m : (2 <= p_lmax r)%nat -> (m <= l <= p_lmax r)%nat -> (m <= max_order r)%nat ->
  exists s, forall x, filtered r (fun cs l m => sig (G cs l m) x) cs l m = sig s x.
Proof.
  intros HL Hl Hm. exists (unvec (fun j => filtered r (fun cs l m => vec (G cs l m) j) cs l m)). intros x.
  rewrite (filtered_ext r _ (fun cs l m => sumn 6 (fun j => bas j x * vec (G cs l m) j))) by (auto; intros; apply sig_bas).
  rewrite <- (filtered_sum r 6 (fun j cs l m => bas j x * vec (G cs l m) j)) by assumption.
  rewrite sig_bas. apply sumn_ext. intros j Hj. rewrite vec_unvec by exact Hj.
  rewrite (filtered_ext r _ (fun cs l m => bas j x * vec (G cs l m) j + 0 * vec (G cs l m) j)) by (auto; intros; ring). rewrite filtered_lin by assumption. ring.
Qed.
(** the same run with other GRACE fields *)
Definition with_data (e : erun) (h : harm) : erun :=
  mkerun (e_proc e) (e_drel e) (e_dset e) (e_lmax e) (e_rad e) (e_lmin e) (e_mmax e) (e_love e) (e_destripe e) (e_units e) (e_ddeg e) (e_interval e) (e_bounds e) (e_atm e) (e_form e) h (e_mean e).
Lemma coefficient_shift e n ts h G cs l m : (2 <= p_lmax (as_maps e))%nat -> (1 <= n)%nat -> (m <= l <= p_lmax (as_maps e))%nat -> (m <= max_order (as_maps e))%nat ->
  (forall t cs l m, (t < n)%nat -> (m <= l <= e_lmax e)%nat -> (m <= max_order (as_maps e))%nat -> part h t cs l m = part (e_grace e) t cs l m + sig (G cs l m) (nth t ts 0)) ->
  exists s, forall t, (t < n)%nat -> coefficient (with_data e h) n t cs l m = coefficient e n t cs l m + sig s (nth t ts 0).
Proof.
  intros HL Hn Hl Hm E.
  set (c := fun cs l m => match e_mean e with Some _ => 0 | None => sumn n (fun u => sig (G cs l m) (nth u ts 0)) / INR n end).
  destruct (filter_signal (as_maps e) (fun cs l m => splus (G cs l m) (mksig (- c cs l m) 0 0 0 0 0)) cs l m HL Hl Hm) as (s & Hs). exists s. intros t Ht. rewrite <- Hs. clear Hs.
  unfold coefficient. change (filtered (as_maps (with_data e h))) with (filtered (as_maps e)).
  rewrite (filtered_ext (as_maps e) _ (fun cs l m => 1 * (part (e_grace e) t cs l m - reference (as_maps e) n cs l m) + 1 * sig (splus (G cs l m) (mksig (- c cs l m) 0 0 0 0 0)) (nth t ts 0))); auto.
  - rewrite filtered_lin by assumption. ring.
  - intros j Hj. rewrite sig_plus. replace (sig (mksig (- c cs j m) 0 0 0 0 0) (nth t ts 0)) with (- c cs j m) by (unfold sig, PropSmooth.line, annual, semiannual; cbn [g_c g_trend g_as g_ac g_ss g_sc]; ring).
    unfold reference, c. change (e_grace (with_data e h)) with h. change (p_mean (as_maps (with_data e h))) with (e_mean e). change (p_mean (as_maps e)) with (e_mean e). change (p_grace (as_maps (with_data e h))) with h. change (p_grace (as_maps e)) with (e_grace e).
    rewrite E by assumption. destruct (e_mean e); [ring|].
    rewrite (sumn_ext n (fun u => part h u cs j m) (fun u => part (e_grace e) u cs j m + sig (G cs j m) (nth u ts 0))) by (intros; apply E; assumption). rewrite sumn_plus. field. apply not_0_INR. lia.
Qed.

(** ** C100 *)
(** A first run (no file of coefficient errors with the name of this run): the map is the propagation of the root mean square of the residuals of every coefficient,
    divided by the root of the number of smoothed months *)
Theorem C100_map : forall erf tppf rd rt grace e n ts ms d lon lat, errors_ok e n ts ms -> settings_ok (as_maps e) -> grid_of (-180) (e_ddeg e) (e_interval e) (e_bounds e) lon lat ->
  not_stored d (error_file e ms) ->
  exists d' g D, grace_spatial_error erf tppf rd rt grace e d = (d', Ok (lon, lat, g)) /\
    (forall cs l m, (m <= l <= e_lmax e)%nat -> (m <= max_order (as_maps e))%nat -> residual_rms ts (half_window e) n (fun t => coefficient e n t cs l m) (D cs l m)) /\
    rows g = List.length lat /\ cols g = List.length lon /\ depth g = None /\
    forall i k x y, nth_error lon i = Some x -> nth_error lat k = Some y -> -90 < y < 90 -> error_at (as_maps e) D (INR (n - 2 * half_window e)) x y (get g k i 0).
Proof.
  intros erf tppf rd rt grace e n ts ms d lon lat V HS HG HF. destruct (fresh erf tppf rd rt grace e n ts ms d lon lat V HS HG HF) as (D & delta & s & g & tm & E & _ & _ & _ & RD & G).
  exists ((error_file e ms, s) :: d), g, D. split; [exact E|]. split; [exact RD|exact G].
Qed.
Print Assumptions C100_map.

(** an error of a single coefficient changes the map of C97 by u: the maps of two fields that differ by D/sqrt N in the coefficient (cs, l, m) differ by u *)
Theorem C100_propagation : forall r Y cs l m v x y a b u, settings_ok r -> map_of r Y x y a -> map_of r (fun cs' l' m' => Y cs' l' m' + only cs l m v cs' l' m') x y b ->
  map_of r (only cs l m v) x y u -> b = a + u.
Proof.
  intros r Y cs l m v x y a b u HS (f & w & A & ->) HB (f' & w' & B & ->). eapply map_unique; [exact HS|exact HB|]. exists f, w. split; [exact A|].
  assert (K : forall l', (l' <= p_lmax r)%nat -> f' l' * w' l' = f l' * w l').
  { intros l' Hl. destruct (A l' Hl) as [A1 A2]. destruct (B l' Hl) as [B1 B2]. destruct HS as (HR & _). rewrite (factor_unique _ _ _ _ _ A1 B1), (weight_unique _ _ _ _ HR A2 B2). reflexivity. }
  match goal with |- ?p + ?q = _ => transitivity (1 * p + 1 * q); [ring|] end.
  rewrite <- series_lin. apply series_ext2. intros l' m' Hl _. pose proof (K l' ltac:(lia)) as K1. split; rewrite K1; ring.
Qed.
Print Assumptions C100_propagation.

(** a constant, a trend, annual and semi-annual signals in the coefficients do not change the error, with any mean field and with destriping *)
Theorem C100_invariant : forall erf tppf rd rt grace e h G n ts ms d lon lat, errors_ok e n ts ms -> errors_ok (with_data e h) n ts ms -> settings_ok (as_maps e) ->
  grid_of (-180) (e_ddeg e) (e_interval e) (e_bounds e) lon lat -> not_stored d (error_file e ms) ->
  (forall t cs l m, (t < n)%nat -> (m <= l <= e_lmax e)%nat -> (m <= max_order (as_maps e))%nat -> part h t cs l m = part (e_grace e) t cs l m + sig (G cs l m) (nth t ts 0)) ->
  exists d1 d2 g1 g2, grace_spatial_error erf tppf rd rt grace e d = (d1, Ok (lon, lat, g1)) /\ grace_spatial_error erf tppf rd rt grace (with_data e h) d = (d2, Ok (lon, lat, g2)) /\
    forall i k x y, nth_error lon i = Some x -> nth_error lat k = Some y -> -90 < y < 90 -> get g2 k i 0 = get g1 k i 0.
Proof.
  intros erf tppf rd rt grace e h G n ts ms d lon lat V V' HS HG HF E.
  destruct (fresh erf tppf rd rt grace e n ts ms d lon lat V HS HG HF) as (D & delta & s & g & tm & E1 & _ & _ & _ & RD & _ & _ & _ & Q).
  destruct (fresh erf tppf rd rt grace (with_data e h) n ts ms d lon lat V' HS HG HF) as (D' & delta' & s' & g' & tm' & E1' & _ & _ & _ & RD' & _ & _ & _ & Q').
  do 4 eexists. split; [exact E1|]. split; [exact E1'|]. intros i k x y Hx Hy Hr. symmetry. destruct V as (V & Hn & Hsep). pose proof (g_degree _ _ _ _ _ V) as HL. pose proof (g_months _ _ _ _ _ V) as Hn2.
  apply (error_unique (as_maps e) D D' (INR (n - 2 * half_window e)) x y _ _ HS); [|exact (Q i k x y Hx Hy Hr)|exact (Q' i k x y Hx Hy Hr)].
  intros cs l m Hl Hm. destruct (coefficient_shift e n ts h G cs l m HL ltac:(lia) Hl Hm E) as (sg & Hsg).
  apply (rms_unique ts (half_window e) n (fun t => coefficient (with_data e h) n t cs l m)); [exact Hsep| |exact (RD' cs l m Hl Hm)].
  apply (rms_shift ts (half_window e) n (fun t => coefficient e n t cs l m) _ sg); [exact Hsg|]. apply RD; assumption.
Qed.
Print Assumptions C100_invariant.

(** data without noise have no error *)
Theorem C100_exact : forall erf tppf rd rt grace e G n ts ms d lon lat, errors_ok e n ts ms -> settings_ok (as_maps e) -> grid_of (-180) (e_ddeg e) (e_interval e) (e_bounds e) lon lat ->
  not_stored d (error_file e ms) ->
  (forall t cs l m, (t < n)%nat -> (m <= l <= e_lmax e)%nat -> (m <= max_order (as_maps e))%nat -> part (e_grace e) t cs l m - match e_mean e with Some f => part f 0 cs l m | None => 0 end = sig (G cs l m) (nth t ts 0)) ->
  exists d' g, grace_spatial_error erf tppf rd rt grace e d = (d', Ok (lon, lat, g)) /\
    forall i k x y, nth_error lon i = Some x -> nth_error lat k = Some y -> -90 < y < 90 -> get g k i 0 = 0.
Proof.
  intros erf tppf rd rt grace e G n ts ms d lon lat V HS HG HF E.
  destruct (fresh erf tppf rd rt grace e n ts ms d lon lat V HS HG HF) as (D & delta & s & g & tm & E1 & _ & _ & _ & RD & _ & _ & _ & Q).
  do 2 eexists. split; [exact E1|]. intros i k x y Hx Hy Hr. destruct V as (V & Hn & Hsep). pose proof (g_degree _ _ _ _ _ V) as HL. pose proof (g_months _ _ _ _ _ V) as Hn2.
  eapply error_zero; [|exact (Q i k x y Hx Hy Hr)]. intros cs l m Hl Hm. apply (rms_zero ts (half_window e) n (fun t => coefficient e n t cs l m)); [exact Hsep| |apply RD; assumption].
  set (c := fun cs l m => match e_mean e with Some _ => 0 | None => sumn n (fun u => part (e_grace e) u cs l m) / INR n end).
  destruct (filter_signal (as_maps e) (fun cs l m => splus (G cs l m) (mksig (- c cs l m) 0 0 0 0 0)) cs l m HL Hl Hm) as (sg & Hs). exists sg. intros t Ht. rewrite <- Hs. unfold coefficient.
  apply filtered_ext; auto. intros j Hj. rewrite sig_plus, <- E by assumption.
  replace (sig (mksig (- c cs j m) 0 0 0 0 0) (nth t ts 0)) with (- c cs j m) by (unfold sig, PropSmooth.line, annual, semiannual; cbn [g_c g_trend g_as g_ac g_ss g_sc]; ring).
  unfold reference, c. change (p_mean (as_maps e)) with (e_mean e). change (p_grace (as_maps e)) with (e_grace e). destruct (e_mean e); ring.
Qed.
Print Assumptions C100_exact.

Lemma same_file e1 e2 ms1 ms2 : error_file e1 ms1 = error_file e2 ms2 -> p_lmax (as_maps e1) = p_lmax (as_maps e2) /\ max_order (as_maps e1) = max_order (as_maps e2) /\ half_window e1 = half_window e2 /\ e_form e1 = e_form e2.
Proof.
  intros E. unfold error_file in E. injection E as A1 A2 A3 A4 A5 A6 A7 A8 A9 A10.
  assert (L : p_lmax (as_maps e1) = p_lmax (as_maps e2)) by exact A4. split; [exact L|]. split; [|split; [unfold half_window; rewrite A1, A2; reflexivity|exact A10]].
  destruct (Nat.eqb_spec (max_order (as_maps e1)) (e_lmax e1)) as [B1|B1], (Nat.eqb_spec (max_order (as_maps e2)) (e_lmax e2)) as [B2|B2]; congruence.
Qed.
(** a later run whose file has the same name, netCDF4 or HDF5: the map is made from the errors [D] and the number of months of the FIRST run, whatever the data of the second *)
Theorem C100_second_run : forall erf tppf rd rt grace e1 e2 n1 n2 ts1 ts2 ms1 ms2 d lon1 lat1 lon2 lat2, errors_ok e1 n1 ts1 ms1 -> errors_ok e2 n2 ts2 ms2 -> settings_ok (as_maps e1) -> settings_ok (as_maps e2) ->
  grid_of (-180) (e_ddeg e1) (e_interval e1) (e_bounds e1) lon1 lat1 -> grid_of (-180) (e_ddeg e2) (e_interval e2) (e_bounds e2) lon2 lat2 ->
  not_stored d (error_file e1 ms1) -> error_file e1 ms1 = error_file e2 ms2 -> e_form e1 <> FAscii ->
  exists d1 g1 g2 D, grace_spatial_error erf tppf rd rt grace e1 d = (d1, Ok (lon1, lat1, g1)) /\ grace_spatial_error erf tppf rd rt grace e2 d1 = (d1, Ok (lon2, lat2, g2)) /\
    (forall cs l m, (m <= l <= e_lmax e1)%nat -> (m <= max_order (as_maps e1))%nat -> residual_rms ts1 (half_window e1) n1 (fun t => coefficient e1 n1 t cs l m) (D cs l m)) /\
    (forall i k x y, nth_error lon1 i = Some x -> nth_error lat1 k = Some y -> -90 < y < 90 -> error_at (as_maps e1) D (INR (n1 - 2 * half_window e1)) x y (get g1 k i 0)) /\
    (forall i k x y, nth_error lon2 i = Some x -> nth_error lat2 k = Some y -> -90 < y < 90 -> error_at (as_maps e2) D (INR (n1 - 2 * half_window e1)) x y (get g2 k i 0)).
Proof.
  intros erf tppf rd rt grace e1 e2 n1 n2 ts1 ts2 ms1 ms2 d lon1 lat1 lon2 lat2 V1 V2 S1 S2 G1 G2 HF HE Hf.
  destruct (fresh erf tppf rd rt grace e1 n1 ts1 ms1 d lon1 lat1 V1 S1 G1 HF) as (D & delta & s & g1 & tm & E1 & EW & K & _ & RD & _ & _ & _ & Q1).
  destruct (same_file _ _ _ _ HE) as (F1 & F2 & F3 & F4). destruct (array_file rd rt grace (e_form e1) _ _ _ _ _ _ K (g_order _ _ _ _ _ (proj1 V1)) Hf) as (s' & r & EW' & ER & KR).
  rewrite EW in EW'. injection EW' as <-. rewrite F1, F2 in KR. rewrite HE in E1.
  destruct (reused erf tppf rd rt grace e2 n2 ts2 ms2 ((error_file e2 ms2, s) :: d) lon2 lat2 s r tm (Z.of_nat (n1 - 2 * half_window e1)) D V2 S2 G2 (find_new _ _ _) ER KR) as (g2 & E2 & _ & _ & _ & Q2).
  { destruct V1 as (_ & Hn & _). lia. }
  do 4 eexists. split; [exact E1|]. split; [exact E2|]. split; [exact RD|]. split; [exact Q1|]. intros i k x y Hx Hy Hr. rewrite INR_IZR_INZ. apply (Q2 i k x y Hx Hy Hr).
Qed.
Print Assumptions C100_second_run.
(** running the program again with the same options and the same data gives the same map *)
Theorem C100_rerun : forall erf tppf rd rt grace e n ts ms d lon lat, errors_ok e n ts ms -> settings_ok (as_maps e) -> grid_of (-180) (e_ddeg e) (e_interval e) (e_bounds e) lon lat ->
  not_stored d (error_file e ms) -> e_form e <> FAscii ->
  exists d1 g1 g2, grace_spatial_error erf tppf rd rt grace e d = (d1, Ok (lon, lat, g1)) /\ grace_spatial_error erf tppf rd rt grace e d1 = (d1, Ok (lon, lat, g2)) /\
    forall i k x y, nth_error lon i = Some x -> nth_error lat k = Some y -> -90 < y < 90 -> get g2 k i 0 = get g1 k i 0.
Proof.
  intros erf tppf rd rt grace e n ts ms d lon lat V HS HG HF Hf.
  destruct (C100_second_run erf tppf rd rt grace e e n n ts ts ms ms d lon lat lon lat V V HS HS HG HG HF eq_refl Hf) as (d1 & g1 & g2 & D & E1 & E2 & _ & Q1 & Q2).
  exists d1, g1, g2. split; [exact E1|]. split; [exact E2|]. intros i k x y Hx Hy Hr. eapply error_unique; [exact HS| |exact (Q2 i k x y Hx Hy Hr)|exact (Q1 i k x y Hx Hy Hr)]. reflexivity.
Qed.
Print Assumptions C100_rerun.
(** with text files it does not: the file has no column for the number of smoothed months, and the second run uses the GRACE month of their mean date instead.
    Even if the coefficients are printed exactly, the squares of the errors are in the ratio of the two numbers *)
Theorem C100_ascii_refuted : forall erf tppf rt grace e n ts ms d lon lat, errors_ok e n ts ms -> settings_ok (as_maps e) -> grid_of (-180) (e_ddeg e) (e_interval e) (e_bounds e) lon lat ->
  not_stored d (error_file e ms) -> e_form e = FAscii ->
  let H := half_window e in let month := grace (rt (sumn (n - 2 * H) (fun k => nth (k + H) ts 0) / INR (n - 2 * H))) in (0 < month)%Z ->
  exists d1 g1 g2, grace_spatial_error erf tppf (fun x => x) rt grace e d = (d1, Ok (lon, lat, g1)) /\ grace_spatial_error erf tppf (fun x => x) rt grace e d1 = (d1, Ok (lon, lat, g2)) /\
    forall i k x y, nth_error lon i = Some x -> nth_error lat k = Some y -> -90 < y < 90 -> IZR month * get g2 k i 0 ^ 2 = INR (n - 2 * H) * get g1 k i 0 ^ 2.
Proof.
  intros erf tppf rt grace e n ts ms d lon lat V HS HG HF Hf. cbv zeta. intros Hmo.
  destruct (fresh erf tppf (fun x => x) rt grace e n ts ms d lon lat V HS HG HF) as (D & delta & s & g1 & tm & E1 & EW & K & TM & RD & _ & _ & _ & Q1).
  destruct (text_file (fun x => x) rt grace _ _ _ _ _ _ K (g_order _ _ _ _ _ (proj1 V))) as (s' & r & EW' & ER & KR). rewrite Hf in EW. rewrite EW in EW'. injection EW' as <-.
  pose proof V as (V0 & Hn & _). destruct (months_len _ _ _ _ _ V0) as [L1 _].
  assert (TM' : tm = sumn (n - 2 * half_window e) (fun k => nth (k + half_window e) ts 0) / INR (n - 2 * half_window e)).
  { rewrite TM. unfold Rmean. rewrite slice_len by lia. replace (n - half_window e - half_window e)%nat with (n - 2 * half_window e)%nat by lia. f_equal.
    rewrite <- (map_id (TsModel.slice ts (half_window e) (n - half_window e))), (Rsum_sumn (fun x => x) _ 0), slice_len by lia. replace (n - half_window e - half_window e)%nat with (n - 2 * half_window e)%nat by lia.
    apply sumn_ext. intros k Hk. rewrite slice_nth by lia. f_equal. lia. }
  rewrite <- TM' in *.
  destruct (reused erf tppf (fun x => x) rt grace e n ts ms ((error_file e ms, s) :: d) lon lat s r (rt tm) (grace (rt tm)) D V HS HG (find_new _ _ _) ER KR Hmo) as (g2 & E2 & _ & _ & _ & Q2).
  exists ((error_file e ms, s) :: d), g1, g2. split; [exact E1|]. split; [exact E2|]. intros i k x y Hx Hy Hr. specialize (Q1 i k x y Hx Hy Hr). specialize (Q2 i k x y Hx Hy Hr).
  assert (P1 : 0 < INR (n - 2 * half_window e)) by (apply lt_0_INR; lia). assert (P2 : 0 < IZR (grace (rt tm))) by (apply (IZR_lt 0); exact Hmo).
  pose proof (error_scale _ _ _ _ _ _ _ P1 P2 Q1) as Q3. rewrite (error_unique _ D D _ _ _ _ _ HS ltac:(reflexivity) Q2 Q3).
  set (a := INR (n - 2 * half_window e)) in *. set (b := IZR (grace (rt tm))) in *. clearbody a b. pose proof (sqrt_sqrt a ltac:(Lra.lra)) as SA. pose proof (sqrt_sqrt b ltac:(Lra.lra)) as SB. pose proof (sqrt_lt_R0 b P2) as PB.
  rewrite Rpow_mult_distr. replace ((sqrt a / sqrt b) ^ 2) with (sqrt a * sqrt a / (sqrt b * sqrt b)) by (field; Lra.lra). rewrite SA, SB. field. Lra.lra.
Qed.
Print Assumptions C100_ascii_refuted.

(** ** Concrete runs: 13 fields an eighth of a year apart, without and with noise in the degree zero coefficient *)
Definition ex_times : list R := [0; 1/8; 2/8; 3/8; 4/8; 5/8; 6/8; 7/8; 8/8; 9/8; 10/8; 11/8; 12/8].
Definition ex_months : list Z := [1; 2; 3; 4; 5; 6; 7; 8; 9; 10; 11; 12; 13]%Z.
Definition ex_noise (t : nat) : R := nth t [1; -2; 2; -2; 2; -2; 2; -2; 1] 0.
Definition ex_lon : list R := map (fun i => -180 + (1 / 2) / 2 + INR i * (1 / 2)) (seq 0 720).
Definition ex_lat : list R := map (fun k => 90 - 1 / 2 - INR k * 1) (seq 0 180).
Definition ex_erun (f : nat -> nat -> nat -> R) : erun := mkerun "CSR" "RL06" "GSM" 2 0 0 None ([0; 0; 0], [0; 1 / 2; 1 / 3], [0; 0; 0]) false 0 [1 / 2; 1] 2 None false FNetcdf
  (ex_series 13 ex_times ex_months f) (Some (ex_field (fun _ _ => 0))).
Lemma ex_separable : separable ex_times 6 0.
Proof.
  intros g H. apply separable_eighths. intros i Hi. replace (val eighths (0 + i)) with (val ex_times (0 + i)); [apply H; lia|].
  do 7 (destruct i as [|i]; [reflexivity|]). lia.
Qed.
Lemma ex_errors_ok f : errors_ok (ex_erun f) 13 ex_times ex_months /\ settings_ok (as_maps (ex_erun f)) /\ grid_of (-180) (e_ddeg (ex_erun f)) (e_interval (ex_erun f)) (e_bounds (ex_erun f)) ex_lon ex_lat.
Proof.
  assert (HW : half_window (ex_erun f) = 6%nat) by reflexivity.
  split; [|split].
  - split; [|rewrite HW; split; [lia|]].
    + constructor; cbn [as_maps ex_erun e_lmin e_lmax e_mmax e_love e_rad e_destripe e_units e_ddeg e_interval e_bounds e_grace e_mean p_lmax p_mmax max_order p_grace p_mean p_gia p_remove p_forms p_ocean]; auto; try lia.
      * split; [|repeat split]. repeat split. cbn. exists ex_times, ex_months. auto.
      * unfold ex_months. do 12 (apply sorted2; [lia|]). repeat constructor.
      * intros m E. injection E as <-. repeat split.
      * repeat split.
      * intros k g Hk. destruct k; discriminate.
      * split; [discriminate|]. repeat constructor.
      * repeat split.
    + intros k Hk. assert (k = 0%nat) by lia. subst k. apply ex_separable.
  - split; [left; cbn [ex_erun as_maps e_rad p_rad]; apply Rinv_0_lt_compat; apply pow_lt; Lra.lra|]. split; [cbn; lia|]. exists "norm"%string. constructor.
  - exists (1 / 2), 1. split; [right; exists []; reflexivity|].
    apply (cells (-180) None (1 / 2) 1 720 180); [Lra.lra|Lra.lra| |]; (rewrite INR_IZR_INZ; replace (Z.of_nat 720) with 720%Z by reflexivity; replace (Z.of_nat 180) with 180%Z by reflexivity; Lra.lra).
Qed.
Example C100_example : exists f, errors_ok (ex_erun f) 13 ex_times ex_months /\ settings_ok (as_maps (ex_erun f)) /\ grid_of (-180) (e_ddeg (ex_erun f)) (e_interval (ex_erun f)) (e_bounds (ex_erun f)) ex_lon ex_lat /\ e_form (ex_erun f) <> FAscii.
Proof. exists (fun l m t => INR l + ex_noise t). destruct (ex_errors_ok (fun l m t => INR l + ex_noise t)) as (A & B & C). repeat (split; [assumption|]). discriminate. Qed.
(** the noise is orthogonal to every signal *)
Lemma noise_orthogonal g : rsum 13 (fun i => ex_noise i * sig g (val ex_times i)) = 0.
Proof.
  unfold rsum, ex_noise, val, ex_times. cbn [nth]. destruct g as [c b s1 c1 s2 c2]. unfold sig, PropSmooth.line, annual, semiannual. cbn [g_c g_trend g_as g_ac g_ss g_sc].
  replace (2 * PI * 0) with 0 by ring. replace (4 * PI * 0) with 0 by ring.
  replace (2 * PI * (1 / 8)) with (PI / 4) by field. replace (4 * PI * (1 / 8)) with (PI / 2) by field.
  replace (2 * PI * (2 / 8)) with (PI / 2) by field. replace (4 * PI * (2 / 8)) with PI by field.
  replace (2 * PI * (3 / 8)) with (PI / 4 + PI / 2) by field. replace (4 * PI * (3 / 8)) with (PI / 2 + PI) by field.
  replace (2 * PI * (4 / 8)) with PI by field. replace (4 * PI * (4 / 8)) with (PI + PI) by field.
  replace (2 * PI * (5 / 8)) with (PI / 4 + PI) by field. replace (4 * PI * (5 / 8)) with (PI / 2 + PI + PI) by field.
  replace (2 * PI * (6 / 8)) with (PI / 2 + PI) by field. replace (4 * PI * (6 / 8)) with (PI + PI + PI) by field.
  replace (2 * PI * (7 / 8)) with (PI / 4 + PI / 2 + PI) by field. replace (4 * PI * (7 / 8)) with (PI / 2 + PI + PI + PI) by field.
  replace (2 * PI * (8 / 8)) with (PI + PI) by field. replace (4 * PI * (8 / 8)) with (PI + PI + PI + PI) by field.
  rewrite ?neg_sin, ?neg_cos, ?sin_plus, ?cos_plus, ?sin_PI4, ?cos_PI4, ?sin_PI2, ?cos_PI2, ?sin_0, ?cos_0, ?sin_PI, ?cos_PI.
  generalize (1 / sqrt 2). intros q. field.
Qed.
Lemma noise_rms y v : (forall t, (t < 13)%nat -> y t = ex_noise t) -> residual_rms ex_times 6 13 y v -> v ^ 2 = 4.
Proof.
  intros Ey (_ & g & B & ->). specialize (B 0%nat ltac:(lia) (mksig 0 0 0 0 0 0)). cbn [Nat.mul Nat.add Nat.sub]. cbn [sumn Nat.add]. rewrite (Ey 6%nat) by lia.
  assert (Z : sig (g 0%nat) (nth 6 ex_times 0) = 0).
  { assert (M : forall g', misfit ex_times (map y (seq 0 13)) 6 0 (sig g') = rsum 13 (fun i => ex_noise i ^ 2) + rsum 13 (fun i => sig g' (val ex_times i) ^ 2)).
    { intros g'. unfold misfit. replace (2 * 6 + 1)%nat with 13%nat by reflexivity.
      transitivity (rsum 13 (fun i => ex_noise i ^ 2) + rsum 13 (fun i => sig g' (val ex_times i) ^ 2) + -2 * rsum 13 (fun i => ex_noise i * sig g' (val ex_times i))); [|rewrite noise_orthogonal; ring].
      rewrite <- rsum_scal, <- !rsum_plus. apply rsum_ext. intros i Hi. cbn [Nat.add]. rewrite series_nth by lia. rewrite Ey by lia. ring. }
    rewrite !M in B.
    assert (Z0 : rsum 13 (fun i => sig (mksig 0 0 0 0 0 0) (val ex_times i) ^ 2) = 0).
    { rewrite (rsum_ext _ _ (fun _ => 0)); [apply rsum_zero|]. intros i _. unfold sig, PropSmooth.line, annual, semiannual. cbn [g_c g_trend g_as g_ac g_ss g_sc]. ring. }
    rewrite Z0 in B. set (s := fun i => sig (g 0%nat) (val ex_times i)). change (sig (g 0%nat) (nth 6 ex_times 0)) with (s 6%nat).
    change (rsum 13 (fun i => sig (g 0%nat) (val ex_times i) ^ 2)) with (rsum 13 (fun i => s i ^ 2)) in B. clearbody s. cbn [rsum] in B.
    assert (P : forall i, 0 <= s i ^ 2) by (intros; apply pow2_ge_0).
    pose proof (P 0%nat). pose proof (P 1%nat). pose proof (P 2%nat). pose proof (P 3%nat). pose proof (P 4%nat). pose proof (P 5%nat). pose proof (P 6%nat). pose proof (P 7%nat). pose proof (P 8%nat). pose proof (P 9%nat). pose proof (P 10%nat). pose proof (P 11%nat). pose proof (P 12%nat).
    assert (E6 : s 6%nat ^ 2 = 0) by Lra.lra. apply Rsqr_0_uniq. unfold Rsqr. simpl in E6. Lra.lra. }
  rewrite Z. unfold ex_noise. cbn [nth]. change (INR 1) with 1. field.
Qed.
(** the second run overlooks that the data have changed: its own errors are not zero in any cell, but the map is, since the file of the first run, whose data had no noise, is reused *)
Theorem C100_stale_refuted : forall erf tppf rd rt grace, exists e1 e2 n ts ms lon lat d1 d2 g1 g2 g,
  errors_ok e1 n ts ms /\ errors_ok e2 n ts ms /\ settings_ok (as_maps e1) /\ settings_ok (as_maps e2) /\ lon <> [] /\ lat <> [] /\
  grace_spatial_error erf tppf rd rt grace e1 [] = (d1, Ok (lon, lat, g1)) /\ grace_spatial_error erf tppf rd rt grace e2 d1 = (d1, Ok (lon, lat, g2)) /\
  grace_spatial_error erf tppf rd rt grace e2 [] = (d2, Ok (lon, lat, g)) /\
  forall i k x y, nth_error lon i = Some x -> nth_error lat k = Some y -> -90 < y < 90 -> get g2 k i 0 = 0 /\ 0 < get g k i 0.
Proof.
  intros erf tppf rd rt grace. set (e1 := ex_erun (fun _ _ _ => 0)). set (e2 := ex_erun (fun l m t => if (l =? 0)%nat then ex_noise t else 0)).
  destruct (ex_errors_ok (fun _ _ _ => 0)) as (V1 & S1 & G1). destruct (ex_errors_ok (fun l m t => if (l =? 0)%nat then ex_noise t else 0)) as (V2 & S2 & G2). fold e1 in V1, S1, G1. fold e2 in V2, S2, G2.
  destruct (C100_second_run erf tppf rd rt grace e1 e2 13 13 ex_times ex_times ex_months ex_months [] ex_lon ex_lat ex_lon ex_lat V1 V2 S1 S2 G1 G2 (fun _ X => X) eq_refl ltac:(discriminate)) as (d1 & g1 & g2 & D & E1 & E2 & RD & Q1 & Q2).
  destruct (C100_map erf tppf rd rt grace e2 13 ex_times ex_months [] ex_lon ex_lat V2 S2 G2 (fun _ X => X)) as (d2 & g & D2 & E3 & RD2 & _ & _ & _ & Q3).
  exists e1, e2, 13%nat, ex_times, ex_months, ex_lon, ex_lat, d1, d2, g1, g2, g. do 4 (split; [assumption|]). split; [discriminate|]. split; [discriminate|]. do 3 (split; [assumption|]).
  intros i k x y Hx Hy Hr. split.
  - eapply error_zero; [|exact (Q2 i k x y Hx Hy Hr)]. intros cs l m Hl Hm. apply (rms_zero ex_times 6 13 (fun t => coefficient e1 13 t cs l m)); [exact (proj2 (proj2 V1))| |apply RD; assumption].
    exists (mksig 0 0 0 0 0 0). intros t Ht. replace (sig (mksig 0 0 0 0 0 0) (nth t ex_times 0)) with 0 by (unfold sig, PropSmooth.line, annual, semiannual; cbn [g_c g_trend g_as g_ac g_ss g_sc]; ring).
    unfold coefficient, filtered, maybe_destriped, reference, part, e1. destruct cs; cbn [p_destripe as_maps e1 ex_erun e_destripe e_grace ex_series clm chan slm e_mean p_mean slm ex_field get];
    repeat match goal with |- context [if ?b then _ else _] => destruct b end; cbn [clm slm chan get]; ring.
  - pose proof (Q3 i k x y Hx Hy Hr) as (P & u & U & E). assert (R2 := RD2 false 0%nat 0%nat ltac:(cbn; lia) ltac:(cbn; lia)). apply noise_rms in R2.
    2:{ intros t Ht. change (ex_noise t - 0 = ex_noise t). ring. }
    assert (U0 := U false 0%nat 0%nat ltac:(cbn; lia) ltac:(cbn; lia)). destruct U0 as (f & w & A & UE). destruct (A 0%nat ltac:(lia)) as [A1 A2].
    assert (F0 : f 0%nat = 1). { apply (factor_unique 0 ([0; 0; 0], [0; 1 / 2; 1 / 3], [0; 0; 0]) 0%nat); [exact A1|]. exists "norm"%string. split; constructor. }
    assert (W0 : w 0%nat = 1). { destruct A2 as [[_ A2]|[A2 _]]; [exact A2|]. exfalso. cbn [as_maps e2 ex_erun e_rad p_rad] in A2. assert (0 < / 10 ^ 10) by (apply Rinv_0_lt_compat; apply pow_lt; Lra.lra). Lra.lra. }
    set (v := D2 false 0%nat 0%nat / sqrt (INR (13 - 2 * half_window e2))) in UE.
    assert (N1 : sqrt (INR (13 - 2 * half_window e2)) = 1) by (replace (13 - 2 * half_window e2)%nat with 1%nat by reflexivity; change (INR 1) with 1; apply sqrt_1).
    assert (Ev : v ^ 2 = 4) by (unfold v; rewrite N1, <- R2; field). clearbody v.
    assert (U1 : u false 0%nat 0%nat = v).
    { rewrite UE. change (p_lmin (as_maps e2)) with 0%nat. change (p_lmax (as_maps e2)) with 2%nat. change (max_order (as_maps e2)) with 2%nat.
      rewrite (series_ext2 _ _ (fun l m => if (Bool.eqb false false && (l =? 0) && (m =? 0))%nat%bool then f l * w l * v else 0) (fun l m => if (Bool.eqb true false && (l =? 0) && (m =? 0))%nat%bool then f l * w l * v else 0)).
      - rewrite (series_only false 0 0 (fun _ l m => f l * w l * v) 0 2 2) by lia. cbn [Nat.leb]. rewrite F0, W0. unfold Nlm, trig. cbn [Nat.eqb Nat.sub Nat.add fact pow Derive_n LegendreSpec.legP]. change (INR 0) with 0. change (INR 1) with 1.
        replace (1 * (2 * 0 + 1) * 1 / 1) with 1 by field. rewrite sqrt_1, Rmult_0_l, cos_0. ring.
      - intros l m _ _. unfold only. split; destruct (Nat.eqb_spec l 0) as [->|], (Nat.eqb_spec m 0) as [->|]; cbn [Bool.eqb andb]; ring. }
    assert (Q : 4 <= get g k i 0 ^ 2).
    { rewrite E. change (max_order (as_maps e2) + 1)%nat with (S 2). change (p_lmax (as_maps e2) + 1)%nat with (S 2). rewrite LegendreFourier.sumn_first. rewrite LegendreFourier.sumn_first. cbn [Nat.leb]. rewrite U1, Ev.
      match goal with |- _ <= 4 + ?a + ?b + ?c => enough (0 <= a /\ 0 <= b /\ 0 <= c) by (generalize dependent a; generalize dependent b; generalize dependent c; intros; Lra.lra) end. split; [apply pow2_ge_0|].
      split; apply PropKernel.sumn_nonneg; intros j _; [apply Rplus_le_le_0_compat; apply pow2_ge_0|]. apply PropKernel.sumn_nonneg; intros l _. match goal with |- context [if ?b then _ else _] => destruct b end; [|Lra.lra]. apply Rplus_le_le_0_compat; apply pow2_ge_0. }
    destruct P as [P|P]; [exact P|]. exfalso. rewrite <- P in Q. Lra.lra.
Qed.
Print Assumptions C100_stale_refuted.
