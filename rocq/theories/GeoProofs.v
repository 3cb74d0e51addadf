From Coq Require Import Reals Lra ZifyBool ZifyNat.
From Verif Require Import Base Arr HarmModel HarmProofs HarmProofs2 GeoModel.
Close Scope Z_scope.
Open Scope R_scope.

(** the object holds the three coefficient series *)
Definition holds (g : geo) (a b c : list R) : Prop := gC10 g = Some a /\ gC11 g = Some b /\ gS11 g = Some c.
Definition holds_xyz (g : geo) (x y z : list R) : Prop := gX g = Some x /\ gY g = Some y /\ gZ g = Some z.

Lemma map_id_on {A} (f : A -> A) l : (forall x, f x = x) -> map f l = l.
Proof. intros H. rewrite (map_ext f (fun x => x) H). apply map_id. Qed.

Lemma sqrt3_pos : 0 < sqrt 3. Proof. apply sqrt_lt_R0. lra. Qed.

Lemma cartesian_roundtrip kl g a b c : holds g a b c -> kl <> -1 -> radius g <> 0 ->
  exists r, from_cartesian kl (to_cartesian kl g) = Ok r /\ holds r a b c /\ radius r = radius g /\
    gtime r = gtime g /\ gmonth r = gmonth g /\
    (forall ea eb ec, eC10 g = Some ea -> eC11 g = Some eb -> eS11 g = Some ec ->
       eC10 r = Some ea /\ eC11 r = Some eb /\ eS11 r = Some ec) /\
    holds_xyz (to_cartesian kl g) (map (fun v => v * radius g * sqrt 3 / (1 + kl)) b)
       (map (fun v => v * radius g * sqrt 3 / (1 + kl)) c) (map (fun v => v * radius g * sqrt 3 / (1 + kl)) a).
Proof.
  intros (H1 & H2 & H3) Hk Hr. pose proof sqrt3_pos as S3.
  assert (I : forall l, map (fun x => (1 + kl) * x / (radius g * sqrt 3)) (map (fun v => v * radius g * sqrt 3 / (1 + kl)) l) = l).
  { intros l. rewrite map_map. apply map_id_on. intros x. field. repeat split; lra. }
  unfold to_cartesian. rewrite H1, H2, H3. cbn [try3].
  destruct (try3 (fun v => v * radius g * sqrt 3 / (1 + kl)) (eC10 g) (eC11 g) (eS11 g) (sZ g) (sX g) (sY g)) as [[sz sx] sy] eqn:E3.
  unfold from_cartesian. cbn [gC10 gC11 gS11 eC10 eC11 eS11 gX gY gZ sX sY sZ gtime gmonth radius vmap bind].
  rewrite !I. destruct (try3 (fun x => (1 + kl) * x / (radius g * sqrt 3)) sz sx sy (eC10 g) (eC11 g) (eS11 g)) as [[e1 e2] e3] eqn:E4.
  eexists; split; [reflexivity|]. cbn [gC10 gC11 gS11 eC10 eC11 eS11 radius gtime gmonth].
  split; [repeat split|]. split; [reflexivity|]. split; [reflexivity|]. split; [reflexivity|]. split; [|repeat split].
  intros ea eb ec G1 G2 G3. rewrite G1, G2, G3 in E3. cbn [try3] in E3. injection E3 as <- <- <-.
  cbn [try3] in E4. rewrite !I in E4. injection E4 as <- <- <-. auto.
Qed.

Lemma cartesian_roundtrip2 kl g x y z : holds_xyz g x y z -> kl <> -1 -> radius g <> 0 ->
  exists r, from_cartesian kl g = Ok r /\ holds_xyz (to_cartesian kl r) x y z /\
    holds r (map (fun v => (1 + kl) * v / (radius g * sqrt 3)) z) (map (fun v => (1 + kl) * v / (radius g * sqrt 3)) x)
      (map (fun v => (1 + kl) * v / (radius g * sqrt 3)) y).
Proof.
  intros (H1 & H2 & H3) Hk Hr. pose proof sqrt3_pos as S3. unfold from_cartesian. rewrite H1, H2, H3. cbn [vmap bind].
  destruct (try3 _ (sZ g) (sX g) (sY g) (eC10 g) (eC11 g) (eS11 g)) as [[e1 e2] e3].
  eexists; split; [reflexivity|]. split; [|repeat split].
  unfold to_cartesian. cbn [gC10 gC11 gS11 eC10 eC11 eS11 gX gY gZ sX sY sZ gtime gmonth radius try3].
  destruct (try3 _ e1 e2 e3 (sZ g) (sX g) (sY g)) as [[sz sx] sy].
  assert (I : forall l, map (fun v => v * radius g * sqrt 3 / (1 + kl)) (map (fun x => (1 + kl) * x / (radius g * sqrt 3)) l) = l).
  { intros l. rewrite map_map. apply map_id_on. intros v. field. repeat split; lra. }
  rewrite !I. repeat split.
Qed.

(** linearity: a combination of the coefficients gives the same combination of
    the coordinates *)
Definition lin (p q : R) (a b : list R) : list R := map (fun u => p * fst u + q * snd u) (combine a b).
Lemma lin_map f p q a b : (forall x y, f (p * x + q * y) = p * f x + q * f y) -> length a = length b ->
  map f (lin p q a b) = lin p q (map f a) (map f b).
Proof.
  intros H. revert b; induction a as [|x a IH]; intros [|y b] L; cbn; try reflexivity; try discriminate.
  unfold lin in IH. rewrite IH by (cbn in L; congruence). now rewrite H.
Qed.
Lemma cartesian_linear kl p q g1 g2 g3 a1 b1 c1 a2 b2 c2 :
  holds g1 a1 b1 c1 -> holds g2 a2 b2 c2 -> holds g3 (lin p q a1 a2) (lin p q b1 b2) (lin p q c1 c2) ->
  length a1 = length a2 -> length b1 = length b2 -> length c1 = length c2 ->
  radius g1 = radius g2 -> radius g3 = radius g1 ->
  exists x1 y1 z1 x2 y2 z2, holds_xyz (to_cartesian kl g1) x1 y1 z1 /\ holds_xyz (to_cartesian kl g2) x2 y2 z2 /\
    holds_xyz (to_cartesian kl g3) (lin p q x1 x2) (lin p q y1 y2) (lin p q z1 z2).
Proof.
  intros (A1 & A2 & A3) (B1 & B2 & B3) (C1 & C2 & C3) La Lb Lc R1 R2.
  unfold to_cartesian. rewrite A1, A2, A3, B1, B2, B3, C1, C2, C3. cbn [try3].
  destruct (try3 _ (eC10 g1) (eC11 g1) (eS11 g1) (sZ g1) (sX g1) (sY g1)) as [[? ?] ?].
  destruct (try3 _ (eC10 g2) (eC11 g2) (eS11 g2) (sZ g2) (sX g2) (sY g2)) as [[? ?] ?].
  destruct (try3 _ (eC10 g3) (eC11 g3) (eS11 g3) (sZ g3) (sX g3) (sY g3)) as [[? ?] ?].
  do 6 eexists. split; [repeat split|]. split; [repeat split|].
  unfold holds_xyz. cbn [gX gY gZ]. rewrite R2, <- R1.
  repeat split; f_equal; apply lin_map; try assumption; intros; unfold Rdiv; lra.
Qed.

(** * water equivalents *)
Lemma inplace_spec f g a b c : holds g a b c -> exists r, inplace f g = Ok r /\ holds r (map f a) (map f b) (map f c) /\
  radius r = radius g /\ gtime r = gtime g /\ gmonth r = gmonth g /\ gX r = gX g /\ gY r = gY g /\ gZ r = gZ g.
Proof.
  intros (H1 & H2 & H3). unfold inplace. rewrite H1, H2, H3. cbn [vmap bind].
  destruct (try3 f (eC10 g) (eC11 g) (eS11 g) (eC10 g) (eC11 g) (eS11 g)) as [[? ?] ?].
  eexists; split; [reflexivity|]. repeat split.
Qed.
Lemma cmwe_values kl g a b c : holds g a b c -> exists r, to_cmwe kl g = Ok r /\
  holds r (map (fun v => v * (rho_e * rad_e / (1 + kl))) a) (map (fun v => v * (rho_e * rad_e / (1 + kl))) b) (map (fun v => v * (rho_e * rad_e / (1 + kl))) c).
Proof. intros H. destruct (inplace_spec (fun v => v * (rho_e * rad_e / (1 + kl))) g a b c H) as (r & E & Hr & _). eauto. Qed.
Lemma rr_pos : rho_e * rad_e <> 0. Proof. unfold rho_e, rad_e. lra. Qed.

Lemma cmwe_roundtrip kl g a b c : holds g a b c -> kl <> -1 ->
  (exists r r', to_cmwe kl g = Ok r /\ from_cmwe kl r = Ok r' /\ holds r' a b c) /\
  (exists r r', from_cmwe kl g = Ok r /\ to_cmwe kl r = Ok r' /\ holds r' a b c).
Proof.
  intros H Hk. pose proof rr_pos as P. split.
  - destruct (inplace_spec (fun v => v * (rho_e * rad_e / (1 + kl))) g a b c H) as (r & E & Hr & _).
    destruct (inplace_spec (fun v => v * ((1 + kl) / (rho_e * rad_e))) r _ _ _ Hr) as (r' & E' & Hr' & _).
    exists r, r'. split; [exact E|]. split; [exact E'|]. rewrite !map_map in Hr'.
    assert (I : forall l, map (fun x => x * (rho_e * rad_e / (1 + kl)) * ((1 + kl) / (rho_e * rad_e))) l = l).
    { intros l. apply map_id_on. intros x. field. repeat split; try lra; unfold rad_e, rho_e; lra. }
    rewrite !I in Hr'. exact Hr'.
  - destruct (inplace_spec (fun v => v * ((1 + kl) / (rho_e * rad_e))) g a b c H) as (r & E & Hr & _).
    destruct (inplace_spec (fun v => v * (rho_e * rad_e / (1 + kl))) r _ _ _ Hr) as (r' & E' & Hr' & _).
    exists r, r'. split; [exact E|]. split; [exact E'|]. rewrite !map_map in Hr'.
    assert (I : forall l, map (fun x => x * ((1 + kl) / (rho_e * rad_e)) * (rho_e * rad_e / (1 + kl))) l = l).
    { intros l. apply map_id_on. intros x. field. repeat split; try lra; unfold rad_e, rho_e; lra. }
    rewrite !I in Hr'. exact Hr'.
Qed.

Lemma mmwe_roundtrip kl g a b c : holds g a b c -> kl <> -1 ->
  (exists r r', to_mmwe kl g = Ok r /\ from_mmwe kl r = Ok r' /\ holds r' a b c) /\
  (exists r r', from_mmwe kl g = Ok r /\ to_mmwe kl r = Ok r' /\ holds r' a b c) /\
  (exists q r qa qb qc, to_cmwe kl g = Ok q /\ to_mmwe kl g = Ok r /\ holds q qa qb qc /\
     holds r (map (fun v => 10 * v) qa) (map (fun v => 10 * v) qb) (map (fun v => 10 * v) qc)).
Proof.
  intros H Hk. pose proof rr_pos as P. unfold to_mmwe, from_mmwe, to_cmwe, from_cmwe.
  destruct (inplace_spec (fun v => v * (rho_e * rad_e / (1 + kl))) g a b c H) as (r1 & E1 & H1 & _).
  destruct (inplace_spec (fun v => v * 10) r1 _ _ _ H1) as (r2 & E2 & H2 & _).
  destruct (inplace_spec (fun v => v * ((1 + kl) / (rho_e * rad_e))) r2 _ _ _ H2) as (r3 & E3 & H3 & _).
  destruct (inplace_spec (fun v => v / 10) r3 _ _ _ H3) as (r4 & E4 & H4 & _).
  destruct (inplace_spec (fun v => v * ((1 + kl) / (rho_e * rad_e))) g a b c H) as (s1 & F1 & K1 & _).
  destruct (inplace_spec (fun v => v / 10) s1 _ _ _ K1) as (s2 & F2 & K2 & _).
  destruct (inplace_spec (fun v => v * (rho_e * rad_e / (1 + kl))) s2 _ _ _ K2) as (s3 & F3 & K3 & _).
  destruct (inplace_spec (fun v => v * 10) s3 _ _ _ K3) as (s4 & F4 & K4 & _).
  rewrite !map_map in *. split; [|split].
  - exists r2, r4. rewrite E1. cbn [bind]. split; [exact E2|]. rewrite E3. cbn [bind]. split; [exact E4|].
    assert (I : forall l, map (fun x => x * (rho_e * rad_e / (1 + kl)) * 10 * ((1 + kl) / (rho_e * rad_e)) / 10) l = l).
    { intros l. apply map_id_on. intros x. field. repeat split; try lra; unfold rad_e, rho_e; lra. }
    rewrite !I in H4. exact H4.
  - exists s2, s4. rewrite F1. cbn [bind]. split; [exact F2|]. rewrite F3. cbn [bind]. split; [exact F4|].
    assert (I : forall l, map (fun x => x * ((1 + kl) / (rho_e * rad_e)) / 10 * (rho_e * rad_e / (1 + kl)) * 10) l = l).
    { intros l. apply map_id_on. intros x. field. repeat split; try lra; unfold rad_e, rho_e; lra. }
    rewrite !I in K4. exact K4.
  - exists r1, r2. do 3 eexists. split; [exact E1|]. rewrite E1. cbn [bind]. split; [exact E2|]. split; [exact H1|].
    rewrite !map_map. erewrite (map_ext _ _ _ a), (map_ext _ _ _ b), (map_ext _ _ _ c). exact H2.
    Unshelve. all: intros v; cbn; lra.
Qed.

(** * copy *)
Lemma gcopy_coeffs g : gC10 (gcopy g) = gC10 g /\ gC11 (gcopy g) = gC11 g /\ gS11 (gcopy g) = gS11 g /\
  eC10 (gcopy g) = eC10 g /\ eC11 (gcopy g) = eC11 g /\ eS11 (gcopy g) = eS11 g /\
  gX (gcopy g) = gX g /\ gY (gcopy g) = gY g /\ gZ (gcopy g) = gZ g /\
  gtime (gcopy g) = gtime g /\ gmonth (gcopy g) = gmonth g.
Proof. repeat split. Qed.
Lemma gcopy_default kl g : radius g = default_radius ->
  gX (to_cartesian kl (gcopy g)) = gX (to_cartesian kl g) /\
  gY (to_cartesian kl (gcopy g)) = gY (to_cartesian kl g) /\
  gZ (to_cartesian kl (gcopy g)) = gZ (to_cartesian kl g).
Proof.
  intros R0. unfold to_cartesian, gcopy. cbn [gC10 gC11 gS11 eC10 eC11 eS11 gX gY gZ sX sY sZ gtime gmonth radius]. rewrite R0.
  destruct (try3 _ (gC10 g) (gC11 g) (gS11 g) (gZ g) (gX g) (gY g)) as [[? ?] ?].
  destruct (try3 _ (eC10 g) (eC11 g) (eS11 g) None None None) as [[? ?] ?].
  destruct (try3 _ (eC10 g) (eC11 g) (eS11 g) (sZ g) (sX g) (sY g)) as [[? ?] ?]. repeat split.
Qed.
(** every non-default radius is lost, for every non-zero coefficient *)
Lemma gcopy_radius_lost kl g v w u : holds g [v] [w] [u] -> v <> 0 -> kl <> -1 -> radius g <> default_radius ->
  gZ (to_cartesian kl (gcopy g)) <> gZ (to_cartesian kl g).
Proof.
  intros (H1 & H2 & H3) Hv Hk Hr. pose proof sqrt3_pos as S3.
  unfold to_cartesian, gcopy. cbn [gC10 gC11 gS11 eC10 eC11 eS11 gX gY gZ sX sY sZ gtime gmonth radius].
  rewrite H1, H2, H3. cbn [try3 map].
  destruct (try3 _ (eC10 g) (eC11 g) (eS11 g) None None None) as [[? ?] ?].
  destruct (try3 _ (eC10 g) (eC11 g) (eS11 g) (sZ g) (sX g) (sY g)) as [[? ?] ?]. cbn [gZ].
  intros E. injection E as E. apply Hr.
  apply (Rmult_eq_compat_r (1 + kl)) in E. unfold Rdiv in E. rewrite !Rmult_assoc, Rinv_l, !Rmult_1_r in E by lra.
  apply Rmult_eq_reg_l in E; [|exact Hv]. apply Rmult_eq_reg_r in E; [now symmetry|lra].
Qed.

(** * matrices and harmonics *)
Lemma series_ok a l m : (l < rows a)%nat -> (m < cols a)%nat -> series_of a l m = Ok (map (get a l m) (seq 0 (nslice a))).
Proof. intros H1 H2. unfold series_of. replace ((l <? rows a) && (m <? cols a))%nat with true by lia. reflexivity. Qed.

Lemma map_nth_seq (l : list R) : map (fun t => nth t l 0) (seq 0 (length l)) = l.
Proof.
  apply (nth_ext _ _ 0 0); [rewrite map_length, seq_length; reflexivity|]. intros k Hk. rewrite map_length, seq_length in Hk.
  rewrite (nth_indep _ 0 ((fun t => nth t l 0) 0%nat)) by (rewrite map_length, seq_length; exact Hk).
  rewrite (map_nth (fun t => nth t l 0)), seq_nth by exact Hk. reflexivity.
Qed.

Lemma matrix_roundtrip g a b c : holds g a b c -> length b = length a -> length c = length a ->
  exists cm sm r, to_matrix g = Ok (cm, sm) /\ rows cm = 2%nat /\ cols cm = 2%nat /\ depth cm = Some (length a) /\
    (forall t, (t < length a)%nat -> get cm 1 0 t = nth t a 0 /\ get cm 1 1 t = nth t b 0 /\ get sm 1 1 t = nth t c 0 /\
        get cm 0 0 t = 0 /\ get cm 0 1 t = 0 /\ get sm 1 0 t = 0 /\ get sm 0 0 t = 0 /\ get sm 0 1 t = 0) /\
    from_matrix g cm sm = Ok r /\ holds r a b c.
Proof.
  intros (H1 & H2 & H3) L1 L2. unfold to_matrix. rewrite H1, H2, H3. cbn [need bind]. unfold bcast.
  rewrite L1, L2, Nat.eqb_refl. cbn [bind]. do 3 eexists. split; [reflexivity|]. cbn [rows cols depth].
  split; [reflexivity|]. split; [reflexivity|]. split; [reflexivity|]. split; [intros; cbn; repeat split|].
  unfold from_matrix. rewrite !series_ok by (cbn; lia). cbn [bind]. split; [reflexivity|].
  unfold nslice. cbn [depth get Nat.eqb andb]. unfold holds. cbn [gC10 gC11 gS11].
  rewrite <- L1 at 2. rewrite <- L2 at 2. rewrite !map_nth_seq. auto.
Qed.

Lemma from_harmonics_spec h : wf h -> (1 <= lmax h)%nat -> (1 <= mmax h)%nat ->
  exists g, from_harmonics h = Ok g /\ gtime g = time h /\ gmonth g = month h /\
    holds g (map (fun t => get (clm h) 1 0 t) (seq 0 (nslice (clm h)))) (map (fun t => get (clm h) 1 1 t) (seq 0 (nslice (clm h))))
            (map (fun t => get (slm h) 1 1 t) (seq 0 (nslice (clm h)))) /\
    exists r, from_matrix g (clm h) (slm h) = Ok r /\ gC10 r = gC10 g /\ gC11 r = gC11 g /\ gS11 r = gS11 g.
Proof.
  intros (W1 & W2 & (W3 & W4 & W5) & _) H1 H2. unfold from_harmonics, from_matrix.
  rewrite !series_ok by lia. cbn [bind].
  assert (nslice (slm h) = nslice (clm h)) as -> by (unfold nslice; now rewrite W5).
  eexists. split; [reflexivity|]. split; [reflexivity|]. split; [reflexivity|]. split; [repeat split|].
  eexists. split; [reflexivity|]. repeat split.
Qed.
Lemma from_harmonics_short h : wf h -> (lmax h = 0 \/ mmax h = 0)%nat -> from_harmonics h = Err IndexError.
Proof.
  intros (W1 & W2 & (W3 & W4 & W5) & _) H. unfold from_harmonics, series_of.
  destruct H as [H|H].
  - replace ((1 <? rows (clm h)) && (0 <? cols (clm h)))%nat with false by lia. reflexivity.
  - destruct ((1 <? rows (clm h)) && (0 <? cols (clm h)))%nat; [|reflexivity]. cbn [bind].
    replace ((1 <? rows (clm h)) && (1 <? cols (clm h)))%nat with false by lia. reflexivity.
Qed.

(** * arithmetic *)
Lemma combine_op (op1 op2 : R -> R -> R) (a b : list R) : (forall x y, In y b -> op2 (op1 x y) y = x) -> length b = length a ->
  map (fun p => op2 (fst p) (snd p)) (combine (map (fun p => op1 (fst p) (snd p)) (combine a b)) b) = a.
Proof.
  revert b; induction a as [|x a IH]; intros [|y b] H L; cbn; try reflexivity; try discriminate.
  rewrite (H x y (or_introl eq_refl)), IH; [reflexivity|intros; apply H; now right|cbn in L; congruence].
Qed.
Lemma map_pair_length {A B C} (f : A * B -> C) (a : list A) (b : list B) : length b = length a -> length (map f (combine a b)) = length a.
Proof. intros L. rewrite map_length, combine_length, L. apply Nat.min_id. Qed.

Lemma vop_inverse op1 op2 a b : (forall x y, In y b -> op2 (op1 x y) y = x) ->
  length b = length a \/ length b = 1%nat ->
  exists r, vop op1 (Some a) (Some b) = Ok (Some r) /\ vop op2 (Some r) (Some b) = Ok (Some a) /\
    forall t, (t < length a)%nat -> nth t r 0 = op1 (nth t a 0) (nth (if length b =? length a then t else 0)%nat b 0).
Proof.
  intros H L. unfold vop. cbn [need bind].
  destruct (Nat.eqb_spec (length b) (length a)) as [E|N].
  - eexists; split; [reflexivity|]. rewrite map_pair_length by exact E. rewrite E, Nat.eqb_refl. split.
    + now rewrite (combine_op op1 op2 a b H E).
    + intros t Ht. rewrite (nth_indep _ 0 ((fun p => op1 (fst p) (snd p)) (0, 0))) by (rewrite map_pair_length; auto).
      rewrite (map_nth (fun p => op1 (fst p) (snd p))), combine_nth by auto. reflexivity.
  - destruct L as [L|L]; [contradiction|]. rewrite L. change (1 =? 1)%nat with true. cbv iota.
    replace (1 =? length a)%nat with false by lia.
    eexists; split; [reflexivity|]. rewrite map_length.
    replace (1 =? length a)%nat with false by lia. cbv iota. split.
    + rewrite map_map. do 2 f_equal. apply map_id_on. intros x. apply H. apply nth_In. lia.
    + intros t Ht. rewrite (nth_indep _ 0 ((fun x => op1 x (nth 0 b 0)) 0)) by (rewrite map_length; auto).
      now rewrite (map_nth (fun x => op1 x (nth 0 b 0))).
Qed.

Lemma gop_inverse op1 op2 g t a b c a' b' c' : holds g a b c -> holds t a' b' c' ->
  (length a' = length a \/ length a' = 1%nat) -> (length b' = length b \/ length b' = 1%nat) -> (length c' = length c \/ length c' = 1%nat) ->
  (forall x y, In y a' \/ In y b' \/ In y c' -> op2 (op1 x y) y = x) ->
  exists r r', gop op1 g t = Ok r /\ gop op2 r t = Ok r' /\ holds r' a b c /\ radius r' = radius g /\ gtime r' = gtime g /\ gmonth r' = gmonth g.
Proof.
  intros (A1 & A2 & A3) (B1 & B2 & B3) La Lb Lc Inv.
  destruct (vop_inverse op1 op2 a a') as (ra & Ea & Fa & _); auto.
  destruct (vop_inverse op1 op2 b b') as (rb & Eb & Fb & _); auto.
  destruct (vop_inverse op1 op2 c c') as (rc & Ec & Fc & _); auto.
  unfold gop. rewrite A1, A2, A3, B1, B2, B3, Ea, Eb, Ec. cbn [bind].
  do 2 eexists. split; [reflexivity|]. cbn [gC10 gC11 gS11]. rewrite Fa, Fb, Fc. cbn [bind]. split; [reflexivity|]. repeat split.
Qed.

Lemma gop_values op g t a b c a' b' c' : holds g a b c -> holds t a' b' c' ->
  length a' = length a -> length b' = length b -> length c' = length c ->
  exists r ra rb rc, gop op g t = Ok r /\ holds r ra rb rc /\
   length ra = length a /\ length rb = length b /\ length rc = length c /\
   (forall k, (k < length a)%nat -> nth k ra 0 = op (nth k a 0) (nth k a' 0)) /\
   (forall k, (k < length b)%nat -> nth k rb 0 = op (nth k b 0) (nth k b' 0)) /\
   (forall k, (k < length c)%nat -> nth k rc 0 = op (nth k c 0) (nth k c' 0)).
Proof.
  intros (A1 & A2 & A3) (B1 & B2 & B3) La Lb Lc.
  unfold gop, vop. rewrite A1, A2, A3, B1, B2, B3. cbn [need bind]. rewrite La, Lb, Lc, !Nat.eqb_refl. cbn [bind].
  do 4 eexists. split; [reflexivity|]. split; [repeat split|].
  split; [now apply map_pair_length|]. split; [now apply map_pair_length|]. split; [now apply map_pair_length|].
  assert (G : forall u v k, length v = length u -> (k < length u)%nat ->
    nth k (map (fun p => op (fst p) (snd p)) (combine u v)) 0 = op (nth k u 0) (nth k v 0)).
  { intros u v k E Hk. rewrite (nth_indep _ 0 ((fun p => op (fst p) (snd p)) (0, 0))) by (rewrite map_pair_length; auto).
    rewrite (map_nth (fun p => op (fst p) (snd p))), combine_nth by auto. reflexivity. }
  repeat split; intros; now apply G.
Qed.

(** * mean *)
Lemma Rsum_map_minus (l : list R) m : Rsum (map (fun x => x - m) l) = Rsum l - INR (length l) * m.
Proof. induction l as [|x l IH]; cbn [map Rsum length]; [cbn; lra|]. rewrite IH, S_INR. lra. Qed.
Lemma Rmean_zero (l : list R) : l <> [] -> Rmean (map (fun x => x - Rmean l) l) = 0.
Proof.
  intros H. unfold Rmean at 1. rewrite Rsum_map_minus, map_length. unfold Rmean.
  assert (INR (length l) <> 0) by (apply not_0_INR; destruct l; [congruence|discriminate]). field. exact H0.
Qed.
Definition selected (l : list R) (indices : option (list nat)) : list R :=
  match indices with None => l | Some idx => map (fun i => nth i l 0) idx end.
Definition valid_sel (n : nat) (indices : option (list nat)) : Prop :=
  match indices with None => n <> 0%nat | Some idx => idx <> [] /\ forall i, In i idx -> (i < n)%nat end.
Lemma pick_ok l indices : valid_sel (length l) indices -> pick l indices = Ok (selected l indices) /\ selected l indices <> [].
Proof.
  unfold valid_sel, pick, selected. destruct indices as [idx|].
  - intros [H1 H2]. assert (forallb (fun i => (i <? length l)%nat) idx = true) as ->.
    { apply forallb_forall. intros i Hi. apply H2 in Hi. lia. }
    destruct idx; [congruence|]. split; [reflexivity|discriminate].
  - intros H. destruct l; [cbn in H; congruence|]. split; [reflexivity|discriminate].
Qed.
Lemma selected_map l f indices : valid_sel (length l) indices -> selected (map f l) indices = map f (selected l indices).
Proof.
  unfold valid_sel, selected. destruct indices as [idx|]; [|reflexivity]. intros [_ H]. rewrite map_map. apply map_ext_in.
  intros i Hi. apply H in Hi. rewrite (nth_indep _ 0 (f 0)) by (rewrite map_length; exact Hi). apply map_nth.
Qed.
Lemma gmean_spec g apply indices a b c : holds g a b c -> length b = length a -> length c = length a -> valid_sel (length a) indices ->
  exists g' m1 m2 m3, gmean g apply indices = Ok (g', (m1, m2, m3)) /\
    m1 = Rsum (selected a indices) / INR (length (selected a indices)) /\
    m2 = Rsum (selected b indices) / INR (length (selected b indices)) /\
    m3 = Rsum (selected c indices) / INR (length (selected c indices)) /\
    (apply = false -> g' = g) /\
    (apply = true -> exists a' b' c', holds g' a' b' c' /\ a = map (fun x => x + m1) a' /\ b = map (fun x => x + m2) b' /\ c = map (fun x => x + m3) c' /\
       Rsum (selected a' indices) / INR (length (selected a' indices)) = 0 /\
       Rsum (selected b' indices) / INR (length (selected b' indices)) = 0 /\
       Rsum (selected c' indices) / INR (length (selected c' indices)) = 0).
Proof.
  intros (H1 & H2 & H3) Lb Lc V. unfold gmean. rewrite H1, H2, H3. cbn [need bind].
  assert (Vb : valid_sel (length b) indices) by now rewrite Lb. assert (Vc : valid_sel (length c) indices) by now rewrite Lc.
  destruct (pick_ok a indices V) as [-> Na]. destruct (pick_ok b indices Vb) as [-> Nb]. destruct (pick_ok c indices Vc) as [-> Nc].
  cbn [bind]. do 4 eexists. split; [reflexivity|]. do 3 (split; [reflexivity|]). split; [intros ->; reflexivity|]. intros ->.
  do 3 eexists. split; [repeat split|].
  assert (B : forall l m, l = map (fun x => x + m) (map (fun x => x - m) l)).
  { intros l m. rewrite map_map. symmetry. apply map_id_on. intros; lra. }
  do 3 (split; [apply B|]).
  assert (Z : forall l, valid_sel (length l) indices -> selected l indices <> [] ->
     Rsum (selected (map (fun x => x - Rmean (selected l indices)) l) indices) / INR (length (selected (map (fun x => x - Rmean (selected l indices)) l) indices)) = 0).
  { intros l Vl Nl. rewrite selected_map by exact Vl. apply (Rmean_zero (selected l indices) Nl). }
  repeat split; apply Z; assumption.
Qed.

Lemma cartesian_linear2 kl p q g1 g2 g3 x1 y1 z1 x2 y2 z2 :
  holds_xyz g1 x1 y1 z1 -> holds_xyz g2 x2 y2 z2 -> holds_xyz g3 (lin p q x1 x2) (lin p q y1 y2) (lin p q z1 z2) ->
  length x1 = length x2 -> length y1 = length y2 -> length z1 = length z2 ->
  radius g1 = radius g2 -> radius g3 = radius g1 ->
  exists r1 r2 r3 a1 b1 c1 a2 b2 c2,
    from_cartesian kl g1 = Ok r1 /\ from_cartesian kl g2 = Ok r2 /\ from_cartesian kl g3 = Ok r3 /\
    holds r1 a1 b1 c1 /\ holds r2 a2 b2 c2 /\ holds r3 (lin p q a1 a2) (lin p q b1 b2) (lin p q c1 c2).
Proof.
  intros (A1 & A2 & A3) (B1 & B2 & B3) (C1 & C2 & C3) La Lb Lc R1 R2.
  unfold from_cartesian. rewrite A1, A2, A3, B1, B2, B3, C1, C2, C3. cbn [vmap bind].
  destruct (try3 _ (sZ g1) (sX g1) (sY g1) _ _ _) as [[? ?] ?].
  destruct (try3 _ (sZ g2) (sX g2) (sY g2) _ _ _) as [[? ?] ?].
  destruct (try3 _ (sZ g3) (sX g3) (sY g3) _ _ _) as [[? ?] ?].
  do 9 eexists. do 3 (split; [reflexivity|]). split; [repeat split|]. split; [repeat split|].
  unfold holds. cbn [gC10 gC11 gS11]. rewrite R2, <- R1.
  repeat split; f_equal; apply lin_map; try assumption; intros; unfold Rdiv; lra.
Qed.
Lemma gscale_radius g a b c s p : holds g a b c ->
  (exists r, gscale s g = Ok r /\ radius r = default_radius /\ holds r (map (fun x => s * x) a) (map (fun x => s * x) b) (map (fun x => s * x) c)) /\
  (exists r, gpower p g = Ok r /\ radius r = default_radius /\ holds r (map (fun x => x ^ p) a) (map (fun x => x ^ p) b) (map (fun x => x ^ p) c)).
Proof.
  intros (H1 & H2 & H3). unfold gscale, gpower, gmapnew. rewrite H1, H2, H3. cbn [vmap bind].
  split; eexists; (split; [reflexivity|]); repeat split.
Qed.
