(** Properties C29-C32: class geocenter (gravity_toolkit/geocenter.py).
    [holds g a b c]: the C10, C11, S11 series of [g] are a, b, c;
    [holds_xyz g x y z]: the X, Y, Z series are x, y, z. *)
From Coq Require Import Reals Lra.
From Verif Require Import Base Arr HarmModel HarmProofs HarmProofs2 GeoModel GeoProofs.
Close Scope Z_scope.
Open Scope R_scope.

(** a concrete object: two months of degree one coefficients *)
Definition ex_geo : geo := mkgeo (Some [1; 2]) (Some [3; -4]) (Some [5; 6]) None None None None None None None None None
  (TArr [2005; 2006]) (TArr [37%Z; 49%Z]) 6371000.
Lemma ex_geo_holds : holds ex_geo [1; 2] [3; -4] [5; 6]. Proof. repeat split. Qed.
Lemma default_radius_pos : 0 < default_radius.
Proof. unfold default_radius. apply Rmult_lt_0_compat; [lra|]. apply exp_pos. Qed.

(** ** C29 *)
Theorem C29_cartesian_roundtrip : forall kl g a b c, holds g a b c -> kl <> -1 -> radius g <> 0 ->
  exists r, from_cartesian kl (to_cartesian kl g) = Ok r /\ holds r a b c /\ radius r = radius g /\
    gtime r = gtime g /\ gmonth r = gmonth g /\
    (forall ea eb ec, eC10 g = Some ea -> eC11 g = Some eb -> eS11 g = Some ec ->
       eC10 r = Some ea /\ eC11 r = Some eb /\ eS11 r = Some ec) /\
    holds_xyz (to_cartesian kl g) (map (fun v => v * radius g * sqrt 3 / (1 + kl)) b)
       (map (fun v => v * radius g * sqrt 3 / (1 + kl)) c) (map (fun v => v * radius g * sqrt 3 / (1 + kl)) a).
Proof. exact cartesian_roundtrip. Qed.
Print Assumptions C29_cartesian_roundtrip.

Theorem C29_inverse_roundtrip : forall kl g x y z, holds_xyz g x y z -> kl <> -1 -> radius g <> 0 ->
  exists r, from_cartesian kl g = Ok r /\ holds_xyz (to_cartesian kl r) x y z /\
    holds r (map (fun v => (1 + kl) * v / (radius g * sqrt 3)) z) (map (fun v => (1 + kl) * v / (radius g * sqrt 3)) x)
      (map (fun v => (1 + kl) * v / (radius g * sqrt 3)) y).
Proof. exact cartesian_roundtrip2. Qed.
Print Assumptions C29_inverse_roundtrip.

Theorem C29_linear : forall kl p q g1 g2 g3 a1 b1 c1 a2 b2 c2,
  holds g1 a1 b1 c1 -> holds g2 a2 b2 c2 -> holds g3 (lin p q a1 a2) (lin p q b1 b2) (lin p q c1 c2) ->
  length a1 = length a2 -> length b1 = length b2 -> length c1 = length c2 ->
  radius g1 = radius g2 -> radius g3 = radius g1 ->
  exists x1 y1 z1 x2 y2 z2, holds_xyz (to_cartesian kl g1) x1 y1 z1 /\ holds_xyz (to_cartesian kl g2) x2 y2 z2 /\
    holds_xyz (to_cartesian kl g3) (lin p q x1 x2) (lin p q y1 y2) (lin p q z1 z2).
Proof. exact cartesian_linear. Qed.
Print Assumptions C29_linear.

Theorem C29_inverse_linear : forall kl p q g1 g2 g3 x1 y1 z1 x2 y2 z2,
  holds_xyz g1 x1 y1 z1 -> holds_xyz g2 x2 y2 z2 -> holds_xyz g3 (lin p q x1 x2) (lin p q y1 y2) (lin p q z1 z2) ->
  length x1 = length x2 -> length y1 = length y2 -> length z1 = length z2 ->
  radius g1 = radius g2 -> radius g3 = radius g1 ->
  exists r1 r2 r3 a1 b1 c1 a2 b2 c2,
    from_cartesian kl g1 = Ok r1 /\ from_cartesian kl g2 = Ok r2 /\ from_cartesian kl g3 = Ok r3 /\
    holds r1 a1 b1 c1 /\ holds r2 a2 b2 c2 /\ holds r3 (lin p q a1 a2) (lin p q b1 b2) (lin p q c1 c2).
Proof. exact cartesian_linear2. Qed.
Print Assumptions C29_inverse_linear.

(** without coordinates the inverse conversion raises *)
Theorem C29_no_coordinates : forall kl g, gZ g = None -> from_cartesian kl g = Err TypeError.
Proof. intros kl g H. unfold from_cartesian. now rewrite H. Qed.
Print Assumptions C29_no_coordinates.

Example C29_example : holds ex_geo [1; 2] [3; -4] [5; 6] /\ 21/1000 <> -1 /\ radius ex_geo <> 0 /\
  exists r, from_cartesian (21/1000) (to_cartesian (21/1000) ex_geo) = Ok r /\ holds r [1; 2] [3; -4] [5; 6].
Proof.
  split; [exact ex_geo_holds|]. split; [lra|]. assert (radius ex_geo <> 0) by (cbn; lra). split; [assumption|].
  destruct (cartesian_roundtrip (21/1000) ex_geo _ _ _ ex_geo_holds ltac:(lra) ltac:(assumption)) as (r & ? & ? & _). eauto.
Qed.

(** ** C30 *)
Theorem C30_cmwe_roundtrip : forall kl g a b c, holds g a b c -> kl <> -1 ->
  (exists r r', to_cmwe kl g = Ok r /\ from_cmwe kl r = Ok r' /\ holds r' a b c) /\
  (exists r r', from_cmwe kl g = Ok r /\ to_cmwe kl r = Ok r' /\ holds r' a b c).
Proof. exact cmwe_roundtrip. Qed.
Print Assumptions C30_cmwe_roundtrip.
Theorem C30_mmwe_roundtrip : forall kl g a b c, holds g a b c -> kl <> -1 ->
  (exists r r', to_mmwe kl g = Ok r /\ from_mmwe kl r = Ok r' /\ holds r' a b c) /\
  (exists r r', from_mmwe kl g = Ok r /\ to_mmwe kl r = Ok r' /\ holds r' a b c) /\
  (exists q r qa qb qc, to_cmwe kl g = Ok q /\ to_mmwe kl g = Ok r /\ holds q qa qb qc /\
     holds r (map (fun v => 10 * v) qa) (map (fun v => 10 * v) qb) (map (fun v => 10 * v) qc)).
Proof. exact mmwe_roundtrip. Qed.
Print Assumptions C30_mmwe_roundtrip.
(** the values: coefficient * (density of the Earth in g/cm^3) * (radius of the
    Earth in cm) / (1 + kl) *)
Theorem C30_cmwe_values : forall kl g a b c, holds g a b c -> exists r, to_cmwe kl g = Ok r /\
  holds r (map (fun v => v * (5517 / 1000 * 637100000 / (1 + kl))) a) (map (fun v => v * (5517 / 1000 * 637100000 / (1 + kl))) b)
          (map (fun v => v * (5517 / 1000 * 637100000 / (1 + kl))) c).
Proof. exact cmwe_values. Qed.
Print Assumptions C30_cmwe_values.
Example C30_example : holds ex_geo [1; 2] [3; -4] [5; 6] /\ 0 <> -1. Proof. split; [exact ex_geo_holds|lra]. Qed.

(** ** C31 *)
Theorem C31_copy_keeps_fields : forall g, gC10 (gcopy g) = gC10 g /\ gC11 (gcopy g) = gC11 g /\ gS11 (gcopy g) = gS11 g /\
  eC10 (gcopy g) = eC10 g /\ eC11 (gcopy g) = eC11 g /\ eS11 (gcopy g) = eS11 g /\
  gX (gcopy g) = gX g /\ gY (gcopy g) = gY g /\ gZ (gcopy g) = gZ g /\
  gtime (gcopy g) = gtime g /\ gmonth (gcopy g) = gmonth g.
Proof. exact gcopy_coeffs. Qed.
Print Assumptions C31_copy_keeps_fields.
Theorem C31_copy_converts_alike_default_radius : forall kl g, radius g = default_radius ->
  gX (to_cartesian kl (gcopy g)) = gX (to_cartesian kl g) /\
  gY (to_cartesian kl (gcopy g)) = gY (to_cartesian kl g) /\
  gZ (to_cartesian kl (gcopy g)) = gZ (to_cartesian kl g).
Proof. exact gcopy_default. Qed.
Print Assumptions C31_copy_converts_alike_default_radius.
(** with any other radius, the copy converts differently *)
Theorem C31_copy_radius_refuted : forall kl g v w u, holds g [v] [w] [u] -> v <> 0 -> kl <> -1 -> radius g <> default_radius ->
  gZ (to_cartesian kl (gcopy g)) <> gZ (to_cartesian kl g).
Proof. exact gcopy_radius_lost. Qed.
Print Assumptions C31_copy_radius_refuted.
(** also the scaled and powered objects forget the radius, and the uncertainties
    of the cartesian coordinates are not copied *)
Theorem C31_scale_radius_refuted : forall g a b c s p, holds g a b c ->
  (exists r, gscale s g = Ok r /\ radius r = default_radius /\ holds r (map (fun x => s * x) a) (map (fun x => s * x) b) (map (fun x => s * x) c)) /\
  (exists r, gpower p g = Ok r /\ radius r = default_radius /\ holds r (map (fun x => x ^ p) a) (map (fun x => x ^ p) b) (map (fun x => x ^ p) c)).
Proof. exact gscale_radius. Qed.
Print Assumptions C31_scale_radius_refuted.
Theorem C31_copy_sigma_refuted : forall g, sX (gcopy g) = None /\ sY (gcopy g) = None /\ sZ (gcopy g) = None.
Proof. repeat split. Qed.
Print Assumptions C31_copy_sigma_refuted.
Example C31_example : exists g, holds g [1] [1] [1] /\ radius g <> default_radius /\ radius new_geo = default_radius.
Proof.
  exists (mkgeo (Some [1]) (Some [1]) (Some [1]) None None None None None None None None None TNone TNone (-1)).
  split; [repeat split|]. split; [|reflexivity]. cbn [radius]. pose proof default_radius_pos. lra.
Qed.

(** ** C32 *)
Theorem C32_matrix_roundtrip : forall g a b c, holds g a b c -> length b = length a -> length c = length a ->
  exists cm sm r, to_matrix g = Ok (cm, sm) /\ rows cm = 2%nat /\ cols cm = 2%nat /\ depth cm = Some (length a) /\
    (forall t, (t < length a)%nat -> get cm 1 0 t = nth t a 0 /\ get cm 1 1 t = nth t b 0 /\ get sm 1 1 t = nth t c 0 /\
        get cm 0 0 t = 0 /\ get cm 0 1 t = 0 /\ get sm 1 0 t = 0 /\ get sm 0 0 t = 0 /\ get sm 0 1 t = 0) /\
    from_matrix g cm sm = Ok r /\ holds r a b c.
Proof. exact matrix_roundtrip. Qed.
Print Assumptions C32_matrix_roundtrip.

(** Series of different lengths: a series of one epoch is repeated over the epochs of C10, any other length is a ValueError. *)
Theorem C32_matrix_lengths : forall g a b c, holds g a b c ->
  (forall cm sm, to_matrix g = Ok (cm, sm) -> (length b = length a \/ length b = 1%nat) /\ (length c = length a \/ length c = 1%nat) /\ depth cm = Some (length a) /\ depth sm = Some (length a) /\
     forall t, (t < length a)%nat -> get cm 1 0 t = nth t a 0 /\ get cm 1 1 t = nth (if Nat.eqb (length b) (length a) then t else 0%nat) b 0 /\
       get sm 1 1 t = nth (if Nat.eqb (length c) (length a) then t else 0%nat) c 0) /\
  ((length b = length a \/ length b = 1%nat) -> (length c = length a \/ length c = 1%nat) -> exists m, to_matrix g = Ok m) /\
  (((length b <> length a /\ length b <> 1%nat) \/ (length c <> length a /\ length c <> 1%nat)) -> to_matrix g = Err ValueError).
Proof.
  intros g a b c (H1 & H2 & H3). unfold to_matrix. rewrite H1, H2, H3. cbn [need bind]. unfold bcast. rewrite Nat.eqb_refl. cbn [bind].
  destruct (Nat.eqb_spec (length b) (length a)) as [B|B]; destruct (Nat.eqb_spec (length c) (length a)) as [C|C];
  destruct (Nat.eqb_spec (length b) 1) as [B1|B1]; destruct (Nat.eqb_spec (length c) 1) as [C1|C1]; cbn [bind];
  (split; [intros cm sm E; try discriminate E; injection E as <- <-; cbn [depth get]; do 2 (split; [tauto|]); do 2 (split; [reflexivity|]); intros; cbn; auto | split; [intros [?|?] [?|?]; try contradiction; eauto | intros [[? ?]|[? ?]]; try contradiction; reflexivity]]).
Qed.
Print Assumptions C32_matrix_lengths.
Example C32_lengths_example : exists g cm sm, holds g [1; 2] [3] [4; 5] /\ to_matrix g = Ok (cm, sm) /\ get cm 1 1 1 = 3 /\ get sm 1 1 1 = 5.
Proof.
  exists (mkgeo (Some [1; 2]) (Some [3]) (Some [4; 5]) None None None None None None None None None TNone TNone 1). do 2 eexists.
  split; [repeat split|]. split; [reflexivity|]. split; reflexivity.
Qed.
Theorem C32_from_harmonics : forall h, wf h -> (1 <= lmax h)%nat -> (1 <= mmax h)%nat ->
  exists g, from_harmonics h = Ok g /\ gtime g = time h /\ gmonth g = month h /\
    holds g (map (fun t => get (clm h) 1 0 t) (seq 0 (nslice (clm h)))) (map (fun t => get (clm h) 1 1 t) (seq 0 (nslice (clm h))))
            (map (fun t => get (slm h) 1 1 t) (seq 0 (nslice (clm h)))) /\
    exists r, from_matrix g (clm h) (slm h) = Ok r /\ gC10 r = gC10 g /\ gC11 r = gC11 g /\ gS11 r = gS11 g.
Proof. exact from_harmonics_spec. Qed.
Print Assumptions C32_from_harmonics.
Theorem C32_from_harmonics_no_degree1 : forall h, wf h -> (lmax h = 0 \/ mmax h = 0)%nat -> from_harmonics h = Err IndexError.
Proof. exact from_harmonics_short. Qed.
Print Assumptions C32_from_harmonics_no_degree1.
Theorem C32_add_subtract_inverse : forall g t a b c a' b' c', holds g a b c -> holds t a' b' c' ->
  (length a' = length a \/ length a' = 1%nat) -> (length b' = length b \/ length b' = 1%nat) -> (length c' = length c \/ length c' = 1%nat) ->
  exists r r', gadd g t = Ok r /\ gsub r t = Ok r' /\ holds r' a b c /\ radius r' = radius g /\ gtime r' = gtime g /\ gmonth r' = gmonth g.
Proof. intros. apply (gop_inverse Rplus Rminus g t a b c a' b' c'); auto. intros; lra. Qed.
Print Assumptions C32_add_subtract_inverse.
Theorem C32_multiply_divide_inverse : forall g t a b c a' b' c', holds g a b c -> holds t a' b' c' ->
  (length a' = length a \/ length a' = 1%nat) -> (length b' = length b \/ length b' = 1%nat) -> (length c' = length c \/ length c' = 1%nat) ->
  (forall y, In y a' \/ In y b' \/ In y c' -> y <> 0) ->
  exists r r', gmul g t = Ok r /\ gdiv r t = Ok r' /\ holds r' a b c /\ radius r' = radius g /\ gtime r' = gtime g /\ gmonth r' = gmonth g.
Proof. intros. apply (gop_inverse Rmult Rdiv g t a b c a' b' c'); auto. intros x y Hy. apply H4 in Hy. field. exact Hy. Qed.
Print Assumptions C32_multiply_divide_inverse.
(** the four operations act element by element *)
Theorem C32_elementwise : forall g t a b c a' b' c', holds g a b c -> holds t a' b' c' ->
  length a' = length a -> length b' = length b -> length c' = length c ->
  forall f op, In (f, op) [(gadd, Rplus); (gsub, Rminus); (gmul, Rmult); (gdiv, Rdiv)] ->
  exists r ra rb rc, f g t = Ok r /\ holds r ra rb rc /\
   length ra = length a /\ length rb = length b /\ length rc = length c /\
   (forall k, (k < length a)%nat -> nth k ra 0 = op (nth k a 0) (nth k a' 0)) /\
   (forall k, (k < length b)%nat -> nth k rb 0 = op (nth k b 0) (nth k b' 0)) /\
   (forall k, (k < length c)%nat -> nth k rc 0 = op (nth k c 0) (nth k c' 0)).
Proof.
  intros g t a b c a' b' c' H1 H2 L1 L2 L3 f op [E|[E|[E|[E|[]]]]]; injection E as <- <-; now apply (gop_values _ g t a b c a' b' c').
Qed.
Print Assumptions C32_elementwise.
Theorem C32_mean : forall g apply indices a b c, holds g a b c -> length b = length a -> length c = length a -> valid_sel (length a) indices ->
  exists g' m1 m2 m3, gmean g apply indices = Ok (g', (m1, m2, m3)) /\
    m1 = Rsum (selected a indices) / INR (length (selected a indices)) /\
    m2 = Rsum (selected b indices) / INR (length (selected b indices)) /\
    m3 = Rsum (selected c indices) / INR (length (selected c indices)) /\
    (apply = false -> g' = g) /\
    (apply = true -> exists a' b' c', holds g' a' b' c' /\ a = map (fun x => x + m1) a' /\ b = map (fun x => x + m2) b' /\ c = map (fun x => x + m3) c' /\
       Rsum (selected a' indices) / INR (length (selected a' indices)) = 0 /\
       Rsum (selected b' indices) / INR (length (selected b' indices)) = 0 /\
       Rsum (selected c' indices) / INR (length (selected c' indices)) = 0).
Proof. exact gmean_spec. Qed.
Print Assumptions C32_mean.
Example C32_example : holds ex_geo [1; 2] [3; -4] [5; 6] /\ valid_sel 2 None /\ valid_sel 2 (Some [1%nat]) /\
  exists g' m2 m3, gmean ex_geo false (Some [1%nat]) = Ok (g', (2 / 1, m2, m3)).
Proof.
  split; [exact ex_geo_holds|]. split; [cbn; discriminate|]. split; [split; [discriminate|intros i [<-|[]]; lia]|].
  do 3 eexists. unfold gmean, ex_geo, Rmean. cbn. do 4 f_equal. lra.
Qed.
