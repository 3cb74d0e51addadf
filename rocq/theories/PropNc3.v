(** C117: reading without dates, and the cases in which something is lost. *)
From Coq Require Import Reals Lra String Bool.
From Verif Require Import Base TimeModel Arr HarmModel AdjustProofs HarmProofs HarmProofs2 HarmProofs3 NcModel PropNc PropNc2 PropHarm.
Close Scope Z_scope.
Close Scope R_scope.
Open Scope nat_scope.
Open Scope list_scope.

Lemma default_plain : plain default_opts.
Proof. split; [reflexivity|]. split; [reflexivity|]. repeat constructor; discriminate. Qed.

(** REFUTED: the units of a field that was read are not those of the file that is written from it: without the argument units it is labelled as normalised coefficients *)
Theorem C117_units_refuted : forall k s o x p q fs ts ms, dated (o_h x) ts ms -> plain o -> w_date o = true -> w_months_name o = "month"%string -> free o fs p -> storable (root x) ->
  exists fs1 x1 y fs2 y' z, write_file k s o x p fs = (fs1, x1, Ok tt) /\ read_file true p fs1 = Ok y /\ write_file k s default_opts y q fs1 = (fs2, y', Ok tt) /\ read_file true q fs2 = Ok z /\
    dget "clm" (o_attrs y) = Some (AList [w_units o; "cosine_spherical_harmonics"])%string /\
    dget "clm" (o_attrs z) = Some (AList ["Geodesy_Normalization"; "cosine_spherical_harmonics"])%string.
Proof.
  intros k s o x p q fs ts ms D P DT MN FR ST. destruct (C117_roundtrip k s o x p fs ts ms D P DT MN FR ST) as (fs1 & x1 & y & W & _ & R & S & L & SY & _).
  pose proof (same_dated _ _ _ _ D S) as DY. destruct (C117_roundtrip k s default_opts y q fs1 ts ms DY default_plain eq_refl eq_refl (or_introl eq_refl) SY) as (fs2 & y' & z & W2 & _ & R2 & _ & L2 & _).
  exists fs1, x1, y, fs2, y', z. repeat (split; [assumption|]). split; [apply L|apply L2].
Qed.
Print Assumptions C117_units_refuted.

(** REFUTED: a title of one file appears in the next file written from the same object, if the object has file attributes *)
Theorem C117_title_sticks_refuted : forall k s o x p q fs ts ms title, dated (o_h x) ts ms -> plain o -> w_date o = true -> w_months_name o = "month"%string -> free o fs p -> storable (root x) ->
  w_title o = Some title -> title <> ""%string ->
  exists fs1 x1 fs2 x2 z, write_file k s o x p fs = (fs1, x1, Ok tt) /\ write_file k s default_opts x1 q fs1 = (fs2, x2, Ok tt) /\ read_file true q fs2 = Ok z /\
    dget "title" (root z) = (if root x then dget "title" (root x) else Some (AText title)).
Proof.
  intros k s o x p q fs ts ms title D P DT MN FR ST HT NT. assert (MN' : month_name (w_months_name o)) by (rewrite MN; unfold month_name; cbn; intuition discriminate).
  destruct (C117_object_after k s o x p fs ts ms D P DT MN' FR ST) as (fs1 & x1 & W & OH & R0 & S1 & R1).
  rewrite <- OH in D. destruct (C117_roundtrip k s default_opts x1 q fs1 ts ms D default_plain eq_refl eq_refl (or_introl eq_refl) S1) as (fs2 & x2 & z & W2 & _ & R2 & _ & _ & _ & G).
  exists fs1, x1, fs2, x2, z. repeat (split; [assumption|]). rewrite G. cbn. destruct (root x) as [|e d] eqn:RX.
  - rewrite (R0 eq_refl), RX. reflexivity.
  - rewrite R1 by discriminate. rewrite HT. cbn. destruct title; [congruence|reflexivity].
Qed.
Print Assumptions C117_title_sticks_refuted.

(** REFUTED: with another name of the months the file is written but cannot be read with dates *)
Theorem C117_months_name_refuted : forall k s o x p fs ts ms, dated (o_h x) ts ms -> plain o -> w_date o = true -> month_name (w_months_name o) -> w_months_name o <> "month"%string -> free o fs p -> storable (root x) ->
  exists fs' x', write_file k s o x p fs = (fs', x', Ok tt) /\ read_file true p fs' = Err KeyError.
Proof.
  intros k s o x p fs ts ms D P DT MN NM FR ST. destruct (dated_nc _ _ _ D) as (t & r & T & FT & FM & R & S).
  destruct (write_main k s o x p fs t ts ms P MN FR ST) as (d & W & SD & G); [now rewrite DT|rewrite DT; now split|].
  eexists _, _. split; [exact W|]. unfold read_file. rewrite put_same. unfold vars_of. rewrite DT.
  unfold get_idx, get_coef, get_time, get_month, get_var. cbn [n_vars app].
  cbn [dget String.eqb Ascii.eqb Bool.eqb bind v_data fst snd n_root]. rewrite (eqb_ne _ _ NM). reflexivity.
Qed.
Print Assumptions C117_months_name_refuted.

(** ** without dates *)
Lemma from_undated_ok L M D (gc gs : nat * nat -> nat -> R) : M <= L -> (D = None -> 1 <= M) -> let ps := lm_loop L M in
  exists r, from_undated (mkflat 0 0 (map fst ps) (map snd ps) D (map gc ps) (map gs ps) TNone TNone) = Ok r /\ lmax r = L /\ mmax r = M /\ time r = TNone /\ month r = TNone /\
    (rows (clm r) = L + 1 /\ cols (clm r) = M + 1 /\ depth (clm r) = match D with Some 1 => None | _ => D end) /\ same_shape (clm r) (slm r) /\
    forall l m t, l <= L -> m <= M -> (D = Some 1 -> t = 0) -> get (clm r) l m t = (if m <=? l then gc (l, m) t else 0%R) /\ get (slm r) l m t = (if m <=? l then gs (l, m) t else 0%R).
Proof.
  intros HM HD ps. set (z := full (L + 1) (M + 1) D 0%R).
  assert (NL : nat_max (map fst ps) = Ok L).
  { apply nat_max_eq.
    - intros x Hx. apply in_map_iff in Hx as ([l m] & <- & Hin). apply lm_loop_in in Hin. cbn. lia.
    - apply in_map_iff. exists (L, 0). split; [reflexivity|]. apply lm_loop_in. lia. }
  assert (NM : nat_max (map snd ps) = Ok M).
  { apply nat_max_eq.
    - intros x Hx. apply in_map_iff in Hx as ([l m] & <- & Hin). apply lm_loop_in in Hin. cbn. lia.
    - apply in_map_iff. exists (M, M). split; [reflexivity|]. apply lm_loop_in. lia. }
  assert (Hb : forall l m, In (l, m) ps -> l < rows z /\ m < cols z).
  { intros l m Hin. apply lm_loop_in in Hin. cbn [z full rows cols]. lia. }
  destruct (scatter_ok ps gc z Hb (lm_loop_nodup _ _)) as (c & Ec & (C1 & C2 & C3) & Vc). destruct (scatter_ok ps gs z Hb (lm_loop_nodup _ _)) as (s & Es & (S1 & S2 & S3) & Vs).
  cbn [z full rows cols depth get] in C1, C2, C3, S1, S2, S3.
  unfold from_undated. cbn [f_l f_m f_depth f_clm f_slm f_time f_month]. rewrite NL, NM. cbn [bind]. unfold expand. cbn [f_lmax f_mmax f_l f_m f_depth f_clm f_slm f_time f_month]. fold z. rewrite Ec. cbn [bind]. rewrite Es. cbn [bind].
  assert (V : forall l m t, l <= L -> m <= M -> get c l m t = (if m <=? l then gc (l, m) t else 0%R) /\ get s l m t = (if m <=? l then gs (l, m) t else 0%R)).
  { intros l m t I1 I2. destruct (Vc l m t) as [V1 V2], (Vs l m t) as [V3 V4]. destruct (Nat.leb_spec m l).
    - split; [apply V1|apply V3]; apply lm_loop_in; lia.
    - rewrite V2, V4; [now split| |]; unfold ps; rewrite lm_loop_in; lia. }
  unfold squeeze. cbn [clm slm lmax mmax time month]. rewrite C3. destruct D as [[|[|n]]|].
  - eexists. split; [reflexivity|]. cbn [clm slm lmax mmax time month]. repeat (split; [reflexivity|]). split; [repeat split; assumption|]. split; [repeat split; congruence|]. intros l m t A B _. now apply V.
  - eexists. split; [reflexivity|]. cbn [clm slm lmax mmax time month tsqueeze]. repeat (split; [reflexivity|]). cbn [slice rows cols depth get]. split; [repeat split; assumption|]. split; [repeat split; cbn [slice rows cols depth]; congruence|]. intros l m t A B T. rewrite (T eq_refl). now apply V.
  - eexists. split; [reflexivity|]. cbn [clm slm lmax mmax time month]. repeat (split; [reflexivity|]). split; [repeat split; assumption|]. split; [repeat split; congruence|]. intros l m t A B _. now apply V.
  - destruct (Nat.eqb_spec (cols c) 1); [specialize (HD eq_refl); lia|]. eexists. split; [reflexivity|]. cbn [clm slm lmax mmax time month]. repeat (split; [reflexivity|]). split; [repeat split; assumption|]. split; [repeat split; congruence|]. intros l m t A B _. now apply V.
Qed.
(** a field without dates (for HDF5 also a series) is read again without dates *)
Theorem C117_undated : forall k s o x p fs, wf (o_h x) -> mmax (o_h x) <= lmax (o_h x) -> plain o -> w_date o = false -> month_name (w_months_name o) -> free o fs p -> storable (root x) ->
  match depth (clm (o_h x)) with None => 1 <= mmax (o_h x) | Some n => n <> 1 /\ k = HDF5 end ->
  exists fs' x' y, write_file k s o x p fs = (fs', x', Ok tt) /\ (forall q, q <> p -> fs' q = fs q) /\
    read_file false p fs' = Ok y /\ same_field (mkharm (lmax (o_h x)) (mmax (o_h x)) (clm (o_h x)) (slm (o_h x)) TNone TNone) (o_h y) /\ labelled o y /\ forall n, dget n (root y) = root_spec s o (root x) n.
Proof.
  intros k s o x p fs W HM P DT MN FR ST HD. set (h := o_h x) in *. pose proof W as (W1 & W2 & (W3 & W4 & W5) & _).
  pose proof (flatten_ok h false ltac:(lia)) as T. set (ps := lm_loop (lmax h) (mmax h)) in *. set (t := mkflat _ _ _ _ _ _ _ _ _) in T.
  assert (KD : k = HDF5 \/ f_depth t = None) by (cbn [t f_depth]; destruct (depth (clm h)); tauto).
  destruct (write_main k s o x p fs t [] [] P MN FR ST) as (d & WR & SD & G); [rewrite DT; exact T|rewrite DT; exact KD|].
  destruct (from_undated_ok (lmax h) (mmax h) (depth (clm h)) (fun q u => get (clm h) (fst q) (snd q) u) (fun q u => get (slm h) (fst q) (snd q) u) HM) as (r & R & A & B & C & E & (R1 & R2 & R3) & (Q1 & Q2 & Q3) & V).
  { intros N. now rewrite N in HD. }
  rewrite DT in WR. eexists _, _, _. split; [exact WR|]. split; [intros q; apply put_other|]. unfold read_file. rewrite put_same. unfold vars_of. rewrite DT.
  cbn [get_idx get_coef get_time get_month get_var dget n_vars app String.eqb Ascii.eqb Bool.eqb bind v_data fst snd n_root]. cbn [t f_l f_m f_depth f_clm f_slm].
  fold ps in R. rewrite R. cbn [bind]. split; [reflexivity|]. cbn [o_h o_attrs].
  assert (D1 : match depth (clm h) with Some 1 => None | _ => depth (clm h) end = depth (clm h)) by (destruct (depth (clm h)) as [[|[|n]]|]; tauto).
  split; [|split; [split; [reflexivity|]; repeat (split; [reflexivity|]); congruence|exact G]]. unfold same_field. cbn [lmax mmax time month clm slm]. repeat (split; [assumption|]).
  assert (N1 : depth (clm h) <> Some 1) by (destruct (depth (clm h)); [intros [= ->]; tauto|discriminate]).
  assert (R4 : depth (clm r) = depth (clm h)) by (rewrite R3; exact D1). clear D1 R3. split; (split; [repeat split; congruence|]); intros l m u (I1 & I2 & I3); apply V; try lia; intros; contradiction.
Qed.
Print Assumptions C117_undated.
(** REFUTED: a series without dates cannot be written to netCDF4, and the earlier file is lost *)
Theorem C117_undated_series_refuted : forall s o x p fs n, wf (o_h x) -> mmax (o_h x) <= lmax (o_h x) -> plain o -> w_date o = false -> month_name (w_months_name o) -> w_clobber o = true -> depth (clm (o_h x)) = Some n ->
  exists fs' x', write_file NetCDF4 s o x p fs = (fs', x', Err ValueError) /\ read_file false p fs' = Err KeyError.
Proof.
  intros s o x p fs n W HM P DT MN FR HD. pose proof (flatten_ok (o_h x) false ltac:(lia)) as T. unfold write_file. rewrite (opened_free NetCDF4 o fs p (or_introl FR)), DT, T, (attributes_ok o x P MN). cbn [bind]. rewrite titled_ok. cbn iota. rewrite make_dims_ok. cbn iota.
  unfold mapping. rewrite (proj1 P), DT. cbn [app].
  do 2 (erewrite fill_step; [cbn [n_dims n_vars n_root app]|cbn; reflexivity|cbn; reflexivity|unfold described; rewrite DT; cbn; reflexivity|apply kept_label; discriminate]).
  cbn [fill data_of String.eqb Ascii.eqb Bool.eqb f_depth]. rewrite HD. eexists _, _. split; [reflexivity|]. unfold read_file. rewrite put_same. reflexivity.
Qed.
Print Assumptions C117_undated_series_refuted.
(** REFUTED: a field without dates that is written with dates fails, and the earlier file is lost *)
Theorem C117_failed_write_refuted : forall k s o x p fs, wf (o_h x) -> mmax (o_h x) <= lmax (o_h x) -> plain o -> w_date o = true -> month_name (w_months_name o) -> w_clobber o = true -> depth (clm (o_h x)) = None -> time (o_h x) = TNone ->
  exists fs' x', write_file k s o x p fs = (fs', x', Err TypeError) /\ read_file true p fs' = Err KeyError.
Proof.
  intros k s o x p fs W HM P DT MN FR HD TN. pose proof (flatten_ok (o_h x) true ltac:(lia)) as T. unfold write_file. rewrite (opened_free k o fs p (or_introl FR)), DT. unfold to_nc. rewrite T. cbn [bind].
  rewrite (attributes_ok o x P MN). cbn [bind]. rewrite titled_ok. cbn iota. rewrite make_dims_ok. cbn iota.
  unfold mapping. rewrite (proj1 P), DT. cbn [app f_depth f_clm f_slm f_time f_month f_lmax f_mmax f_l f_m]. rewrite HD, TN. cbn [atleast_1d]. destruct P as (_ & _ & F). rewrite !Forall_cons_iff in F.
  do 4 (erewrite fill_step; [cbn [n_dims n_vars n_root app]|cbn; destruct k; reflexivity|cbn; reflexivity|unfold described; rewrite DT; cbn; reflexivity|apply kept_label; (discriminate || tauto)]).
  cbn [fill data_of String.eqb Ascii.eqb Bool.eqb f_time]. destruct k; (eexists _, _; split; [reflexivity|]; unfold read_file; rewrite put_same; reflexivity).
Qed.
Print Assumptions C117_failed_write_refuted.

(** ** existing files that are not to be replaced *)
Theorem C117_no_clobber : forall k s o x p fs f, w_clobber o = false -> fs p = Some f -> (k = NetCDF4 -> In "lm"%string (n_dims f)) ->
  exists fs' x' e, write_file k s o x p fs = (fs', x', Err e) /\ forall q, fs' q = fs q.
Proof.
  intros k s o x p fs f C E H. assert (U : forall q, put fs p f q = fs q) by (intros q; unfold put; destruct (String.eqb_spec q p); congruence).
  unfold write_file. rewrite C, E. unfold opened. destruct k; [|eexists _, _, _; split; reflexivity].
  destruct (if w_date o then _ else _) as [t|e]; [|eexists _, _, _; split; [reflexivity|exact U]].
  destruct (do A <- attributes o x; titled o A) as [A|e]; [|eexists _, _, _; split; [reflexivity|exact U]].
  unfold make_dims, add_dim. assert (X : existsb (String.eqb "lm") (n_dims f) = true) by (apply existsb_exists; exists "lm"%string; split; [auto|reflexivity]). rewrite X. cbn iota. eexists _, _, _. split; [reflexivity|exact U].
Qed.
Print Assumptions C117_no_clobber.
(** REFUTED for other netCDF4 files: one with a time dimension (monthly grids) is changed although the call fails *)
Theorem C117_append_refuted : forall s o x p fs f t, w_clobber o = false -> fs p = Some f -> ~ In "lm"%string (n_dims f) -> In "time"%string (n_dims f) -> plain o -> w_date o = true -> month_name (w_months_name o) -> to_nc (o_h x) = Ok t ->
  exists fs' x', write_file NetCDF4 s o x p fs = (fs', x', Err OtherExn) /\ fs' p = Some (mknfile (n_dims f ++ ["lm"%string]) (n_vars f) (n_root f)).
Proof.
  intros s o x p fs f t C E NL HT P DT MN T. unfold write_file. rewrite C, E. unfold opened. rewrite DT, T, (attributes_ok o x P MN). cbn [bind]. rewrite titled_ok. cbn iota.
  unfold make_dims, add_dim. assert (X : existsb (String.eqb "lm") (n_dims f) = false). { apply not_true_is_false. intros X. apply existsb_exists in X as (y & I & Y). apply String.eqb_eq in Y. now subst. }
  rewrite X. cbn iota. cbn [n_dims n_vars n_root]. assert (Y : existsb (String.eqb "time") (n_dims f ++ ["lm"%string]) = true) by (apply existsb_exists; exists "time"%string; split; [apply in_app_iff; auto|reflexivity]).
  rewrite Y. eexists _, _. split; [reflexivity|]. apply put_same.
Qed.
Print Assumptions C117_append_refuted.

(** ** dictionaries *)
Lemma seq_max n : nat_max (seq 0 (n + 1)) = Ok n.
Proof. apply nat_max_eq; [intros x H; apply in_seq in H; lia|apply in_seq; lia]. Qed.
(** the coefficients and dates come back; the attributes are now a part of the file attributes *)
Theorem C117_dict : forall x, exists y, from_dict (to_dict x) = Ok y /\ lmax (o_h y) = lmax (o_h x) /\ mmax (o_h y) = mmax (o_h x) /\ clm (o_h y) = clm (o_h x) /\ slm (o_h y) = slm (o_h x) /\
  time (o_h y) = time (o_h x) /\ month (o_h y) = month (o_h x) /\ root y = o_attrs x.
Proof. intros x. unfold from_dict, to_dict. cbn [d_l d_m d_clm d_slm d_time d_month d_attrs]. rewrite !seq_max. cbn [bind]. eexists. repeat split. Qed.
Lemma put_attrs_bad l : Exists (fun e => bad (snd e) = true) l -> forall d, exists d', put_attrs l d = (d', Err TypeError).
Proof. induction 1 as [[n v] l H|[n v] l H IH]; intros d; cbn [put_attrs snd] in *; [rewrite H; eauto|]. destruct (bad v); [eauto|apply IH]. Qed.
(** REFUTED: an object that was read from a file cannot be written after a conversion to a dictionary and back *)
Theorem C117_dict_refuted : forall k s o x ts ms p fs d, dated (o_h x) ts ms -> plain o -> w_date o = true -> month_name (w_months_name o) -> free o fs p -> dget "ROOT" (o_attrs x) = Some (ADict d) ->
  exists y fs' y', from_dict (to_dict x) = Ok y /\ write_file k s o y p fs = (fs', y', Err TypeError).
Proof.
  intros k s o x ts ms p fs d D P DT MN FR RX. destruct (C117_dict x) as (y & E & L1 & L2 & C1 & C2 & T1 & M1 & R). exists y.
  assert (OH : o_h y = o_h x) by (destruct (o_h y), (o_h x); cbn in *; congruence). rewrite <- OH in D. destruct (dated_nc _ _ _ D) as (t & r & T & FT & FM & _).
  unfold write_file. rewrite (opened_free _ _ _ _ FR), DT, T, (attributes_ok o y P MN). cbn [bind]. rewrite titled_ok. cbn iota. rewrite make_dims_ok. cbn iota.
  pose proof (fill_ok k o t ts ms (titles o (root y)) P MN) as F. rewrite DT in F. rewrite (F (conj FT FM)). cbn iota. cbn [dget String.eqb Ascii.eqb Bool.eqb]. cbn [n_root n_dims n_vars].
  assert (B : Exists (fun e => bad (snd e) = true) (titles o (root y))).
  { assert (ST : forall q v d', (q <> "ROOT"%string) -> Exists (fun e => fst e = "ROOT"%string /\ bad (snd e) = true) d' -> Exists (fun e => fst e = "ROOT"%string /\ bad (snd e) = true) (match given v with Some a => dset q a d' | None => d' end)).
    { intros q v d' NQ. destruct (given v) as [a|]; [|trivial]. induction 1 as [[n w] d' (H & H')|[n w] d' H IH]; cbn [dset fst snd] in *.
      - subst n. rewrite (eqb_ne "ROOT" q) by congruence. now left.
      - destruct (String.eqb n q); now right. }
    apply Exists_exists. assert (X : Exists (fun e => fst e = "ROOT"%string /\ bad (snd e) = true) (titles o (root y))).
    { unfold titles. do 3 (apply ST; [discriminate|]). rewrite R. clear - RX. induction (o_attrs x) as [|[n w] l IH]; cbn in RX; [discriminate|]. destruct (String.eqb_spec n "ROOT") as [->|]; [injection RX as ->; left; split; reflexivity|right; auto]. }
    apply Exists_exists in X as (e & I & _ & B). eauto. }
  destruct (put_attrs_bad _ B []) as (d' & ->). eexists _, _. split; [exact E|reflexivity].
Qed.
Print Assumptions C117_dict_refuted.

(** the hypotheses are met *)
Example example_dated : dated ex_single [2005%R] [37%Z] /\ dated ex_series [2004%R; 2005%R; 2006%R] [25%Z; 37%Z; 49%Z] /\ plain default_opts /\ w_months_name default_opts = "month"%string /\
  free default_opts (fun _ => None) "a.nc" /\ storable (root (mkobj ex_single [("ROOT"%string, ADict [("title"%string, AText "x")])])).
Proof.
  split; [split; [apply ex_single_wf|]; split; [cbn; lia|]; split; [repeat constructor; intros []|]; cbn; do 2 eexists; repeat split|].
  split; [split; [apply ex_series_wf|]; split; [cbn; lia|]; split; [repeat constructor; cbn; lia|]; cbn; repeat split; discriminate|].
  split; [apply default_plain|]. split; [reflexivity|]. split; [now left|]. split; repeat constructor. intros [].
Qed.
