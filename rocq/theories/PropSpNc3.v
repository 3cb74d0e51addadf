(** C122, continued: files of spatial fields that are not written or read, attributes and errors given by the user. *)
From Coq Require Import Reals Lra String Bool.
From Verif Require Import Base TimeModel Arr HarmModel AdjustProofs.
From Verif Require PropNc.
From Verif Require Import SpatialModel SpNcModel PropSpNc PropSpNc2.
Close Scope Z_scope.
Close Scope R_scope.
Open Scope nat_scope.
Open Scope list_scope.

(** ** writing that fails *)
(** an object made by from_list (or from_index) has a list of attributes: it can be written by neither function, and no file is touched *)
Theorem C122_from_list : forall k s o x p fs, x_attrs x = None -> write_file k s o x p fs = (fs, x, Err AttributeError).
Proof. intros k s o x p fs H. unfold write_file. now rewrite H. Qed.
(** in every case no other file is changed *)
Theorem C122_only_this_file : forall k s o x p fs, let '(fs', _, _) := write_file k s o x p fs in forall q, q <> p -> fs' q = fs q.
Proof.
  intros k s o x p fs. unfold write_file.
  assert (N : forall f q, q <> p -> put fs p f q = fs q) by (intros f q H; unfold put; destruct (String.eqb_spec q p); [congruence|reflexivity]).
  destruct (x_attrs x) as [a|]; [|auto]. destruct (opened _ _ _); [|auto]. destruct (bind _ _) as [A|]; [|exact (N _)]. destruct (if w_date o then _ else _) as [g|]; [|exact (N _)]. cbv zeta.
  destruct (mapM _ _); [|exact (N _)]. destruct (variables _ _ _ _ _ _) as (f2 & [u|e]); [|exact (N _)]. destruct (dget "ROOT" A) as [ro|]; [|exact (N _)]. destruct (put_attrs _ _) as (dd & [u'|e]); exact (N _).
Qed.
(** an existing file is not to be replaced: HDF5 refuses it; a netCDF4 file with a dimension of the name for latitudes is an error too, but the object is a series then *)
Theorem C122_exists_h5 : forall s o x a p fs f, x_attrs x = Some a -> w_clobber o = false -> fs p = Some f -> write_file HDF5 s o x p fs = (fs, x, Err IOErr).
Proof. intros s o x a p fs f XA C F. unfold write_file. rewrite XA, C, F. reflexivity. Qed.
Theorem C122_exists_nc : forall s o x a p fs f, plain o -> good_names o -> x_attrs x = Some a -> writable NetCDF4 (w_date o) (x_sp x) -> w_clobber o = false -> fs p = Some f -> In (w_lat o) (g_dims f) ->
  exists fs' g, write_file NetCDF4 s o x p fs = (fs', g, Err OtherExn) /\ (forall q, fs' q = fs q) /\ if w_date o then sexpand (x_sp x) = Ok (x_sp g) else x_sp g = x_sp x.
Proof.
  intros s o x a p fs f P N XA W C F I. unfold write_file, opened. rewrite XA, C, F, (attributes_ok o a P N). cbn [bind]. rewrite titled_ok.
  assert (M : name_of (mapping o) "lat" = Ok (w_lat o)) by (rewrite (mapping_plain o P); reflexivity).
  assert (NM : exists l, mapM (name_of (mapping o)) (dimensions (w_date o)) = Ok l) by (rewrite (mapping_plain o P); destruct (w_date o); eexists; reflexivity).
  destruct NM as (nl & NM). rewrite NM.
  assert (V : forall g A, variables NetCDF4 (w_date o) g A (mapping o) f = (f, Err OtherExn)).
  { intros g A. unfold variables, dimensions. cbn [app make_dims]. rewrite M. replace (existsb (String.eqb (w_lat o)) (g_dims f)) with true; [reflexivity|]. symmetry. apply existsb_exists. exists (w_lat o). split; [exact I|apply String.eqb_refl]. }
  assert (SAME : forall q, put fs p f q = fs q) by (intros q; unfold put; destruct (String.eqb_spec q p) as [->|]; [now symmetry|reflexivity]).
  destruct (w_date o) eqn:D.
  - destruct (expand_ok NetCDF4 _ W) as (g & EG & _). rewrite EG. cbv zeta. rewrite V. eexists. eexists. split; [reflexivity|]. split; [exact SAME|reflexivity].
  - cbv zeta. rewrite V. eexists. eexists. split; [reflexivity|]. split; [exact SAME|reflexivity].
Qed.
(** no date: written with dates, this is a TypeError *)
Theorem C122_no_time : forall k s o x a p fs, plain o -> good_names o -> free o fs p -> x_attrs x = Some a -> swf (x_sp x) -> depth (sdata (x_sp x)) = None -> stime (x_sp x) = TNone -> w_date o = true ->
  exists fs' g, write_file k s o x p fs = (fs', g, Err TypeError).
Proof.
  intros k s o x a p fs P N FR XA SW DN TN D. unfold write_file. rewrite XA, (opened_free _ _ _ _ FR), (attributes_ok o a P N). cbn [bind]. rewrite titled_ok, D.
  set (y := mksp (sdata (x_sp x)) (smask (x_sp x)) (serr (x_sp x)) (slon (x_sp x)) (slat (x_sp x)) (TScalar 0%R) (smonth (x_sp x)) (sfill (x_sp x))).
  assert (WY : writable k true y). { split; [|split; [intros _ _; exists 0%R; reflexivity|discriminate]]. destruct SW as (A1 & A2 & A3 & A4 & A5). unfold swf, y. cbn [sdata smask serr slon slat stime smonth]. rewrite DN. auto. }
  destruct (expand_ok k y WY) as (gy & EY & _). assert (EX : exists g, sexpand (x_sp x) = Ok g /\ stime g = TNone /\ (slon g = slon (x_sp x)) /\ exists n, depth (sdata g) = Some n).
  { unfold sexpand, update_mask in EY |- *. subst y. cbn [sdata smask serr slon slat stime smonth sfill] in EY |- *. assert (DG : exists n, depth (gexpand (sdata (x_sp x))) = Some n) by (unfold gexpand; rewrite DN; eexists; reflexivity).
    destruct (sfill (x_sp x)); [|eexists; split; [reflexivity|]; cbn [stime slon sdata]; rewrite TN; auto]. destruct (negb _); [discriminate|]. destruct (serr (x_sp x)); [destruct (negb _); [discriminate|]|]; (eexists; split; [reflexivity|]; cbn [stime slon sdata masked_set depth]; rewrite TN; auto). }
  destruct EX as (g & EG & TG & _ & (n & DG)). rewrite EG. assert (NM : exists l, mapM (name_of (mapping o)) (dimensions true) = Ok l) by (rewrite (mapping_plain o P), D; eexists; reflexivity). destruct NM as (nl & NM). rewrite NM. cbv zeta.
  assert (V : value_of true g "time" = Err TypeError) by (unfold value_of; cbn; now rewrite TG).
  assert (DA : forall n0, In n0 (names o) -> dget n0 (("ROOT"%string, titles o (root a)) :: described o) = dget n0 (described o)).
  { intros n0 I. destruct (good_apart o N) as ((R & _) & _). cbn [NcModel.dget]. rewrite eqb_ne; [reflexivity|]. intros E. apply (R n0 I). now symmetry. }
  enough (X : exists f, variables k true g (("ROOT"%string, titles o (root a)) :: described o) (mapping o) empty_file = (f, Err TypeError)) by (destruct X as (f & X); rewrite X; eexists; eexists; reflexivity).
  destruct (good_apart o N) as ((_ & N1 & N2 & N3 & NT) & R1 & R2 & R3). destruct (NT D) as (T1 & T2 & T3 & T4). destruct (pairs_of o _ N DA) as (D1 & D2 & D3 & D4). rewrite (mapping_plain o P), D. cbn [app]. destruct k; unfold variables, empty_file.
  - unfold dimensions. cbn [app].
    erewrite make_dims_step; [|reflexivity|reflexivity|reflexivity|reflexivity]. cbn [app g_dims g_vars g_root].
    erewrite make_dims_step; [|reflexivity|cbn [existsb g_dims]; rewrite (eqb_ne (w_lon o) (w_lat o)) by congruence; reflexivity|reflexivity|cbn [NcModel.dget g_vars]; rewrite (eqb_ne (w_lat o) (w_lon o)) by congruence; reflexivity]. cbn [app g_dims g_vars g_root].
    cbn [make_dims]. unfold name_of. cbn [NcModel.dget String.eqb Ascii.eqb Bool.eqb g_dims existsb]. rewrite (eqb_ne (w_time o) (w_lat o)), (eqb_ne (w_time o) (w_lon o)) by congruence. cbn [orb]. rewrite V. eexists. reflexivity.
  - erewrite fill_h5_step; [|reflexivity|discriminate|reflexivity|exact D1|apply put_pair]. cbn [app g_dims g_vars g_root].
    erewrite fill_h5_step; [|reflexivity|discriminate|cbn [NcModel.dget g_vars]; rewrite (eqb_ne (w_lon o) (w_lat o)) by congruence; reflexivity|exact D2|apply put_pair]. cbn [app g_dims g_vars g_root].
    erewrite fill_h5_step; [|reflexivity|unfold of_grid; cbn [shape]; rewrite DG; discriminate|cbn [NcModel.dget g_vars]; rewrite (eqb_ne (w_lon o) (w_var o)), (eqb_ne (w_lat o) (w_var o)) by congruence; reflexivity|exact D3|apply put_pair]. cbn [app g_dims g_vars g_root].
    cbn [fill_h5]. rewrite V. eexists. reflexivity.
Qed.
(** several fields without dates cannot be written to netCDF4 files: the coordinates are in the file then, the field is not.  (HDF5 files are fine, C122_written.) *)
Theorem C122_series_without_dates : forall s o x a p fs n, plain o -> good_names o -> free o fs p -> x_attrs x = Some a -> swf (x_sp x) -> w_date o = false -> depth (sdata (x_sp x)) = Some n -> 1 < n -> slat (x_sp x) <> [] -> slon (x_sp x) <> [] ->
  exists f g, write_file NetCDF4 s o x p fs = (put fs p f, g, Err ValueError) /\ g_root f = [] /\ exists v, dget (w_var o) (g_vars f) = Some (mkvar None v).
Proof.
  intros s o x a p fs n P N FR XA SW D DN N1' NLA NLO. unfold write_file. rewrite XA, (opened_free _ _ _ _ FR), (attributes_ok o a P N). cbn [bind]. rewrite titled_ok, D.
  assert (NM : exists l, mapM (name_of (mapping o)) (dimensions false) = Ok l) by (rewrite (mapping_plain o P), D; eexists; reflexivity). destruct NM as (nl & NM). rewrite NM. cbv zeta.
  assert (DA : forall n0, In n0 (names o) -> dget n0 (("ROOT"%string, titles o (root a)) :: described o) = dget n0 (described o)).
  { intros n0 I. destruct (good_apart o N) as ((R & _) & _). cbn [NcModel.dget]. rewrite eqb_ne; [reflexivity|]. intros E. apply (R n0 I). now symmetry. }
  enough (X : exists f, variables NetCDF4 false (x_sp x) (("ROOT"%string, titles o (root a)) :: described o) (mapping o) empty_file = (f, Err ValueError) /\ g_root f = [] /\ exists v, dget (w_var o) (g_vars f) = Some (mkvar None v)).
  { destruct X as (f & X & RF & VF). rewrite X. eexists. eexists. split; [reflexivity|]. auto. }
  destruct (good_apart o N) as ((_ & N1 & N2 & N3 & NT) & R1 & R2 & R3). destruct (pairs_of o _ N DA) as (D1 & D2 & D3 & D4). rewrite (mapping_plain o P), D. cbn [app]. unfold variables, empty_file, dimensions. cbn [app].
  erewrite make_dims_step; [|reflexivity|reflexivity|reflexivity|reflexivity]. cbn [app g_dims g_vars g_root].
  erewrite make_dims_step; [|reflexivity|cbn [existsb g_dims]; rewrite (eqb_ne (w_lon o) (w_lat o)) by congruence; reflexivity|reflexivity|cbn [NcModel.dget g_vars]; rewrite (eqb_ne (w_lat o) (w_lon o)) by congruence; reflexivity]. cbn [app g_dims g_vars g_root make_dims and_then].
  replace (others false _) with ["data"%string] by reflexivity. erewrite make_vars_step; [|reflexivity|reflexivity|cbn [NcModel.dget g_vars]; rewrite (eqb_ne (w_lat o) (w_var o)), (eqb_ne (w_lon o) (w_var o)) by congruence; reflexivity]. cbn [make_vars and_then app g_dims g_vars g_root].
  erewrite fill_nc_step; [|reflexivity| |cbn [NcModel.dget g_vars]; rewrite (eqb_ne (w_lat o) (w_lon o)), String.eqb_refl by congruence; reflexivity|exact D1|apply put_pair]; [|now apply (fits_ok _ _ _ [List.length (slon (x_sp x))])].
  cbn [g_vars NcModel.dset]. rewrite (eqb_ne (w_lat o) (w_lon o)), String.eqb_refl by congruence.
  erewrite fill_nc_step; [|reflexivity| |cbn [NcModel.dget g_vars]; rewrite String.eqb_refl by congruence; reflexivity|exact D2|apply put_pair]; [|now apply (fits_ok _ _ _ [List.length (slat (x_sp x))])].
  cbn [g_vars NcModel.dset]. rewrite String.eqb_refl. cbn [fill_nc].
  assert (V : value_of false (x_sp x) "data" = Ok (of_grid (sdata (x_sp x)))) by reflexivity. rewrite V. cbn [bind].
  destruct SW as (_ & _ & RR & RC & _).
  replace (fits (lengths false (x_sp x)) "data" (of_grid (sdata (x_sp x)))) with (Err (A := unit) ValueError).
  - cbn [bind]. eexists. split; [reflexivity|]. split; [reflexivity|]. cbn [g_vars NcModel.dget]. rewrite (eqb_ne (w_lat o) (w_var o)), (eqb_ne (w_lon o) (w_var o)), String.eqb_refl by congruence. eexists. reflexivity.
  - symmetry. unfold fits, of_grid, lengths. cbn [shape]. rewrite DN, RR, RC. cbn [String.eqb Ascii.eqb Bool.eqb andb List.length app firstn]. set (la := List.length (slat (x_sp x))) in *. set (lo := List.length (slon (x_sp x))) in *.
    assert (LA : la <> 0) by (unfold la; destruct (slat (x_sp x)); [congruence|discriminate]). assert (LO : lo <> 0) by (unfold lo; destruct (slon (x_sp x)); [congruence|discriminate]).
    destruct (list_eq_dec Nat.eq_dec [la; lo; n] [la; lo]) as [E|_]; [discriminate|]. unfold product. cbn [fold_right].
    replace (la * (lo * (n * 1)) =? la * (lo * 1)) with false by (symmetry; apply Nat.eqb_neq; intros E; assert (X : la * lo * n = la * lo * 1) by lia; apply Nat.mul_cancel_l in X; [lia|nia]).
    replace (la * (lo * (n * 1)) =? 1) with false by (symmetry; apply Nat.eqb_neq; nia). reflexivity.
Qed.
