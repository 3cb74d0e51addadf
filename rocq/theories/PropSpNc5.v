(** C122, continued: error fields, an example. *)
From Coq Require Import Reals Lra String Bool.
From Verif Require Import Base TimeModel Arr HarmModel AdjustProofs.
From Verif Require PropNc.
From Verif Require Import SpatialModel SpNcModel PropSpNc PropSpNc2 PropSpNc3.
Close Scope Z_scope.
Close Scope R_scope.
Open Scope nat_scope.
Open Scope list_scope.

(** ** error fields *)
(** the error field is written if it is asked for by a mapping of names.  Without attributes this is a KeyError: the data are in the file, the attributes of the file are not *)
Definition with_error (o : opts) (lon lat data time err : string) : Prop :=
  w_attrs o = None /\ NoDup ["ROOT"%string; lon; lat; data; time; err] /\
  w_mapping o = [("lon"%string, lon); ("lat"%string, lat); ("data"%string, data); ("time"%string, time); ("error"%string, err)] /\ w_date o = true.
Ltac nm := repeat match goal with
  | |- context [String.eqb ?a ?a] => rewrite (String.eqb_refl a)
  | H : ?a <> ?b |- context [String.eqb ?a ?b] => rewrite (eqb_ne a b H)
  | H : ?b <> ?a |- context [String.eqb ?a ?b] => rewrite (eqb_ne a b (not_eq_sym H))
  end.
Ltac run := repeat progress (cbn [NcModel.dget app g_vars g_dims g_root existsb orb NcModel.dset v_attrs]; nm).
Lemma expand_error s e k : writable k true s -> serr s = Some e -> exists g e', sexpand s = Ok g /\ serr g = Some e' /\ rows e' = rows (sdata s) /\ cols e' = cols (sdata s) /\ depth e' = Some (nslice (sdata s)).
Proof.
  intros ((SM & SE & RR & RC & SD) & DT & _) EE. destruct (SE e EE) as (E1 & E2 & E3). destruct SM as (SM1 & SM2 & SM3).
  assert (DP : forall A (a : arr A), depth a = depth (sdata s) -> rows a = rows (sdata s) -> cols a = cols (sdata s) -> rows (gexpand a) = rows (sdata s) /\ cols (gexpand a) = cols (sdata s) /\ depth (gexpand a) = Some (nslice (sdata s))).
  { intros A a Q1 Q2 Q3. unfold gexpand, nslice. rewrite Q1. destruct (depth (sdata s)) eqn:ED; cbn [rows cols depth get]; rewrite ?Q1, ?Q2, ?Q3; auto. }
  destruct (DP _ (sdata s) eq_refl eq_refl eq_refl) as (D1 & D2 & D3). destruct (DP _ (smask s) SM3 SM1 SM2) as (M1 & M2 & M3). destruct (DP _ e E3 E1 E2) as (F1 & F2 & F3).
  unfold sexpand, update_mask. cbn [sfill smask sdata serr slon slat stime smonth]. rewrite EE. destruct (sfill s) as [f|].
  - replace (shape_eqb (gexpand (smask s)) (gexpand (sdata s))) with true by (unfold shape_eqb; rewrite D1, D2, D3, M1, M2, M3, !Nat.eqb_refl; reflexivity). cbn [negb].
    replace (shape_eqb (gexpand e) (gexpand (sdata s))) with true by (unfold shape_eqb; rewrite D1, D2, D3, F1, F2, F3, !Nat.eqb_refl; reflexivity). cbn [negb].
    eexists. eexists. split; [reflexivity|]. split; [reflexivity|]. cbn [masked_set rows cols depth]. auto.
  - eexists. eexists. split; [reflexivity|]. split; [reflexivity|]. auto.
Qed.
Theorem C122_error_unlabelled : forall k s o x a p fs lon lat data time err e, with_error o lon lat data time err -> free o fs p -> x_attrs x = Some a -> writable k true (x_sp x) -> serr (x_sp x) = Some e ->
  exists f g, write_file k s o x p fs = (put fs p f, g, Err KeyError) /\ g_root f = [] /\ forall n, In n [lon; lat; data; time; err] -> exists v b, dget n (g_vars f) = Some (mkvar (Some v) b).
Proof.
  intros k s o x a p fs lo la va ti er e (WA & ND & MP & D) FR XA W EE. unfold write_file. rewrite XA, (opened_free _ _ _ _ FR).
  inversion ND as [|? ? A0 ND1]; subst. inversion ND1 as [|? ? A1 ND2]; subst. inversion ND2 as [|? ? A2 ND3]; subst. inversion ND3 as [|? ? A3 ND4]; subst. inversion ND4 as [|? ? A4 ND5]; subst. cbn [In] in A0, A1, A2, A3, A4.
  assert (R1 : lo <> "ROOT"%string) by intuition congruence. assert (R2 : la <> "ROOT"%string) by intuition congruence. assert (R3 : va <> "ROOT"%string) by intuition congruence. assert (R4 : ti <> "ROOT"%string) by intuition congruence. assert (R5 : er <> "ROOT"%string) by intuition congruence.
  assert (N1 : lo <> la) by intuition congruence. assert (N2 : lo <> va) by intuition congruence. assert (N3 : lo <> ti) by intuition congruence. assert (N4 : lo <> er) by intuition congruence.
  assert (N5 : la <> va) by intuition congruence. assert (N6 : la <> ti) by intuition congruence. assert (N7 : la <> er) by intuition congruence. assert (N8 : va <> ti) by intuition congruence. assert (N9 : va <> er) by intuition congruence. assert (N10 : ti <> er) by intuition congruence.
  clear A0 A1 A2 A3 A4 ND ND1 ND2 ND3 ND4 ND5.
  assert (MO : mapping o = w_mapping o) by (unfold mapping; now rewrite MP).
  assert (AT : exists A, attributes o a = Ok (("ROOT"%string, root a) :: A) /\ dget lo A = Some (pair_ (may (Some "longitude"%string)) (may (Some "degrees_east"%string))) /\ dget la A = Some (pair_ (may (Some "latitude"%string)) (may (Some "degrees_north"%string))) /\
    dget va A = Some (pair_ (may (w_longname o)) (may (w_units o))) /\ dget ti A = Some (pair_ (may (Some (w_time_longname o))) (may (Some (w_time_units o)))) /\ dget er A = None).
  { unfold attributes. rewrite WA, root_of_root, MO, MP, D. replace (forallb _ _) with false by (cbn [forallb snd NcModel.dget]; rewrite (eqb_ne "ROOT" lo) by congruence; reflexivity).
    unfold describe. cbn [NcModel.dget String.eqb Ascii.eqb Bool.eqb bind].
    rewrite (dset_new lo) by (cbn [NcModel.dget]; nm; reflexivity). cbn [app]. rewrite (dset_new la) by (cbn [NcModel.dget]; nm; reflexivity). cbn [app].
    rewrite (dset_new va) by (cbn [NcModel.dget]; nm; reflexivity). cbn [app]. rewrite (dset_new ti) by (cbn [NcModel.dget]; nm; reflexivity). cbn [app].
    eexists. split; [reflexivity|]. cbn [NcModel.dget]; nm. repeat split; reflexivity. }
  destruct AT as (A & AT & D1 & D2 & D3 & D4 & D5). rewrite AT. cbn [bind]. rewrite titled_ok, D. cbv zeta. set (B := (("ROOT"%string, titles o (root a)) :: A)).
  assert (LIFT : forall n (v : option (dict attr)), n <> "ROOT"%string -> dget n A = v -> dget n B = v) by (intros n v H1 H2; unfold B; cbn [NcModel.dget]; rewrite (eqb_ne "ROOT" n) by congruence; exact H2).
  apply (LIFT _ _ R1) in D1. apply (LIFT _ _ R2) in D2. apply (LIFT _ _ R3) in D3. apply (LIFT _ _ R4) in D4. apply (LIFT _ _ R5) in D5. clearbody B. clear LIFT A AT.
  destruct (expand_ok k _ W) as (g & EG & RG & F1 & F2 & F3 & F4 & IF & DG & NL). destruct (expand_error _ e k W EE) as (g' & e' & EG' & ES & ER1 & ER2 & ER3). rewrite EG in EG'. injection EG' as <-. rewrite EG.
  assert (NM : exists l, mapM (name_of (mapping o)) (dimensions true) = Ok l) by (rewrite MO, MP; eexists; reflexivity). destruct NM as (nl & NM). rewrite NM.
  assert (VT : value_of true g "time" = Ok (of_list (times (x_sp x)))) by (unfold value_of; cbn; now rewrite F4). assert (VE : value_of true g "error" = Ok (of_grid e')) by (unfold value_of; cbn; now rewrite ES).
  assert (FD : forall v, shape v = [rows (sdata (x_sp x)); cols (sdata (x_sp x)); nslice (sdata (x_sp x))] -> forall fi, fi = "data"%string \/ fi = "error"%string -> fits (lengths true g) fi v = Ok tt).
  { intros v SV fi FI. destruct W as ((_ & _ & RR & RC & _) & _). eapply fits_ok; [exact SV|]. unfold lengths. rewrite SV, F1, F2, F4, RR, RC, NL. destruct FI as [-> | ->]; reflexivity. }
  destruct RG as (GR & GC & _). destruct W as ((_ & _ & RR & RC & _) & _). rewrite F2, <- RR in GR. rewrite F1, <- RC in GC.
  enough (X : exists f, variables k true g B (mapping o) empty_file = (f, Err KeyError) /\ g_root f = [] /\ forall n, In n [lo; la; va; ti; er] -> exists v b, dget n (g_vars f) = Some (mkvar (Some v) b)).
  { destruct X as (f & X & RF & H). rewrite X. eexists. eexists. split; [reflexivity|]. auto. }
  rewrite MO, MP. destruct k; unfold variables, empty_file.
  - unfold dimensions. cbn [app]. do 2 (erewrite make_dims_step; [|reflexivity|run; reflexivity|reflexivity|run; reflexivity]). erewrite make_dims_step; [|reflexivity|run; reflexivity|exact VT|run; reflexivity]. cbn [make_dims and_then].
    replace (others true _) with ["data"; "error"]%string by reflexivity. erewrite make_vars_step; [|reflexivity|reflexivity|run; reflexivity]. erewrite make_vars_step; [|reflexivity|exact VE|run; reflexivity]. cbn [make_vars and_then].
    erewrite fill_nc_step; [|reflexivity| |run; reflexivity|exact D1|apply put_pair]; [|now apply (fits_ok _ _ _ [List.length (slon g)])].
    erewrite fill_nc_step; [|reflexivity| |run; reflexivity|exact D2|apply put_pair]; [|now apply (fits_ok _ _ _ [List.length (slat g)])].
    erewrite fill_nc_step; [|reflexivity| |run; reflexivity|exact D3|apply put_pair]. 2:{ apply FD; [|now left]. unfold of_grid. cbn [shape]. now rewrite DG, GR, GC. }
    erewrite fill_nc_step; [|exact VT| |run; reflexivity|exact D4|apply put_pair]. 2:{ eapply fits_ok; [reflexivity|]. unfold of_list, lengths. cbn [shape]. rewrite F4. reflexivity. }
    cbn [fill_nc]. rewrite VE. cbn [bind]. rewrite FD by first [now right | unfold of_grid; cbn [shape]; now rewrite ER3, ER1, ER2]. cbn [bind]. run. rewrite D5. eexists. split; [reflexivity|]. split; [reflexivity|].
    intros n I. cbn [In] in I. cbn [g_vars]. destruct I as [<-|[<-|[<-|[<-|[<-|[]]]]]]; run; eexists; eexists; reflexivity.
  - erewrite fill_h5_step; [|reflexivity|discriminate|run; reflexivity|exact D1|apply put_pair].
    erewrite fill_h5_step; [|reflexivity|discriminate|run; reflexivity|exact D2|apply put_pair].
    erewrite fill_h5_step; [|reflexivity|unfold of_grid; cbn [shape]; rewrite DG; discriminate|run; reflexivity|exact D3|apply put_pair].
    erewrite fill_h5_step; [|exact VT|discriminate|run; reflexivity|exact D4|apply put_pair].
    cbn [fill_h5]. rewrite VE. cbn [bind]. replace (shape (of_grid e')) with [rows e'; cols e'; nslice (sdata (x_sp x))] by (unfold of_grid; cbn [shape]; now rewrite ER3). run. rewrite D5. cbn [and_then]. eexists. split; [reflexivity|]. split; [reflexivity|].
    intros n I. cbn [In] in I. cbn [g_vars]. destruct I as [<-|[<-|[<-|[<-|[<-|[]]]]]]; run; eexists; eexists; reflexivity.
Qed.

(** reading with an error field: the field of a square grid is transposed, its error is not (cells (i, j) of the error belong to cells (j, i) of the field) *)
Definition error_names (r : ropts) (lon lat data err : string) : Prop :=
  r_date r = false /\ r_mapping r = [("lon"%string, lon); ("lat"%string, lat); ("data"%string, data); ("error"%string, err)].
Theorem C122_error_square : forall r f p (fs : files) lon lat data err dl da dd de al aa ad ae n, error_names r lon lat data err -> fs p = Some f -> n <> 1 ->
  dget lon (g_vars f) = Some (mkvar (Some dl) al) -> shape dl = [n] -> dget lat (g_vars f) = Some (mkvar (Some da) aa) ->
  dget data (g_vars f) = Some (mkvar (Some dd) ad) -> shape dd = [n; n] -> dget err (g_vars f) = Some (mkvar (Some de) ae) -> shape de = [n; n] -> dget "_FillValue" ad = None ->
  exists y e, read_file r p fs = Ok y /\ q_err y = Some e /\ forall i j, cell (q_data y) [i; j] = cell dd [j; i] /\ cell e [i; j] = cell de [i; j].
Proof.
  intros r f p fs lon lat data err dl da dd de al aa ad ae n (RD & RM) F N1 VL SL VA VD SD VE SE FV. unfold read_file, rmapping. rewrite F, RM, RD. cbn [read_vars]. rewrite VL, VA, VD, VE. cbn [bind NcModel.dget String.eqb Ascii.eqb Bool.eqb option_map fst].
  assert (N1' : (n =? 1) = false) by now apply Nat.eqb_neq.
  assert (LF : lon_first (Some (squeeze dl)) (squeeze dd) = Ok true) by (unfold lon_first, squeeze; rewrite SD, SL; cbn [filter]; rewrite N1'; cbn [negb shape]; now rewrite Nat.eqb_refl).
  rewrite LF. cbn [bind]. replace (dget "_FillValue" (read_attrs ad)) with (@None attr).
  2:{ unfold read_attrs, attributes_list. cbn [flat_map]. rewrite FV. destruct (dget "description" ad), (dget "units" ad), (dget "long_name" ad), (dget "calendar" ad), (dget "standard_name" ad), (dget "missing_value" ad); reflexivity. }
  cbn [bind]. eexists. eexists. split; [reflexivity|]. cbn [q_err q_data]. split; [reflexivity|]. intros i j. unfold squeeze, transpose. cbn [cell shape rev app]. rewrite SD, SE. cbn [unsqueeze]. rewrite N1'. split; reflexivity.
Qed.
(** a field whose first axis is the longitude, not square, with a fill value: it is transposed for the field, and reading it with its error fails *)
Theorem C122_error_longitude_first : forall r f p (fs : files) lon lat data err dl da dd de al aa ad ae n m v, error_names r lon lat data err -> fs p = Some f -> n <> 1 -> m <> 1 -> n <> m ->
  dget lon (g_vars f) = Some (mkvar (Some dl) al) -> shape dl = [n] -> dget lat (g_vars f) = Some (mkvar (Some da) aa) ->
  dget data (g_vars f) = Some (mkvar (Some dd) ad) -> shape dd = [n; m] -> dget err (g_vars f) = Some (mkvar (Some de) ae) -> shape de = [n; m] -> dget "_FillValue" ad = Some (Num v) ->
  read_file r p fs = Err IndexError.
Proof.
  intros r f p fs lon lat data err dl da dd de al aa ad ae n m v (RD & RM) F N1 M1 NE VL SL VA VD SD VE SE FV. unfold read_file, rmapping. rewrite F, RM, RD. cbn [read_vars]. rewrite VL, VA, VD, VE. cbn [bind NcModel.dget String.eqb Ascii.eqb Bool.eqb option_map fst].
  assert (N1' : (n =? 1) = false) by now apply Nat.eqb_neq. assert (M1' : (m =? 1) = false) by now apply Nat.eqb_neq.
  assert (LF : lon_first (Some (squeeze dl)) (squeeze dd) = Ok true) by (unfold lon_first, squeeze; rewrite SD, SL; cbn [filter]; rewrite N1', M1'; cbn [negb shape]; now rewrite Nat.eqb_refl).
  rewrite LF. cbn [bind]. replace (dget "_FillValue" (read_attrs ad)) with (Some (Num v)).
  2:{ unfold read_attrs, attributes_list. cbn [flat_map]. rewrite FV. destruct (dget "description" ad), (dget "units" ad), (dget "long_name" ad), (dget "calendar" ad), (dget "standard_name" ad), (dget "missing_value" ad); reflexivity. }
  cbn [bind]. unfold squeeze, transpose. cbn [shape]. rewrite SD, SE. cbn [filter]. rewrite N1', M1'. cbn [negb rev app]. destruct (list_eq_dec Nat.eq_dec [n; m] [m; n]) as [E|_]; [congruence|reflexivity].
Qed.

(** ** an example: two fields on a grid of 2 latitudes and 3 longitudes, one cell masked *)
Definition example : sp :=
  mksp (mkarr 2 3 (Some 2) (fun i j t => Some (INR (i + 2 * j + 6 * t)))) (mkarr 2 3 (Some 2) (fun i j t => (i =? 1) && (j =? 2) && (t =? 0))) None [0; 1; 2]%R [1; 0]%R (TArr [2010; 2011]%R) (TArr [97; 109]%Z) (Some (Some (-9999)%R)).
Theorem C122_example : writable NetCDF4 true example /\ good_names default_opts /\ plain default_opts /\ same_names default_opts default_ropts /\ storable (root []) /\
  (forall k s x, writable k true x -> let '(fs', g, u) := write_file k s default_opts (mksobj x (Some [])) "f" (fun _ => None) in u = Ok tt) /\
  stored true example 1 2 0 = Some (-9999)%R /\ absent true example 1 2 0 = true /\ absent true example 1 2 1 = false.
Proof.
  assert (W : good_names default_opts) by (unfold good_names, names, default_opts; cbn [app w_lon w_lat w_var w_time w_date]; repeat constructor; cbn [In]; intuition discriminate).
  assert (V : veqb (Some 11%R) (Some (-9999)%R) = false) by (cbn; destruct (Req_EM_T 11 (-9999)); [lra|reflexivity]).
  split; [unfold writable; split; [unfold swf, same_shape, example; cbn [sdata smask serr slon slat stime smonth rows cols depth List.length]; split; [auto|]; split; [discriminate|]; split; [reflexivity|]; split; [reflexivity|]; exists [2010; 2011]%R, [97; 109]%Z; auto|split; [discriminate|discriminate]]|].
  split; [exact W|]. split; [split; reflexivity|]. split; [repeat split|]. split; [split; constructor|]. split.
  - intros k s x HW. destruct (C122_written k s default_opts (mksobj x (Some [])) [] "f"%string (fun _ => None)) as (f & g & E & _); [split; reflexivity|exact W|now right|reflexivity|split; constructor|exact HW|]. rewrite E. reflexivity.
  - split; [reflexivity|]. split; [reflexivity|]. unfold absent, example. cbn [sfill sdata smask get Nat.eqb andb orb isnan]. replace (INR (1 + 2 * 2 + 6 * 1)) with 11%R by (cbn; lra). rewrite V. reflexivity.
Qed.
