(** C122, continued: files of spatial fields read back. *)
From Coq Require Import Reals Lra String Bool.
From Verif Require Import Base TimeModel Arr HarmModel AdjustProofs.
From Verif Require PropNc.
From Verif Require Import SpatialModel SpNcModel PropSpNc.
Close Scope Z_scope.
Close Scope R_scope.
Open Scope nat_scope.
Open Scope list_scope.

(** ** specification *)
(** the array that is read for a grid of nlat latitudes, nlon longitudes and n fields: its shape and the place of field t at latitude i and longitude j.
    Axes of length 1 are gone; a matrix whose first length is the number of longitudes is taken for a transposed one; one longitude and several fields cannot be read *)
Definition layout (nlat nlon n : nat) : option (list nat * (nat -> nat -> nat -> list nat)) :=
  match nlat =? 1, nlon =? 1, n =? 1 with
  | false, false, false => Some ([nlat; nlon; n], fun i j t => [i; j; t])
  | false, false, true => if nlat =? nlon then Some ([nlon; nlat], fun i j t => [j; i]) else Some ([nlat; nlon], fun i j t => [i; j])
  | true, false, false => Some ([n; nlon], fun i j t => [t; j])
  | false, true, false => None
  | false, true, true => Some ([nlat], fun i j t => [i])
  | true, false, true => Some ([nlon], fun i j t => [j])
  | true, true, false => Some ([n], fun i j t => [t])
  | true, true, true => Some ([], fun i j t => [])
  end.
(** a cell is absent from the array read if it was nan or the fill value, or (with dates) masked; nothing is absent without a fill value *)
Definition absent (date : bool) (s : sp) (i j t : nat) : bool :=
  match sfill s with Some f => (date && get (smask s) i j t) || veqb (get (sdata s) i j t) f || isnan (get (sdata s) i j t) | None => false end.
Definition came_back (date : bool) (s : sp) (i j t : nat) : val :=
  match sfill s with Some f => if absent date s i j t then f else get (sdata s) i j t | None => get (sdata s) i j t end.
(** an axis that is read: a list, or a number if its length is 1 *)
Definition axis_back (l : list R) (a : option (nd val)) : Prop :=
  exists d, a = Some d /\ match l with [x] => shape d = [] /\ cell d [] = Some x | _ => is_axis l d end.
Definition labelled (r : robj) (field : string) (long units : option string) (fv : option val) : Prop :=
  exists a, dget field (q_attrs r) = Some (Sub a) /\
  forall q, dget q a = if String.eqb q "long_name" then given long else if String.eqb q "units" then given units else if String.eqb q "_FillValue" then option_map Num fv else None.
(** the same names are used for reading *)
Definition same_names (o : opts) (r : ropts) : Prop :=
  r_var r = w_var o /\ r_lon r = w_lon o /\ r_lat r = w_lat o /\ r_time r = w_time o /\ r_mapping r = [] /\ r_date r = w_date o.

(** ** lemmas *)
Lemma read_attrs_get a long units fv :
  (forall q, dget q a = if String.eqb q "long_name" then given long else if String.eqb q "units" then given units else if String.eqb q "_FillValue" then option_map Num fv else None) ->
  forall q, dget q (read_attrs a) = if String.eqb q "long_name" then given long else if String.eqb q "units" then given units else if String.eqb q "_FillValue" then option_map Num fv else None.
Proof.
  intros H q. unfold read_attrs, attributes_list. cbn [flat_map]. rewrite !H. cbn [String.eqb Ascii.eqb Bool.eqb]. cbn [app].
  assert (N : forall n q' : string, n <> q' -> String.eqb n q' = false) by (intros; now apply eqb_ne).
  destruct (String.eqb_spec q "long_name") as [->|N1]; [destruct (given long), (given units), fv; reflexivity|].
  destruct (String.eqb_spec q "units") as [->|N2]; [destruct (given long), (given units), fv; reflexivity|].
  destruct (String.eqb_spec q "_FillValue") as [->|N3]; [destruct (given long), (given units), fv; reflexivity|].
  destruct (given long), (given units), fv; cbn [option_map app NcModel.dget]; repeat rewrite (N _ q) by congruence; reflexivity.
Qed.
Lemma squeeze_axis l d : is_axis l d -> axis_back l (Some (squeeze d)).
Proof.
  intros (SH & C). exists (squeeze d). split; [reflexivity|]. unfold squeeze. rewrite SH. destruct l as [|x [|y l]].
  - split; [reflexivity|]. cbn. intros i L; lia.
  - split; [reflexivity|]. cbn [cell unsqueeze List.length Nat.eqb]. now rewrite (C 0) by (cbn; lia).
  - split; [reflexivity|]. intros i L. cbn [cell unsqueeze List.length Nat.eqb] in *. now apply C.
Qed.
Lemma dates_axis l d : is_axis l d -> dates (squeeze d) = Ok (tsqueeze (TArr l)).
Proof.
  intros IA. destruct (squeeze_axis l d IA) as (d' & E & H). injection E as <-. unfold dates. destruct l as [|x [|y l]].
  - destruct H as (SH & C). rewrite SH. reflexivity.
  - destruct H as (SH & C). rewrite SH, C. reflexivity.
  - destruct H as (SH & C). rewrite SH. set (l' := x :: y :: l) in *.
    assert (M : mapM (fun i => match cell (squeeze d) [i] with Some t => Ok t | None => Err OtherExn end) (seq 0 (List.length l')) = Ok l'); [|cbn [bind]; rewrite M; reflexivity].
    assert (G : forall k l0, (forall i, i < List.length l0 -> cell (squeeze d) [k + i] = Some (nth i l0 0%R)) -> mapM (fun i => match cell (squeeze d) [i] with Some t => Ok t | None => Err OtherExn end) (seq k (List.length l0)) = Ok l0).
    { intros k l0. revert k. induction l0 as [|z l0 IH]; intros k HC; [reflexivity|]. cbn [List.length seq mapM]. pose proof (HC 0 ltac:(cbn; lia)) as H0. rewrite Nat.add_0_r in H0. rewrite H0. cbn [nth bind]. rewrite (IH (S k)); [reflexivity|].
      intros i L. replace (S k + i) with (k + S i) by lia. apply (HC (S i)). cbn. lia. }
    apply G. intros i L. now apply C.
Qed.

(** what read_file does on variables of these names *)
Lemma read_default r f p (fs : files) dl da dd dt al aa ad at_ :
  r_mapping r = [] -> fs p = Some f ->
  dget (r_lon r) (g_vars f) = Some (mkvar (Some dl) al) -> dget (r_lat r) (g_vars f) = Some (mkvar (Some da) aa) -> dget (r_var r) (g_vars f) = Some (mkvar (Some dd) ad) ->
  (r_date r = true -> dget (r_time r) (g_vars f) = Some (mkvar (Some dt) at_)) ->
  read_file r p fs =
    do tr <- lon_first (Some (squeeze dl)) (squeeze dd);
    do fv <- match dget "_FillValue" (read_attrs ad) with None => Ok None | Some (Num v) => Ok (Some v) | Some _ => Err OtherExn end;
    do t <- (if r_date r then dates (squeeze dt) else Ok TNone);
    let d := if tr : bool then transpose (squeeze dd) else squeeze dd in
    let mask := mknd (shape d) (fun ix => match fv with Some v => veqb (cell d ix) v || isnan (cell d ix) | None => false end) in
    Ok (mkrobj (mknd (shape d) (fun ix => if cell mask ix then match fv with Some v => v | None => cell d ix end else cell d ix)) mask None (Some (squeeze dl)) (Some (squeeze da)) t (if r_date r then months t else TNone) fv
      (app [("lon"%string, Sub (read_attrs al)); ("lat"%string, Sub (read_attrs aa)); ("data"%string, Sub (read_attrs ad))] (app (if r_date r then [("time"%string, Sub (read_attrs at_))] else []) [("ROOT"%string, Sub (g_root f))]))).
Proof.
  intros M F HL HA HD HT. unfold read_file, rmapping. rewrite M, F. destruct (r_date r).
  - specialize (HT eq_refl). unfold default_field_mapping. cbn [app combine read_vars]. rewrite HL, HA, HD, HT. cbn [bind]. cbn [NcModel.dget String.eqb Ascii.eqb Bool.eqb option_map fst].
    destruct (lon_first _ _) as [tr|e]; [|reflexivity]. cbn [bind]. destruct (dget "_FillValue" (read_attrs ad)) as [[]|]; cbn [bind]; try reflexivity; destruct (dates (squeeze dt)); reflexivity.
  - unfold default_field_mapping. cbn [app combine read_vars]. rewrite HL, HA, HD. cbn [bind]. cbn [NcModel.dget String.eqb Ascii.eqb Bool.eqb option_map fst].
    destruct (lon_first _ _) as [tr|e]; [|reflexivity]. cbn [bind]. destruct (dget "_FillValue" (read_attrs ad)) as [[]|]; reflexivity.
Qed.

(** the squeezed field and its orientation *)
Lemma layout_ok date s dl d0 : is_field date s d0 -> is_axis (slon s) dl -> nslice (sdata s) = match third date s with [n] => n | _ => 1 end -> rows (sdata s) = List.length (slat s) -> cols (sdata s) = List.length (slon s) ->
  match layout (List.length (slat s)) (List.length (slon s)) (nslice (sdata s)) with
  | None => lon_first (Some (squeeze dl)) (squeeze d0) = Err TypeError
  | Some (sh, pl) => exists tr, lon_first (Some (squeeze dl)) (squeeze d0) = Ok tr /\ let d := if tr : bool then transpose (squeeze d0) else squeeze d0 in
      shape d = sh /\ forall i j t, inb (sdata s) i j t -> cell d (pl i j t) = stored date s i j t
  end.
Proof.
  intros (SH & C) (SL & _) NS RR RC. set (nlat := List.length (slat s)) in *. set (nlon := List.length (slon s)) in *.
  assert (TH : third date s = [] /\ nslice (sdata s) = 1 \/ third date s = [nslice (sdata s)]).
  { rewrite NS. unfold third. destruct date; [right; reflexivity|]. destruct (depth (sdata s)); [right|left; split]; reflexivity. }
  assert (PL : forall i j t, place date s i j t = i :: j :: match third date s with [] => [] | _ => [t] end).
  { intros i j t. unfold place, third. destruct date; [reflexivity|]. now destruct (depth (sdata s)). }
  assert (C' : forall i j t, inb (sdata s) i j t -> cell d0 (i :: j :: match third date s with [] => [] | _ => [t] end) = stored date s i j t) by (intros i j t IB; rewrite <- PL; now apply C).
  clear C PL NS. unfold inb in C'. rewrite RR, RC in C'. unfold inb. rewrite RR, RC. clear RR RC. unfold layout, lon_first, transpose, squeeze. rewrite SH, SL. set (n := nslice (sdata s)) in *.
  clearbody nlat nlon n. cbn [shape cell].
  assert (E : forall a, a <> 1 -> (a =? 1) = false) by (intros a Ha; now apply Nat.eqb_neq).
  destruct (Nat.eqb_spec nlat 1) as [->|Q1], (Nat.eqb_spec nlon 1) as [->|Q2], (Nat.eqb_spec n 1) as [->|Q3]; (destruct TH as [(TH & TN)|TH]; [try (exfalso; lia)|]); rewrite TH in *; cbn [filter];
  rewrite ?(E nlat) by assumption; rewrite ?(E nlon) by assumption; rewrite ?(E n) by assumption; cbn [negb Nat.eqb]; try reflexivity.
  all: try (destruct (Nat.eqb_spec nlat nlon) as [->|QQ]).
  all: eexists; (split; [first [rewrite Nat.eqb_refl; reflexivity | rewrite (proj2 (Nat.eqb_neq nlon nlat)) by congruence; reflexivity | reflexivity]|]).
  all: cbn [shape cell rev app]; (split; [reflexivity|]); intros i j t (B1 & B2 & B3).
  all: cbn [unsqueeze Nat.eqb]; rewrite ?(E nlat) by assumption; rewrite ?(E nlon) by assumption; rewrite ?(E n) by assumption; cbn [Nat.eqb].
  all: try (assert (i = 0) by lia; subst i); try (assert (j = 0) by lia; subst j); try (assert (t = 0) by lia; subst t); apply C'; lia.
Qed.

Lemma absent_stored date s i j t : let v := stored date s i j t in
  match sfill s with Some f => veqb v f || isnan v | None => false end = absent date s i j t /\
  (if match sfill s with Some f => veqb v f || isnan v | None => false end then match sfill s with Some f => f | None => v end else v) = came_back date s i j t.
Proof.
  assert (V : forall f, veqb f f || isnan f = true) by (intros [x|]; cbn; [destruct (Req_EM_T x x); [reflexivity|congruence]|reflexivity]).
  unfold stored, came_back, absent, missing. cbv zeta. destruct (sfill s) as [f|]; [|split; reflexivity]. destruct date; cbn [andb orb].
  - destruct (get (smask s) i j t || veqb (get (sdata s) i j t) f || isnan (get (sdata s) i j t)) eqn:E.
    + rewrite V. split; reflexivity.
    + apply orb_false_iff in E as (E & E2). apply orb_false_iff in E as (E0 & E1). rewrite E1, E2. split; reflexivity.
  - destruct (veqb (get (sdata s) i j t) f || isnan (get (sdata s) i j t)); split; reflexivity.
Qed.

(** An object that is written and read again under the same names: the field has the layout of the table above, with the fill value and the mask; the mask is lost without a
    fill value, and without dates the mask itself is not written.  Coordinates, dates and attributes are those of the object; months come from the dates alone. *)
Definition restored (s : software) (o : opts) (r : robj) (x : sp) (a : dict attr) (sh : list nat) (pl : nat -> nat -> nat -> list nat) : Prop :=
  shape (q_data r) = sh /\ shape (q_mask r) = sh /\
  (forall i j t, inb (sdata x) i j t -> cell (q_data r) (pl i j t) = came_back (w_date o) x i j t /\ cell (q_mask r) (pl i j t) = absent (w_date o) x i j t) /\
  q_fill r = sfill x /\ q_err r = None /\ axis_back (slon x) (q_lon r) /\ axis_back (slat x) (q_lat r) /\
  q_time r = (if w_date o then tsqueeze (TArr (times x)) else TNone) /\
  q_month r = (if w_date o then tsqueeze (TArr (adjust_months (map grace_month (times x)))) else TNone) /\
  labelled r "lon" (Some "longitude"%string) (Some "degrees_east"%string) None /\ labelled r "lat" (Some "latitude"%string) (Some "degrees_north"%string) None /\
  labelled r "data" (w_longname o) (w_units o) (sfill x) /\ (w_date o = true -> labelled r "time" (Some (w_time_longname o)) (Some (w_time_units o)) None) /\
  exists d, dget "ROOT" (q_attrs r) = Some (Sub d) /\ forall n, dget n d = root_spec s o (root a) n.
Theorem C122_roundtrip : forall k s o r x a p fs, plain o -> good_names o -> free o fs p -> x_attrs x = Some a -> storable (root a) -> writable k (w_date o) (x_sp x) -> same_names o r ->
  let '(fs', _, _) := write_file k s o x p fs in
  match layout (List.length (slat (x_sp x))) (List.length (slon (x_sp x))) (nslice (sdata (x_sp x))) with
  | None => read_file r p fs' = Err TypeError
  | Some (sh, pl) => exists y, read_file r p fs' = Ok y /\ restored s o y (x_sp x) a sh pl
  end.
Proof.
  intros k s o r x a p fs P N FR XA ST W (SN1 & SN2 & SN3 & SN4 & SN5 & SN6).
  destruct (C122_written k s o x a p fs P N FR XA ST W) as (f & g & E & (dl & AL & (al & VL & LL)) & (da & AA & (aa & VA & LA)) & (dd & FD & (ad & VD & LD)) & HT & _ & RS & _). rewrite E.
  assert (NS : nslice (sdata (x_sp x)) = match third (w_date o) (x_sp x) with [n] => n | _ => 1 end).
  { unfold third. destruct (w_date o) eqn:D; [|unfold nslice; now destruct (depth (sdata (x_sp x)))]. destruct (expand_ok k _ W) as (_ & _ & _ & _ & _ & _ & _ & _ & _ & L). exact L. }
  destruct W as ((_ & _ & RR & RC & _) & _). pose proof (layout_ok _ _ dl dd FD AL NS RR RC) as LO.
  assert (HT' : exists dt at_, (r_date r = true -> dget (r_time r) (g_vars f) = Some (mkvar (Some dt) at_)) /\ (w_date o = true -> is_axis (times (x_sp x)) dt /\
     forall q, dget q at_ = if String.eqb q "long_name" then given (Some (w_time_longname o)) else if String.eqb q "units" then given (Some (w_time_units o)) else if String.eqb q "_FillValue" then option_map Num None else None)).
  { destruct (w_date o) eqn:D; [|exists dl, []; rewrite SN6; split; discriminate]. destruct (HT eq_refl) as (dt & AT & (at_ & VT & LT)). exists dt, at_. rewrite SN4. split; auto. }
  destruct HT' as (dt & at_ & VT & LT). rewrite <- SN1 in VD. rewrite <- SN2 in VL. rewrite <- SN3 in VA.
  assert (PF : put fs p f p = Some f) by (unfold put; now rewrite String.eqb_refl).
  pose proof (read_default r f p (put fs p f) dl da dd dt al aa ad at_ SN5 PF VL VA VD VT) as RD. clear E.
  destruct (layout _ _ _) as [(sh & pl)|]; [|rewrite RD, LO; reflexivity]. destruct LO as (tr & LF & SH & CE). rewrite LF in RD. cbn [bind] in RD.
  pose proof (read_attrs_get ad _ _ _ LD) as LD'. rewrite (LD' "_FillValue"%string) in RD. cbn [String.eqb Ascii.eqb Bool.eqb] in RD.
  assert (FVD : match option_map Num (sfill (x_sp x)) with None => Ok None | Some (Num v) => Ok (Some v) | Some _ => Err OtherExn end = Ok (sfill (x_sp x))) by now destruct (sfill (x_sp x)).
  rewrite FVD in RD. cbn [bind] in RD.
  assert (TD : (if r_date r then dates (squeeze dt) else Ok TNone) = Ok (if w_date o then tsqueeze (TArr (times (x_sp x))) else TNone)).
  { rewrite SN6. destruct (w_date o); [|reflexivity]. apply dates_axis. now apply LT. }
  rewrite TD in RD. cbn [bind] in RD. cbv zeta in RD, CE. eexists. split; [exact RD|]. set (d := if tr then transpose (squeeze dd) else squeeze dd) in *. clearbody d.
  unfold restored. cbn [q_data q_mask q_err q_lon q_lat q_time q_month q_fill q_attrs shape cell]. rewrite SN6.
  split; [exact SH|]. split; [exact SH|]. split; [intros i j t IB; rewrite (CE i j t IB); destruct (absent_stored (w_date o) (x_sp x) i j t) as (A1 & A2); split; [exact A2|exact A1]|].
  split; [reflexivity|]. split; [reflexivity|]. split; [now apply squeeze_axis|]. split; [now apply squeeze_axis|]. split; [reflexivity|].
  split. { destruct (w_date o); [|reflexivity]. unfold tsqueeze. destruct (times (x_sp x)) as [|t0 [|t1 l]]; reflexivity. }
  unfold labelled. cbn [q_attrs app NcModel.dget String.eqb Ascii.eqb Bool.eqb].
  split; [eexists; split; [reflexivity|]; now apply read_attrs_get|]. split; [eexists; split; [reflexivity|]; now apply read_attrs_get|]. split; [eexists; split; [reflexivity|]; exact LD'|].
  split. { intros D. rewrite D. cbn [app NcModel.dget String.eqb Ascii.eqb Bool.eqb]. eexists; split; [reflexivity|]. apply read_attrs_get. now apply LT. }
  exists (g_root f). split; [|exact RS]. destruct (w_date o); reflexivity.
Qed.
