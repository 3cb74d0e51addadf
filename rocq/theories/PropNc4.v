(** C117, continued: mappings of names and attributes given by the user, and the file after a failure. *)
From Coq Require Import Reals Lra String Bool.
From Verif Require Import Base TimeModel Arr HarmModel NcModel PropNc PropNc3.
Close Scope Z_scope.
Close Scope R_scope.
Open Scope nat_scope.
Open Scope list_scope.

(** ** specification *)
(** the data of a field *)
Definition content (t : flat) (field : string) : option vdata :=
  if String.eqb field "l" then Some (VIdx (f_l t)) else if String.eqb field "m" then Some (VIdx (f_m t))
  else if String.eqb field "clm" then Some (VCoef (f_depth t) (f_clm t)) else if String.eqb field "slm" then Some (VCoef (f_depth t) (f_slm t))
  else if String.eqb field "time" then match f_time t with TArr l => Some (VTime l) | TScalar x => Some (VTime [x]) | TNone => None end
  else if String.eqb field "month" then match f_month t with TArr l => Some (VMonth l) | TScalar x => Some (VMonth [x]) | TNone => None end
  else None.
(** netCDF4 files without dates have no dimension for the dates *)
Definition fits_in (k : kind) (date : bool) (t : flat) (field : string) : Prop :=
  k = HDF5 \/ date = true \/ (~ In field ["time"; "month"]%string /\ (In field ["clm"; "slm"]%string -> f_depth t = None)).
(** an attribute is stored unless its name is reserved or its value is empty *)
Definition empty_value (v : aval) : Prop := v = ANone \/ v = AText "" \/ v = AList [] \/ v = ADict [].
Definition is_reserved (n : string) : Prop := In n ["DIMENSION_LIST"; "CLASS"; "NAME"]%string.
Definition stored_attr (a : dict aval) (n : string) (r : option aval) : Prop :=
  match dget n a with
  | None => r = None
  | Some v => (is_reserved n \/ empty_value v -> r = None) /\ (~ is_reserved n -> ~ empty_value v -> r = Some v)
  end.
(** attributes that can be stored: no name twice, no dictionary with entries *)
Definition good_attrs (a : dict aval) : Prop := NoDup (map fst a) /\ forall n d, In (n, ADict d) a -> ~ is_reserved n -> d = [].
Definition good_entry (k : kind) (date : bool) (t : flat) (A : dict (dict aval)) (e : string * string) : Prop :=
  content t (fst e) <> None /\ fits_in k date t (fst e) /\ exists a, dget (snd e) A = Some a /\ good_attrs a.
(** the variable of the file for an entry *)
Definition variable_of (t : flat) (A : dict (dict aval)) (e : string * string) (w : string * var) : Prop :=
  fst w = snd e /\ content t (fst e) = Some (v_data (snd w)) /\ exists a, dget (snd e) A = Some a /\ forall n, stored_attr a n (dget n (v_attrs (snd w))).

(** ** lemmas *)
Lemma in_eqb n l : existsb (String.eqb n) l = true <-> In n l.
Proof. rewrite existsb_exists. split; [intros (x & I & E); apply String.eqb_eq in E; now subst|intros I; exists n; split; [exact I|apply String.eqb_refl]]. Qed.
Lemma data_ok k date t field v : content t field = Some v -> fits_in k date t field -> data_of k date t field = Ok v.
Proof.
  intros C F. unfold content in C. unfold data_of.
  assert (DA : In field ["time"; "month"]%string -> forall B (x : res B), match k with NetCDF4 => if date then x else Err IndexError | HDF5 => x end = x).
  { intros I B x. destruct F as [-> |[-> |(NF & _)]]; [reflexivity|now destruct k|tauto]. }
  assert (SH : In field ["clm"; "slm"]%string -> forall w : vdata, match k, date, f_depth t with NetCDF4, false, Some _ => Err ValueError | _, _, _ => Ok w end = Ok w).
  { intros I w. destruct F as [-> |[-> |(_ & NF)]]; [reflexivity|now destruct k|]. rewrite (NF I). destruct k, date; reflexivity. }
  destruct (String.eqb field "l"); [congruence|]. destruct (String.eqb field "m"); [congruence|].
  destruct (String.eqb field "clm") eqn:E1; [apply String.eqb_eq in E1; rewrite SH by (rewrite E1; now left); congruence|].
  destruct (String.eqb field "slm") eqn:E2; [apply String.eqb_eq in E2; rewrite SH by (rewrite E2; right; now left); congruence|].
  destruct (String.eqb field "time") eqn:E3; [apply String.eqb_eq in E3; rewrite DA by (rewrite E3; now left); destruct (f_time t); congruence|].
  destruct (String.eqb field "month") eqn:E4; [apply String.eqb_eq in E4; rewrite DA by (rewrite E4; right; now left); destruct (f_month t); congruence|]. discriminate.
Qed.
Lemma kept_iff n v : kept (n, v) = true <-> ~ is_reserved n /\ ~ empty_value v.
Proof.
  unfold kept, is_reserved, empty_value. cbn [fst snd]. rewrite andb_true_iff, negb_true_iff, <- not_true_iff_false, in_eqb. split.
  - intros (H & V). split; [exact H|]. intros [-> |[-> |[-> | ->]]]; discriminate.
  - intros (H & V). split; [exact H|]. destruct v as [|[|c s]|[|c l]|[|c d]]; try reflexivity; exfalso; tauto.
Qed.
Lemma filter_get (a : dict aval) : NoDup (map fst a) -> forall n, stored_attr a n (dget n (filter kept a)).
Proof.
  intros ND n. unfold stored_attr. induction a as [|(q & v) a IH]; [reflexivity|]. inversion ND as [|? ? NI ND']; subst. specialize (IH ND'). cbn [dget filter].
  destruct (String.eqb q n) eqn:E.
  - apply String.eqb_eq in E. subst q. destruct (kept (n, v)) eqn:K.
    + cbn [dget]. rewrite String.eqb_refl. pose proof (proj1 (kept_iff n v) K) as (K1 & K2). split; [tauto|reflexivity].
    + assert (NK : ~ (~ is_reserved n /\ ~ empty_value v)) by (rewrite <- kept_iff, K; discriminate). assert (DN : dget n (filter kept a) = None). { apply dget_none. intros I. apply in_map_iff in I as (e & <- & IE). apply filter_In in IE as (IE & _). apply NI. apply in_map_iff. now exists e. }
      split; [intros _; exact DN|]. intros U1 U2. exfalso. tauto.
  - destruct (kept (q, v)); [cbn [dget]; rewrite E|]; exact IH.
Qed.
Lemma good_storable a : good_attrs a -> storable (filter kept a).
Proof.
  intros (ND & GD). split.
  - clear GD. induction a as [|(q & v) a IH]; [constructor|]. inversion ND as [|? ? NI ND']; subst. cbn [filter]. destruct (kept (q, v)); [|now apply IH]. cbn [map fst]. constructor; [|now apply IH]. intros I. apply NI. apply in_map_iff in I as (e & E & IE). apply filter_In in IE as (IE & _). apply in_map_iff. now exists e.
  - apply Forall_forall. intros (n & v) I. apply filter_In in I as (I & K). apply kept_iff in K as (K1 & K2). cbn [snd]. destruct v as [| | |d]; try reflexivity; exfalso; [apply K2; now left|]. apply K2. right; right; right. f_equal. now apply (GD n d).
Qed.
Lemma fill_good k date t A m1 : forall m2 f, Forall (good_entry k date t A) m1 -> NoDup (map fst (n_vars f) ++ map snd m1) ->
  exists ws, fill k date t A (m1 ++ m2) f = fill k date t A m2 (mknfile (n_dims f) (n_vars f ++ ws) (n_root f)) /\ Forall2 (variable_of t A) m1 ws.
Proof.
  induction m1 as [|(field & key) m1 IH]; intros m2 f G ND; [exists []; rewrite app_nil_r; destruct f; split; [reflexivity|constructor]|]. inversion G as [|? ? (GC & GF & a & DA & GA) G']; subst. cbn [fst snd] in *.
  destruct (content t field) as [v|] eqn:C; [|congruence]. pose proof (data_ok k date t field v C GF) as DO. destruct (put_attrs_ok (filter kept a) [] (good_storable a GA)) as (b & PB & _ & GB).
  assert (DN : dget key (n_vars f) = None). { apply dget_none. intros I. apply in_split in I as (l1 & l2 & E). rewrite E, <- app_assoc in ND. apply NoDup_remove_2 in ND. apply ND. rewrite !in_app_iff. right. right. now left. }
  cbn [app fill]. rewrite DO, DN, DA, PB.
  destruct (IH m2 (mknfile (n_dims f) (n_vars f ++ [(key, mkvar v b)]) (n_root f)) G') as (ws & E & F2).
  { cbn [n_vars]. rewrite map_app, <- app_assoc. exact ND. }
  exists ((key, mkvar v b) :: ws). rewrite E. cbn [n_dims n_vars n_root]. rewrite <- app_assoc. split; [reflexivity|]. constructor; [|exact F2]. split; [reflexivity|]. split; [exact C|]. exists a. split; [exact DA|]. intros n. cbn [snd v_attrs]. rewrite GB. cbn [dget].
  pose proof (filter_get a (proj1 GA) n) as H. destruct (dget n (filter kept a)); exact H.
Qed.

(** ** attributes and names given by the user *)
(** names and attributes are given; the check looks for the fields among the attributes, the attributes themselves are taken by the names in the file *)
Definition by_user (o : opts) (m : dict string) (A : dict (dict aval)) (root : dict aval) : Prop :=
  w_mapping o = m /\ m <> [] /\ w_attrs o = Some A /\ (forall f, In f (map fst m) -> dget f A <> None) /\ dget "ROOT" A = Some root.
Lemma user_attributes o x m A rt : by_user o m A rt -> exists A', (do A <- attributes o x; titled o A) = Ok A' /\ dget "ROOT" A' = Some (titles o rt) /\ (forall n, n <> "ROOT"%string -> dget n A' = dget n A) /\ mapping o = m /\ keep o x A' = x.
Proof.
  intros (M & NM & WA & CK & RT). assert (MO : mapping o = m) by (unfold mapping; rewrite M; destruct m; [congruence|reflexivity]).
  unfold attributes. rewrite MO, WA. replace (forallb _ m) with true.
  2:{ symmetry. apply forallb_forall. intros e I. assert (dget (fst e) A <> None) by (apply CK; now apply in_map). now destruct (dget (fst e) A). }
  cbn [bind]. assert (EG : forall n v B d, dget "ROOT" B = Some d -> exists B', entry n v B = Ok B' /\ dget "ROOT" B' = Some (match given v with Some a => dset n a d | None => d end) /\ forall q, q <> "ROOT"%string -> dget q B' = dget q B).
  { intros n v B d R. unfold entry. destruct v as [[|c v]|]; cbn [given]; try (exists B; split; [reflexivity|split; [exact R|reflexivity]]). rewrite R. eexists. split; [reflexivity|]. rewrite dget_dset. split; [reflexivity|].
    intros q NQ. rewrite dget_dset, (eqb_ne _ q) by congruence. reflexivity. }
  unfold titled. destruct (EG "title"%string (w_title o) A rt RT) as (A1 & E1 & R1 & Q1). rewrite E1. cbn [bind]. destruct (EG "source"%string (w_source o) A1 _ R1) as (A2 & E2 & R2 & Q2). rewrite E2. cbn [bind].
  destruct (EG "reference"%string (w_reference o) A2 _ R2) as (A3 & E3 & R3 & Q3). exists A3. split; [exact E3|]. split; [exact R3|]. split; [intros q NQ; rewrite Q3, Q2, Q1 by exact NQ; reflexivity|]. split; [reflexivity || exact MO|]. unfold keep. now rewrite WA.
Qed.
Lemma entries_same k date t A A' m : (forall n, n <> "ROOT"%string -> dget n A' = dget n A) -> Forall (fun e => snd e <> "ROOT"%string) m -> Forall (good_entry k date t A) m -> Forall (good_entry k date t A') m.
Proof. intros S NR G. induction G as [|e m (G1 & G2 & a & G3 & G4) G IH]; [constructor|]. inversion NR as [|? ? N1 N2]; subst. constructor; [|now apply IH]. split; [exact G1|]. split; [exact G2|]. exists a. rewrite S by exact N1. now split. Qed.
Lemma variables_same t A A' m ws : (forall n, n <> "ROOT"%string -> dget n A' = dget n A) -> Forall (fun e => snd e <> "ROOT"%string) m -> Forall2 (variable_of t A') m ws -> Forall2 (variable_of t A) m ws.
Proof. intros S NR G. induction G as [|e w m ws (G1 & G2 & a & G3 & G4) G IH]; [constructor|]. inversion NR as [|? ? N1 N2]; subst. constructor; [|now apply IH]. split; [exact G1|]. split; [exact G2|]. exists a. rewrite <- S by exact N1. now split. Qed.
(** the run up to the variables *)
Lemma user_run k s o x p fs t m A rt : by_user o m A rt -> free o fs p -> (if w_date o then to_nc (o_h x) else flatten false (o_h x)) = Ok t ->
  exists A', dget "ROOT" A' = Some (titles o rt) /\ (forall n, n <> "ROOT"%string -> dget n A' = dget n A) /\
  write_file k s o x p fs = match fill k (w_date o) t A' m (mknfile (dims k (w_date o)) [] []) with
   | (f2, Err e) => (put fs p f2, x, Err e)
   | (f2, Ok _) => match put_attrs (titles o rt) (n_root f2) with
                   | (d, Err e) => (put fs p (mknfile (n_dims f2) (n_vars f2) d), x, Err e)
                   | (d, Ok _) => (put fs p (mknfile (n_dims f2) (n_vars f2) (sign_file s d)), x, Ok tt) end end.
Proof.
  intros BU FR T. destruct (user_attributes o x m A rt BU) as (A' & E & R & Q & MO & KP). exists A'. split; [exact R|]. split; [exact Q|]. unfold write_file. rewrite (opened_free _ _ _ _ FR), T, E. cbv zeta. rewrite KP, make_dims_ok, MO.
  destruct (fill _ _ _ _ _ _) as (f2 & [u|e]); [|reflexivity]. rewrite R. reflexivity.
Qed.
(** everything as asked for: the file holds exactly these variables, with the attributes given for their names in the file (empty and reserved ones left out) *)
Theorem C117_user_names : forall k s o x p fs t m A root, by_user o m A root -> free o fs p -> storable root -> (if w_date o then to_nc (o_h x) else flatten false (o_h x)) = Ok t ->
  NoDup (map snd m) -> Forall (fun e => snd e <> "ROOT"%string) m -> Forall (good_entry k (w_date o) t A) m ->
  exists f, write_file k s o x p fs = (put fs p f, x, Ok tt) /\ Forall2 (variable_of t A) m (n_vars f) /\ forall n, dget n (n_root f) = root_spec s o root n.
Proof.
  intros k s o x p fs t m A rt BU FR ST T ND NR G. destruct (user_run k s o x p fs t m A rt BU FR T) as (A' & R & Q & W).
  destruct (fill_good k (w_date o) t A' m [] (mknfile (dims k (w_date o)) [] []) (entries_same _ _ _ _ _ _ Q NR G)) as (ws & E & F2); [exact ND|]. rewrite app_nil_r in E. rewrite W, E. cbn [fill n_dims n_vars n_root app].
  destruct (put_attrs_ok (titles o rt) [] (titles_storable o rt ST)) as (d & EP & _ & GP). rewrite EP. eexists. split; [reflexivity|]. cbn [n_vars n_root]. split; [now apply (variables_same t A A')|].
  intros n. unfold sign_file, root_spec. rewrite !dget_dset, GP. cbn [dget]. rewrite !(String.eqb_sym _ n).
  destruct (String.eqb n "date_created"); [reflexivity|]. destruct (String.eqb n "software_version"); [reflexivity|]. destruct (String.eqb n "software_reference"); [reflexivity|].
  assert (OE : forall o' : option aval, or_else o' None = o') by now intros []. rewrite OE. unfold titles.
  assert (GE : forall q v d', dget n (match given v with Some a => dset q a d' | None => d' end) = if String.eqb n q then or_else (given v) (dget n d') else dget n d').
  { intros q v d'. destruct v as [[|a v]|]; cbn; try (now destruct (String.eqb n q)). rewrite dget_dset, (String.eqb_sym q n). reflexivity. }
  rewrite !GE. destruct (String.eqb_spec n "reference") as [->|]; [reflexivity|]. destruct (String.eqb_spec n "source") as [->|]; [reflexivity|]. now destruct (String.eqb n "title").
Qed.
(** the first entry that cannot be written stops it: the file holds the variables before, and no attributes of its own.
    Reasons: dates (or a series of fields) in a netCDF4 file without dates; an unknown field; a name used twice; no attributes for the name (then the data are there); a dictionary among them *)
Inductive stops (k : kind) (date : bool) (t : flat) (A : dict (dict aval)) (before : dict string) (field key : string) : exn -> option vdata -> Prop :=
| StopDates : k = NetCDF4 -> date = false -> In field ["time"; "month"]%string -> stops k date t A before field key IndexError None
| StopSeries n : k = NetCDF4 -> date = false -> In field ["clm"; "slm"]%string -> f_depth t = Some n -> stops k date t A before field key ValueError None
| StopField : ~ In field ["l"; "m"; "clm"; "slm"; "time"; "month"]%string -> stops k date t A before field key AttributeError None
| StopTwice v : content t field = Some v -> fits_in k date t field -> In key (map snd before) -> stops k date t A before field key (match k with NetCDF4 => OtherExn | HDF5 => ValueError end) None
| StopAttrs v : content t field = Some v -> fits_in k date t field -> ~ In key (map snd before) -> dget key A = None -> stops k date t A before field key KeyError (Some v)
| StopDict v a n d : content t field = Some v -> fits_in k date t field -> ~ In key (map snd before) -> dget key A = Some a -> In (n, ADict d) a -> d <> [] -> ~ is_reserved n -> stops k date t A before field key TypeError (Some v).
Theorem C117_user_stops : forall k s o x p fs t before field key after A root e last, by_user o (before ++ (field, key) :: after) A root -> free o fs p -> (if w_date o then to_nc (o_h x) else flatten false (o_h x)) = Ok t ->
  NoDup (map snd before) -> Forall (fun e => snd e <> "ROOT"%string) (before ++ [(field, key)]) -> Forall (good_entry k (w_date o) t A) before -> stops k (w_date o) t A before field key e last ->
  exists f ws, write_file k s o x p fs = (put fs p f, x, Err e) /\ n_root f = [] /\ Forall2 (variable_of t A) before ws /\
    match last with None => n_vars f = ws | Some v => exists b, n_vars f = ws ++ [(key, mkvar v b)] end.
Proof.
  intros k s o x p fs t before field key after A rt e last BU FR T ND NR G ST. destruct (user_run k s o x p fs t _ A rt BU FR T) as (A' & R & Q & W). apply Forall_app in NR as (NR & NK). inversion NK as [|? ? NK' _]; subst. cbn [snd] in NK'.
  destruct (fill_good k (w_date o) t A' before ((field, key) :: after) (mknfile (dims k (w_date o)) [] []) (entries_same _ _ _ _ _ _ Q NR G)) as (ws & E & F2); [exact ND|].
  assert (KEYS : map fst ws = map snd before) by (clear - F2; induction F2 as [|a w m ws (H & _) F IH]; [reflexivity|]; cbn [map]; now rewrite H, IH).
  cbn [n_dims n_vars n_root app] in E.
  assert (X : exists f, fill k (w_date o) t A' ((field, key) :: after) (mknfile (dims k (w_date o)) ws []) = (f, Err e) /\ n_root f = [] /\ match last with None => n_vars f = ws | Some v => exists b, n_vars f = ws ++ [(key, mkvar v b)] end).
  { cbn [fill]. destruct ST as [K D I|n K D I DN|I|v C F I|v C F I DA|v a n d C F I DA ID ND' NRS].
    - unfold data_of. rewrite K, D. cbn [In] in I. destruct I as [<-|[<-|[]]]; eexists; (split; [reflexivity|split; reflexivity]).
    - unfold data_of. rewrite K, D, DN. cbn [In] in I. destruct I as [<-|[<-|[]]]; eexists; (split; [reflexivity|split; reflexivity]).
    - unfold data_of. cbn [In] in I. rewrite !(String.eqb_sym field), !eqb_ne by tauto. eexists; (split; [reflexivity|split; reflexivity]).
    - rewrite (data_ok k _ t field v C F). cbn [n_vars]. destruct (dget key ws) eqn:DK; [|apply dget_none in DK; rewrite KEYS in DK; contradiction]. eexists; (split; [reflexivity|split; reflexivity]).
    - rewrite (data_ok k _ t field v C F). cbn [n_vars]. rewrite (proj2 (dget_none key ws)) by (rewrite KEYS; exact I). rewrite Q, DA by exact NK'. eexists. split; [reflexivity|]. split; [reflexivity|]. eexists. reflexivity.
    - rewrite (data_ok k _ t field v C F). cbn [n_vars]. rewrite (proj2 (dget_none key ws)) by (rewrite KEYS; exact I). rewrite Q, DA by exact NK'.
      destruct (put_attrs_bad (filter kept a)) with (d := @nil (string * aval)) as (b & PB).
      { apply Exists_exists. exists (n, ADict d). split; [|reflexivity]. apply filter_In. split; [exact ID|]. apply kept_iff. split; [exact NRS|]. unfold empty_value. intros [Z|[Z|[Z|Z]]]; congruence. }
      rewrite PB. eexists. split; [reflexivity|]. split; [reflexivity|]. eexists. reflexivity. }
  destruct X as (f & X & RF & L). rewrite X in E. rewrite E in W. exists f, ws. split; [exact W|]. split; [exact RF|]. split; [now apply (variables_same t A A')|exact L].
Qed.
(** a value of the attributes of the file that cannot be stored (None, a dictionary): the variables are complete, the signature is missing *)
Theorem C117_user_root : forall k s o x p fs t m A root n v, by_user o m A root -> free o fs p -> w_title o = None -> w_source o = None -> w_reference o = None -> In (n, v) root -> (v = ANone \/ exists d, v = ADict d) -> dget "date_created" root = None ->
  (if w_date o then to_nc (o_h x) else flatten false (o_h x)) = Ok t -> NoDup (map snd m) -> Forall (fun e => snd e <> "ROOT"%string) m -> Forall (good_entry k (w_date o) t A) m ->
  exists f, write_file k s o x p fs = (put fs p f, x, Err TypeError) /\ Forall2 (variable_of t A) m (n_vars f) /\ dget "date_created" (n_root f) = None.
Proof.
  intros k s o x p fs t m A rt n v BU FR T1 T2 T3 I BV DC T ND NR G. destruct (user_run k s o x p fs t m A rt BU FR T) as (A' & R & Q & W).
  destruct (fill_good k (w_date o) t A' m [] (mknfile (dims k (w_date o)) [] []) (entries_same _ _ _ _ _ _ Q NR G)) as (ws & E & F2); [exact ND|]. rewrite app_nil_r in E. rewrite W, E. cbn [fill n_dims n_vars n_root app].
  assert (TI : titles o rt = rt) by (unfold titles; rewrite T1, T2, T3; reflexivity). rewrite TI.
  assert (X : forall l d, (exists e, In e l /\ bad (snd e) = true) -> dget "date_created" l = None -> dget "date_created" d = None -> exists d', put_attrs l d = (d', Err TypeError) /\ dget "date_created" d' = None).
  { clear. induction l as [|(q & w) l IH]; intros d (e & IE & BE) DL DD; [destruct IE|]. cbn [put_attrs]. destruct (bad w) eqn:BW; [exists d; split; [reflexivity|exact DD]|]. cbn [dget] in DL. destruct (String.eqb q "date_created") eqn:EQ; [discriminate|].
    apply IH; [destruct IE as [<-|IE]; [cbn [snd] in BE; congruence|exists e; now split]|exact DL|]. rewrite dget_dset, EQ. exact DD. }
  destruct (X rt []) as (d' & PB & DD); [exists (n, v); split; [exact I|]; destruct BV as [-> |(d & ->)]; reflexivity|exact DC|reflexivity|]. rewrite PB. eexists. split; [reflexivity|]. cbn [n_vars n_root]. split; [now apply (variables_same t A A')|exact DD].
Qed.
