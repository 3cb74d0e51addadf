(** C122: netCDF4 and HDF5 files of spatial fields: what is written. *)
From Coq Require Import Reals Lra String Bool.
From Verif Require Import Base TimeModel Arr HarmModel.
From Verif Require PropNc.
From Verif Require Import SpatialModel SpNcModel.
Close Scope Z_scope.
Close Scope R_scope.
Open Scope nat_scope.
Open Scope list_scope.

(** ** specification *)
(** arguments without a mapping of names and without attributes *)
Definition plain (o : opts) : Prop := w_mapping o = [] /\ w_attrs o = None.
(** the names of the variables are different, and none of them is ROOT *)
Definition names (o : opts) : list string := [w_lon o; w_lat o; w_var o] ++ if w_date o then [w_time o] else [].
Definition good_names (o : opts) : Prop := NoDup ("ROOT"%string :: names o).
(** attributes of the file that can be stored: a dictionary without None and dictionaries in it *)
Definition storable (d : dict attr) : Prop := NoDup (map fst d) /\ Forall (fun e => bad (snd e) = false) d.
Definition root (a : dict attr) : dict attr := match dget "ROOT" a with Some (Sub d) => d | _ => [] end.
(** may be written: a new file, or an existing one that is to be replaced *)
Definition free (o : opts) (fs : files) (p : string) : Prop := w_clobber o = true \/ fs p = None.
Definition given (v : option string) : option attr := match v with Some EmptyString | None => None | Some s => Some (Text s) end.
Definition or_else {A} (a b : option A) : option A := match a with Some _ => a | None => b end.
(** the attribute n of the file after writing, if the object had the attributes d *)
Definition root_spec (s : software) (o : opts) (d : dict attr) (n : string) : option attr :=
  if String.eqb n "date_created" then Some (Text (NcModel.s_today s))
  else if String.eqb n "software_version" then Some (Text (NcModel.s_version s))
  else if String.eqb n "software_reference" then Some (Text (NcModel.s_name s))
  else if String.eqb n "title" then or_else (given (w_title o)) (dget n d)
  else if String.eqb n "source" then or_else (given (w_source o)) (dget n d)
  else if String.eqb n "reference" then or_else (given (w_reference o)) (dget n d)
  else dget n d.
(** the variable of the name n holds v, with a long name, units and a fill value if there are any, and no other attribute *)
Definition holds (f : gfile) (n : string) (v : nd val) (long units : option string) (fv : option val) : Prop :=
  exists a, dget n (g_vars f) = Some (mkvar (Some v) a) /\
  forall q, dget q a = if String.eqb q "long_name" then given long else if String.eqb q "units" then given units else if String.eqb q "_FillValue" then option_map Num fv else None.

(** ** dictionaries *)
Lemma dget_dset {A} k (v : A) n d : dget n (dset k v d) = if String.eqb k n then Some v else dget n d.
Proof. apply PropNc.dget_dset. Qed.
Lemma dget_app {A} n (a b : dict A) : dget n (a ++ b) = or_else (dget n a) (dget n b).
Proof. induction a as [|[k v] a IH]; [reflexivity|]. cbn [app NcModel.dget]. destruct (String.eqb k n); [reflexivity|exact IH]. Qed.
Lemma dset_new {A} k (v : A) d : dget k d = None -> dset k v d = d ++ [(k, v)].
Proof. apply PropNc.dset_new. Qed.
Lemma put_attrs_ok l : forall d, storable l -> exists d', put_attrs l d = (d', Ok tt) /\ (storable d -> storable d') /\ forall n, dget n d' = or_else (dget n l) (dget n d).
Proof.
  induction l as [|[k v] l IH]; intros d (ND & F); cbn [put_attrs]; [exists d; split; [reflexivity|]; split; [trivial|reflexivity]|]. inversion ND as [|? ? NI ND']; inversion F as [|? ? B F']; subst. cbn [snd] in B. rewrite B.
  destruct (IH (dset k v d)) as (d' & E & S & G); [now split|]. exists d'. split; [exact E|].
  split; [intros (SN & SB); apply S; split; [now apply PropNc.dset_nodup|apply PropNc.dset_forall; [exact SB|intros; exact B]]|]. intros n. rewrite G, dget_dset. cbn [NcModel.dget].
  destruct (String.eqb_spec k n) as [->|NE]; [|reflexivity]. rewrite (proj2 (PropNc.dget_none n l)) by exact NI. reflexivity.
Qed.
Definition titles (o : opts) (d : dict attr) : dict attr :=
  let e n v d := match given v with Some a => dset n a d | None => d end in
  e "reference"%string (w_reference o) (e "source"%string (w_source o) (e "title"%string (w_title o) d)).
Lemma entry_ok n v d rest : entry n v (("ROOT"%string, d) :: rest) = Ok (("ROOT"%string, match given v with Some a => dset n a d | None => d end) :: rest).
Proof. destruct v as [[|a v]|]; reflexivity. Qed.
Lemma titled_ok o d rest : titled o (("ROOT"%string, d) :: rest) = Ok (("ROOT"%string, titles o d) :: rest).
Proof. unfold titled. rewrite entry_ok. cbn [bind]. rewrite entry_ok. cbn [bind]. now rewrite entry_ok. Qed.
Lemma titles_storable o d : storable d -> storable (titles o d).
Proof.
  assert (E : forall n v d, storable d -> storable (match given v with Some a => dset n a d | None => d end)).
  { intros n v d' (A & B). destruct v as [[|a v]|]; cbn; try now split. split; [now apply PropNc.dset_nodup|]. apply PropNc.dset_forall; [exact B|reflexivity]. }
  intros H. unfold titles. now repeat apply E.
Qed.
Lemma root_of_root a : match root_of a with Some d => d | None => [] end = root a.
Proof. unfold root_of, root. destruct (dget "ROOT" a) as [[| | | |[|e d]]|]; reflexivity. Qed.
Lemma eqb_ne a b : a <> b -> String.eqb a b = false.
Proof. intros. now destruct (String.eqb_spec a b). Qed.

(** ** default attributes *)
Definition pair_ (l u : attr) : dict attr := [("long_name"%string, l); ("units"%string, u)].
Definition described (o : opts) : dict (dict attr) :=
  [(w_lon o, pair_ (Text "longitude") (Text "degrees_east")); (w_lat o, pair_ (Text "latitude") (Text "degrees_north")); (w_var o, pair_ (may (w_longname o)) (may (w_units o)))] ++
  if w_date o then [(w_time o, pair_ (Text (w_time_longname o)) (Text (w_time_units o)))] else [].
Lemma mapping_plain o : plain o -> mapping o = [("lon"%string, w_lon o); ("lat"%string, w_lat o); ("data"%string, w_var o)] ++ if w_date o then [("time"%string, w_time o)] else [].
Proof. intros (M & _). unfold mapping. rewrite M. destruct (w_date o); reflexivity. Qed.
Ltac neqs ND := repeat (match goal with
  | |- context [String.eqb ?a ?a] => rewrite (String.eqb_refl a)
  | |- context [String.eqb ?a ?b] => rewrite (eqb_ne a b) by (first [exact (ltac:(discriminate) : a <> b) | intros X__; cbn [In] in ND; intuition congruence])
  end).
(** the pairwise differences of the names, both ways *)
Definition apart (o : opts) : Prop :=
  (forall n, In n (names o) -> n <> "ROOT"%string) /\ w_lon o <> w_lat o /\ w_lon o <> w_var o /\ w_lat o <> w_var o /\
  (w_date o = true -> w_lon o <> w_time o /\ w_lat o <> w_time o /\ w_var o <> w_time o /\ w_time o <> "ROOT"%string).
Lemma good_apart o : good_names o -> apart o /\ w_lon o <> "ROOT"%string /\ w_lat o <> "ROOT"%string /\ w_var o <> "ROOT"%string.
Proof.
  unfold good_names, apart, names. intros ND. inversion ND as [|? ? N0 ND1]; subst. inversion ND1 as [|? ? N1 ND2]; subst. inversion ND2 as [|? ? N2 ND3]; subst. inversion ND3 as [|? ? N3 ND4]; subst.
  destruct (w_date o); cbn [In app] in *; (split; [split; [intros n I -> ; tauto|]; repeat split; intuition congruence|]); repeat split; intuition congruence.
Qed.
Lemma attributes_ok o a : plain o -> good_names o -> attributes o a = Ok (("ROOT"%string, root a) :: described o).
Proof.
  intros P N. destruct (good_apart o N) as ((_ & N1 & N2 & N3 & NT) & R1 & R2 & R3). pose proof (mapping_plain o P) as M. destruct P as (_ & PA). unfold attributes. rewrite PA, root_of_root, M. unfold described.
  replace (forallb _ _) with false by (cbn [forallb app snd NcModel.dget]; rewrite (eqb_ne "ROOT" (w_lon o)) by congruence; reflexivity).
  unfold describe. destruct (w_date o); cbn [app NcModel.dget String.eqb Ascii.eqb Bool.eqb bind].
  - destruct (NT eq_refl) as (T1 & T2 & T3 & T4).
    rewrite (dset_new (w_lon o)) by (cbn [NcModel.dget]; rewrite (eqb_ne "ROOT" (w_lon o)) by congruence; reflexivity). cbn [app].
    rewrite (dset_new (w_lat o)) by (cbn [NcModel.dget]; rewrite (eqb_ne "ROOT" (w_lat o)), (eqb_ne (w_lon o) (w_lat o)) by congruence; reflexivity). cbn [app].
    rewrite (dset_new (w_var o)) by (cbn [NcModel.dget]; rewrite (eqb_ne "ROOT" (w_var o)), (eqb_ne (w_lon o) (w_var o)), (eqb_ne (w_lat o) (w_var o)) by congruence; reflexivity). cbn [app].
    rewrite (dset_new (w_time o)) by (cbn [NcModel.dget]; rewrite (eqb_ne "ROOT" (w_time o)), (eqb_ne (w_lon o) (w_time o)), (eqb_ne (w_lat o) (w_time o)), (eqb_ne (w_var o) (w_time o)) by congruence; reflexivity).
    reflexivity.
  - rewrite (dset_new (w_lon o)) by (cbn [NcModel.dget]; rewrite (eqb_ne "ROOT" (w_lon o)) by congruence; reflexivity). cbn [app].
    rewrite (dset_new (w_lat o)) by (cbn [NcModel.dget]; rewrite (eqb_ne "ROOT" (w_lat o)), (eqb_ne (w_lon o) (w_lat o)) by congruence; reflexivity). cbn [app].
    rewrite (dset_new (w_var o)) by (cbn [NcModel.dget]; rewrite (eqb_ne "ROOT" (w_var o)), (eqb_ne (w_lon o) (w_var o)), (eqb_ne (w_lat o) (w_var o)) by congruence; reflexivity). reflexivity.
Qed.

(** ** the variables *)
Definition put_one (n : string) (v : option attr) (d : dict attr) : dict attr := match v with Some x => dset n x d | None => d end.
Lemma put_pair k l u d : put_attrs (filter (kept k) (pair_ (may l) (may u))) d = (put_one "units" (given u) (put_one "long_name" (given l) d), Ok tt).
Proof. destruct k, l as [[|? ?]|], u as [[|? ?]|]; reflexivity. Qed.
Definition attrs_of (o : opts) (n : string) (d : dict attr) : dict attr :=
  if String.eqb n (w_lon o) then put_one "units" (given (Some "degrees_east"%string)) (put_one "long_name" (given (Some "longitude"%string)) d)
  else if String.eqb n (w_lat o) then put_one "units" (given (Some "degrees_north"%string)) (put_one "long_name" (given (Some "latitude"%string)) d)
  else if String.eqb n (w_var o) then put_one "units" (given (w_units o)) (put_one "long_name" (given (w_longname o)) d)
  else put_one "units" (given (Some (w_time_units o))) (put_one "long_name" (given (Some (w_time_longname o))) d).
(** the grid to be written: lengths of the coordinates, dates *)
Definition regular (k : kind) (date : bool) (g : sp) : Prop :=
  rows (sdata g) = List.length (slat g) /\ cols (sdata g) = List.length (slon g) /\
  if date then exists ts, stime g = TArr ts /\ depth (sdata g) = Some (List.length ts) else k = NetCDF4 -> depth (sdata g) = None.
Definition time_list (g : sp) : list R := match stime g with TArr l => l | _ => [] end.
Lemma fits_ok sizes field v want : shape v = want ->
  want = (if String.eqb field "lat" then firstn 1 sizes else if String.eqb field "lon" then firstn 1 (skipn 1 sizes)
          else if String.eqb field "time" && (List.length sizes =? 3) then skipn 2 sizes else firstn (List.length (shape v)) sizes) -> fits sizes field v = Ok tt.
Proof. intros E W. unfold fits. rewrite <- W. destruct (list_eq_dec Nat.eq_dec (shape v) want); [reflexivity|congruence]. Qed.
Lemma fill_nc_step date s (A : dict (dict attr)) (field key : string) rest f v w (a b : dict attr) : value_of date s field = Ok v -> fits (lengths date s) field v = Ok tt -> dget key (g_vars f) = Some w -> dget key A = Some a ->
  put_attrs (filter (kept NetCDF4) a) (v_attrs w) = (b, Ok tt) ->
  fill_nc date s A ((field, key) :: rest) f = fill_nc date s A rest (mkgfile (g_dims f) (dset key (mkvar (Some v) b) (g_vars f)) (g_root f)).
Proof. intros H F D DA P. cbn [fill_nc]. rewrite H. cbn [bind]. rewrite F. cbn [bind]. rewrite D, DA. cbn iota. rewrite P. reflexivity. Qed.
Lemma fill_h5_step date s (A : dict (dict attr)) (field key : string) rest f v (a b : dict attr) : value_of date s field = Ok v -> shape v <> [] -> dget key (g_vars f) = None -> dget key A = Some a ->
  put_attrs (filter (kept HDF5) a) [] = (b, Ok tt) ->
  fill_h5 date s A ((field, key) :: rest) f = fill_h5 date s A rest (mkgfile (g_dims f) (g_vars f ++ [(key, mkvar (Some v) b)]) (g_root f)).
Proof. intros H F D DA P. cbn [fill_h5]. rewrite H. cbn [bind]. destruct (shape v); [congruence|]. rewrite D, DA. cbn iota. rewrite P. reflexivity. Qed.
Lemma put_one_get n v d q : dget q (put_one n v d) = if String.eqb n q then or_else v (dget q d) else dget q d.
Proof. destruct v as [v|]; cbn [put_one]; [apply dget_dset|]. now destruct (String.eqb n q). Qed.
Lemma labels_get l u fv q : dget q (put_one "units" (given u) (put_one "long_name" (given l) (match fv with Some v => [("_FillValue"%string, Num v)] | None => [] end))) =
  if String.eqb q "long_name" then given l else if String.eqb q "units" then given u else if String.eqb q "_FillValue" then option_map Num fv else None.
Proof.
  rewrite !put_one_get, !(String.eqb_sym _ q).
  assert (G : dget q (match fv with Some v => [("_FillValue"%string, Num v)] | None => [] end) = if String.eqb q "_FillValue" then option_map Num fv else None).
  { destruct fv as [v|]; cbn [NcModel.dget option_map]; [rewrite String.eqb_sym; reflexivity|]. now destruct (String.eqb q "_FillValue"). }
  rewrite G. destruct (String.eqb_spec q "units") as [->|]; [cbn; now destruct (given u)|]. destruct (String.eqb_spec q "long_name") as [->|]; [cbn; now destruct (given l)|]. reflexivity.
Qed.
Lemma labels_get_h5 l u fv q : dget q (match fv with Some v => dset "_FillValue" (Num v) (put_one "units" (given u) (put_one "long_name" (given l) [])) | None => put_one "units" (given u) (put_one "long_name" (given l) []) end) =
  if String.eqb q "long_name" then given l else if String.eqb q "units" then given u else if String.eqb q "_FillValue" then option_map Num fv else None.
Proof.
  pose proof (labels_get l u None q) as G. cbn [option_map] in G. destruct fv as [v|]; [|exact G]. rewrite dget_dset, G, String.eqb_sym. cbn [option_map].
  destruct (String.eqb q "_FillValue") eqn:E; [|reflexivity]. apply String.eqb_eq in E. subst q. reflexivity.
Qed.

Lemma make_dims_step date s m field key rest f v : name_of m field = Ok key -> existsb (String.eqb key) (g_dims f) = false -> value_of date s field = Ok v -> dget key (g_vars f) = None ->
  make_dims date s m (field :: rest) f = make_dims date s m rest (mkgfile (g_dims f ++ [key]) (g_vars f ++ [(key, mkvar None [])]) (g_root f)).
Proof. intros H E V D. cbn [make_dims]. rewrite H, E, V. unfold add_var. cbn [g_vars]. rewrite D. reflexivity. Qed.
Lemma make_vars_step date s m field key rest f v : name_of m field = Ok key -> value_of date s field = Ok v -> dget key (g_vars f) = None ->
  make_vars date s m (field :: rest) f = make_vars date s m rest (mkgfile (g_dims f) (g_vars f ++ [(key, mkvar None (fill_attr s))]) (g_root f)).
Proof. intros H V D. cbn [make_vars]. rewrite H, V. unfold add_var. rewrite D. reflexivity. Qed.

Section Variables.
Variables (o : opts) (g : sp) (A : dict (dict attr)).
Hypothesis (P : plain o) (N : good_names o).
Hypothesis DA : forall n, In n (names o) -> dget n A = dget n (described o).
Let lo := w_lon o. Let la := w_lat o. Let va := w_var o. Let ti := w_time o.

Definition all_held (f : gfile) : Prop :=
  holds f (w_lon o) (of_list (slon g)) (Some "longitude"%string) (Some "degrees_east"%string) None /\
  holds f (w_lat o) (of_list (slat g)) (Some "latitude"%string) (Some "degrees_north"%string) None /\
  holds f (w_var o) (of_grid (sdata g)) (w_longname o) (w_units o) (sfill g) /\
  (w_date o = true -> holds f (w_time o) (of_list (time_list g)) (Some (w_time_longname o)) (Some (w_time_units o)) None) /\
  forall n, ~ In n (names o) -> dget n (g_vars f) = None.

Ltac nm := repeat match goal with
  | |- context [String.eqb ?a ?a] => rewrite (String.eqb_refl a)
  | H : ?a <> ?b |- context [String.eqb ?a ?b] => rewrite (eqb_ne a b H)
  | H : ?b <> ?a |- context [String.eqb ?a ?b] => rewrite (eqb_ne a b (not_eq_sym H))
  end.
Ltac run := repeat progress (cbn [NcModel.dget app g_vars g_dims g_root existsb orb NcModel.dset v_attrs]; nm).

Lemma pairs_of : dget lo A = Some (pair_ (may (Some "longitude"%string)) (may (Some "degrees_east"%string))) /\ dget la A = Some (pair_ (may (Some "latitude"%string)) (may (Some "degrees_north"%string))) /\
  dget va A = Some (pair_ (may (w_longname o)) (may (w_units o))) /\ (w_date o = true -> dget ti A = Some (pair_ (may (Some (w_time_longname o))) (may (Some (w_time_units o))))).
Proof using DA N.
  destruct (good_apart o N) as ((_ & N1 & N2 & N3 & NT) & R1 & R2 & R3). unfold lo, la, va, ti.
  rewrite !DA by (unfold names; cbn [In app]; tauto). unfold described. repeat split; try (intros D; rewrite DA by (unfold names; rewrite D; cbn [In app]; tauto); unfold described; rewrite D; destruct (NT D) as (T1 & T2 & T3 & T4)); cbn [app NcModel.dget]; nm; reflexivity.
Qed.

Lemma nc_ok : regular NetCDF4 (w_date o) g -> exists f, variables NetCDF4 (w_date o) g A (mapping o) empty_file = (f, Ok tt) /\ g_root f = [] /\ all_held f.
Proof using P N DA.
  intros (RR & RC & RD). destruct (good_apart o N) as ((_ & N1 & N2 & N3 & NT) & R1 & R2 & R3). destruct pairs_of as (D1 & D2 & D3 & D4). unfold lo, la, va, ti in *. rewrite (mapping_plain o P). unfold all_held, names. destruct (w_date o) eqn:DT.
  - destruct (NT eq_refl) as (T1 & T2 & T3 & T4). specialize (D4 eq_refl). destruct RD as (ts & TS & DE). cbn [app].
    assert (V : value_of true g "time" = Ok (of_list ts)) by (unfold value_of; cbn; now rewrite TS).
    unfold variables, dimensions, empty_file. cbn [app].
    do 2 (erewrite make_dims_step; [|reflexivity|run; reflexivity|reflexivity|run; reflexivity]). erewrite make_dims_step; [|reflexivity|run; reflexivity|exact V|run; reflexivity]. cbn [make_dims and_then].
    replace (others true _) with ["data"%string] by reflexivity. erewrite make_vars_step; [|reflexivity|reflexivity|run; reflexivity]. cbn [make_vars and_then].
    erewrite fill_nc_step; [|reflexivity| |run; reflexivity|exact D1|apply put_pair]; [|now apply (fits_ok _ _ _ [List.length (slon g)])].
    erewrite fill_nc_step; [|reflexivity| |run; reflexivity|exact D2|apply put_pair]; [|now apply (fits_ok _ _ _ [List.length (slat g)])].
    erewrite fill_nc_step; [|reflexivity| |run; reflexivity|exact D3|apply put_pair].
    2:{ eapply fits_ok; [reflexivity|]. unfold of_grid, lengths. cbn [shape]. rewrite DE, TS, RR, RC. reflexivity. }
    erewrite fill_nc_step; [|exact V| |run; reflexivity|exact D4|apply put_pair].
    2:{ eapply fits_ok; [reflexivity|]. unfold of_list, lengths. cbn [shape]. rewrite TS. reflexivity. }
    cbn [fill_nc]. eexists. split; [reflexivity|]. split; [reflexivity|]. unfold holds, time_list. rewrite TS. run.
    split; [eexists; split; [reflexivity|]; intros q; apply (labels_get _ _ None)|].
    split; [eexists; split; [reflexivity|]; intros q; apply (labels_get _ _ None)|].
    split; [eexists; split; [reflexivity|]; intros q; apply (labels_get _ _ (sfill g))|].
    split; [intros _; eexists; split; [reflexivity|]; intros q; apply (labels_get _ _ None)|].
    intros n NI. cbn [In] in NI. rewrite !(eqb_ne _ n) by tauto. reflexivity.
  - specialize (RD eq_refl). cbn [app].
    unfold variables, dimensions, empty_file. cbn [app].
    do 2 (erewrite make_dims_step; [|reflexivity|run; reflexivity|reflexivity|run; reflexivity]). cbn [make_dims and_then].
    replace (others false _) with ["data"%string] by reflexivity. erewrite make_vars_step; [|reflexivity|reflexivity|run; reflexivity]. cbn [make_vars and_then].
    erewrite fill_nc_step; [|reflexivity| |run; reflexivity|exact D1|apply put_pair]; [|now apply (fits_ok _ _ _ [List.length (slon g)])].
    erewrite fill_nc_step; [|reflexivity| |run; reflexivity|exact D2|apply put_pair]; [|now apply (fits_ok _ _ _ [List.length (slat g)])].
    erewrite fill_nc_step; [|reflexivity| |run; reflexivity|exact D3|apply put_pair].
    2:{ eapply fits_ok; [reflexivity|]. unfold of_grid, lengths. cbn [shape]. rewrite RD, RR, RC. reflexivity. }
    cbn [fill_nc]. eexists. split; [reflexivity|]. split; [reflexivity|]. unfold holds. run.
    split; [eexists; split; [reflexivity|]; intros q; apply (labels_get _ _ None)|].
    split; [eexists; split; [reflexivity|]; intros q; apply (labels_get _ _ None)|].
    split; [eexists; split; [reflexivity|]; intros q; apply (labels_get _ _ (sfill g))|].
    split; [discriminate|].
    intros n NI. cbn [In] in NI. rewrite !(eqb_ne _ n) by tauto. reflexivity.
Qed.

Lemma h5_ok : regular HDF5 (w_date o) g -> exists f, variables HDF5 (w_date o) g A (mapping o) empty_file = (f, Ok tt) /\ g_root f = [] /\ all_held f.
Proof using P N DA.
  intros (RR & RC & RD). destruct (good_apart o N) as ((_ & N1 & N2 & N3 & NT) & R1 & R2 & R3). destruct pairs_of as (D1 & D2 & D3 & D4). unfold lo, la, va, ti in *. rewrite (mapping_plain o P). unfold all_held, names. destruct (w_date o) eqn:DT.
  - destruct (NT eq_refl) as (T1 & T2 & T3 & T4). specialize (D4 eq_refl). destruct RD as (ts & TS & DE). cbn [app].
    assert (V : value_of true g "time" = Ok (of_list ts)) by (unfold value_of; cbn; now rewrite TS).
    unfold variables, empty_file.
    erewrite fill_h5_step; [|reflexivity|discriminate|run; reflexivity|exact D1|apply put_pair].
    erewrite fill_h5_step; [|reflexivity|discriminate|run; reflexivity|exact D2|apply put_pair].
    erewrite fill_h5_step; [|reflexivity|unfold of_grid; cbn [shape]; rewrite DE; discriminate|run; reflexivity|exact D3|apply put_pair].
    erewrite fill_h5_step; [|exact V|discriminate|run; reflexivity|exact D4|apply put_pair].
    cbn [fill_h5 and_then]. replace (others true _) with ["data"%string] by reflexivity. cbn [fill_values]. unfold name_of. cbn [NcModel.dget String.eqb Ascii.eqb Bool.eqb]. run.
    replace (List.length (shape (of_grid (sdata g))) <? _) with false by (unfold of_grid; cbn [shape]; rewrite DE; reflexivity).
    eexists. split; [reflexivity|]. split; [reflexivity|]. unfold holds, time_list. rewrite TS. run.
    split; [eexists; split; [reflexivity|]; intros q; apply (labels_get_h5 _ _ None)|].
    split; [eexists; split; [reflexivity|]; intros q; apply (labels_get_h5 _ _ None)|].
    split; [eexists; split; [reflexivity|]; intros q; apply (labels_get_h5 _ _ (sfill g))|].
    split; [intros _; eexists; split; [reflexivity|]; intros q; apply (labels_get_h5 _ _ None)|].
    intros n NI. cbn [In] in NI. rewrite !(eqb_ne _ n) by tauto. reflexivity.
  - cbn [app].
    unfold variables, empty_file.
    erewrite fill_h5_step; [|reflexivity|discriminate|run; reflexivity|exact D1|apply put_pair].
    erewrite fill_h5_step; [|reflexivity|discriminate|run; reflexivity|exact D2|apply put_pair].
    erewrite fill_h5_step; [|reflexivity|unfold of_grid; cbn [shape]; destruct (depth (sdata g)); discriminate|run; reflexivity|exact D3|apply put_pair].
    cbn [fill_h5 and_then]. replace (others false _) with ["data"%string] by reflexivity. cbn [fill_values]. unfold name_of. cbn [NcModel.dget String.eqb Ascii.eqb Bool.eqb]. run.
    replace (List.length (shape (of_grid (sdata g))) <? _) with false by (unfold of_grid; cbn [shape]; destruct (depth (sdata g)); reflexivity).
    eexists. split; [reflexivity|]. split; [reflexivity|]. unfold holds. run.
    split; [eexists; split; [reflexivity|]; intros q; apply (labels_get_h5 _ _ None)|].
    split; [eexists; split; [reflexivity|]; intros q; apply (labels_get_h5 _ _ None)|].
    split; [eexists; split; [reflexivity|]; intros q; apply (labels_get_h5 _ _ (sfill g))|].
    split; [discriminate|].
    intros n NI. cbn [In] in NI. rewrite !(eqb_ne _ n) by tauto. reflexivity.
Qed.
End Variables.

(** ** the file *)
(** the object: a grid with its coordinates; with dates, one date or as many as there are fields; without dates the netCDF4 file holds one field *)
Definition times (s : sp) : list R := match stime s with TArr l => l | TScalar t => [t] | TNone => [] end.
Definition writable (k : kind) (date : bool) (s : sp) : Prop :=
  swf s /\ (date = true -> depth (sdata s) = None -> exists t, stime s = TScalar t) /\ (date = false -> k = NetCDF4 -> depth (sdata s) = None).
(** fields of the file: with dates there is a third dimension *)
Definition third (date : bool) (s : sp) : list nat := if date then [List.length (times s)] else match depth (sdata s) with None => [] | Some n => [n] end.
Definition place (date : bool) (s : sp) (i j t : nat) : list nat := i :: j :: if date then [t] else match depth (sdata s) with None => [] | Some _ => [t] end.
(** a cell is missing if it is masked, nan or the fill value; then the fill value is written, provided that there are dates and a fill value *)
Definition missing (s : sp) (i j t : nat) (f : val) : bool := get (smask s) i j t || veqb (get (sdata s) i j t) f || isnan (get (sdata s) i j t).
Definition stored (date : bool) (s : sp) (i j t : nat) : val :=
  match sfill s with Some f => if date && missing s i j t f then f else get (sdata s) i j t | None => get (sdata s) i j t end.
Definition is_field (date : bool) (s : sp) (d : nd val) : Prop :=
  shape d = List.length (slat s) :: List.length (slon s) :: third date s /\
  forall i j t, inb (sdata s) i j t -> cell d (place date s i j t) = stored date s i j t.
Definition is_axis (l : list R) (d : nd val) : Prop := shape d = [List.length l] /\ forall i, i < List.length l -> cell d [i] = Some (nth i l 0%R).
Lemma axis l : is_axis l (of_list l).
Proof. split; [reflexivity|]. intros i H. reflexivity. Qed.

Lemma expand_ok k s : writable k true s -> exists g, sexpand s = Ok g /\ regular k true g /\ slon g = slon s /\ slat g = slat s /\ sfill g = sfill s /\ stime g = TArr (times s) /\
  is_field true s (of_grid (sdata g)) /\ depth (sdata g) = Some (nslice (sdata s)) /\ nslice (sdata s) = List.length (times s).
Proof.
  intros ((SM & SE & RR & RC & SD) & DT & _). specialize (DT eq_refl). unfold sexpand.
  assert (DP : forall A (a : arr A), depth a = depth (sdata s) -> rows a = rows (sdata s) -> cols a = cols (sdata s) -> rows (gexpand a) = rows (sdata s) /\ cols (gexpand a) = cols (sdata s) /\ depth (gexpand a) = Some (nslice (sdata s)) /\
    forall i j t, t < nslice (sdata s) -> get (gexpand a) i j t = get a i j t).
  { intros A a E1 E2 E3. unfold gexpand, nslice. rewrite E1. destruct (depth (sdata s)) eqn:ED; cbn [rows cols depth get]; [now rewrite E1, E2, E3|]. rewrite E2, E3. repeat split. intros i j t L. replace t with 0 by lia. reflexivity. }
  assert (TT : atleast_1d (stime s) = TArr (times s) /\ nslice (sdata s) = List.length (times s)).
  { unfold times, nslice. destruct (depth (sdata s)) as [n|].
    - destruct SD as (ts & ms & E & _ & L & _). rewrite E. split; [reflexivity|]. now symmetry.
    - destruct (DT eq_refl) as (t & E). rewrite E. split; reflexivity. }
  destruct TT as (TT & TL). destruct SM as (SM1 & SM2 & SM3).
  destruct (DP _ (sdata s) eq_refl eq_refl eq_refl) as (D1 & D2 & D3 & D4). destruct (DP _ (smask s) SM3 SM1 SM2) as (M1 & M2 & M3 & M4).
  unfold update_mask. cbn [sfill smask sdata serr slon slat stime smonth]. destruct (sfill s) as [f|] eqn:EF.
  - replace (shape_eqb (gexpand (smask s)) (gexpand (sdata s))) with true by (unfold shape_eqb; rewrite D1, D2, D3, M1, M2, M3, !Nat.eqb_refl; reflexivity). cbn [negb].
    assert (FLD : forall e, let k0 := mkarr (rows (gexpand (sdata s))) (cols (gexpand (sdata s))) (depth (gexpand (sdata s)))
              (fun i j t => get (gexpand (smask s)) i j t || veqb (get (gexpand (sdata s)) i j t) f || isnan (get (gexpand (sdata s)) i j t)) in
       let g := mksp (masked_set k0 f (gexpand (sdata s))) k0 e (slon s) (slat s) (atleast_1d (stime s)) (atleast_1d (smonth s)) (Some f) in
       regular k true g /\ slon g = slon s /\ slat g = slat s /\ sfill g = Some f /\ stime g = TArr (times s) /\ is_field true s (of_grid (sdata g)) /\ depth (sdata g) = Some (nslice (sdata s)) /\ nslice (sdata s) = List.length (times s)).
    { intros e k0 g. subst g. cbn [sdata slon slat sfill stime smonth].
      split; [unfold regular; cbn [sdata slon slat stime masked_set rows cols depth]; rewrite D1, D2, D3; split; [exact RR|]; split; [exact RC|]; exists (times s); split; [exact TT|now rewrite TL]|].
      split; [reflexivity|]. split; [reflexivity|]. split; [reflexivity|]. split; [exact TT|]. split; [|split; [exact D3|exact TL]].
      split; [unfold of_grid; cbn [shape masked_set rows cols depth]; rewrite D3, D1, D2, RR, RC, TL; reflexivity|].
      intros i j t (I1 & I2 & I3). unfold of_grid, place, k0. cbn [cell masked_set rows cols depth get]. unfold stored. rewrite EF. cbn [andb]. unfold missing. rewrite (M4 i j t I3), (D4 i j t I3). reflexivity. }
    destruct (serr s) as [e|] eqn:EE.
    + destruct (SE e eq_refl) as (E1 & E2 & E3). destruct (DP _ e E3 E1 E2) as (F1 & F2 & F3 & F4).
      replace (shape_eqb (gexpand e) (gexpand (sdata s))) with true by (unfold shape_eqb; rewrite D1, D2, D3, F1, F2, F3, !Nat.eqb_refl; reflexivity). cbn [negb].
      eexists. split; [reflexivity|]. apply FLD.
    + eexists. split; [reflexivity|]. apply FLD.
  - eexists. split; [reflexivity|]. cbn [sdata slon slat sfill stime smonth].
    split; [unfold regular; cbn [sdata slon slat stime]; rewrite D1, D2, D3; split; [exact RR|]; split; [exact RC|]; exists (times s); split; [exact TT|now rewrite TL]|].
    split; [reflexivity|]. split; [reflexivity|]. split; [reflexivity|]. split; [exact TT|]. split; [|split; [exact D3|exact TL]].
    split; [unfold of_grid; cbn [shape]; rewrite D3, D1, D2, RR, RC, TL; reflexivity|].
    intros i j t (I1 & I2 & I3). unfold of_grid, place. cbn [cell]. unfold stored. rewrite EF. now apply D4.
Qed.
Lemma no_date k s : writable k false s -> regular k false s /\ is_field false s (of_grid (sdata s)).
Proof.
  intros ((SM & SE & RR & RC & SD) & _ & DK). split; [unfold regular; auto|].
  split; [unfold of_grid, third; cbn [shape]; rewrite RR, RC; now destruct (depth (sdata s))|].
  intros i j t I. unfold place, of_grid. cbn [cell]. unfold stored, inb, nslice in *. destruct (depth (sdata s)); [destruct (sfill s); reflexivity|]. destruct I as (_ & _ & I). replace t with 0 by lia. destruct (sfill s); reflexivity.
Qed.
Lemma opened_free k o fs p : free o fs p -> opened k (w_clobber o) (fs p) = Ok empty_file.
Proof. intros [->|E]; [reflexivity|]. unfold opened. rewrite E. destruct (w_clobber o); [reflexivity|]. destruct k; reflexivity. Qed.
Lemma root_get s o d0 n d : (forall q, dget q d = dget q (titles o d0)) -> dget n (sign_file s d) = root_spec s o d0 n.
Proof.
  intros G. unfold sign_file, root_spec. rewrite !dget_dset, G, !(String.eqb_sym _ n).
  destruct (String.eqb n "date_created"); [reflexivity|]. destruct (String.eqb n "software_version"); [reflexivity|]. destruct (String.eqb n "software_reference"); [reflexivity|]. unfold titles.
  assert (GE : forall q v d', dget n (match given v with Some a => dset q a d' | None => d' end) = if String.eqb n q then or_else (given v) (dget n d') else dget n d').
  { intros q v d'. destruct v as [[|a v]|]; cbn; try (now destruct (String.eqb n q)). rewrite dget_dset, (String.eqb_sym q n). reflexivity. }
  rewrite !GE. destruct (String.eqb n "reference") eqn:E1; [apply String.eqb_eq in E1; subst n; reflexivity|]. destruct (String.eqb n "source") eqn:E2; [apply String.eqb_eq in E2; subst n; reflexivity|]. now destruct (String.eqb n "title").
Qed.

(** The file holds exactly the variables of the names asked for: longitudes, latitudes, the field and, with dates, the dates, each with its long name and units (the
    field only with those that are given), the field with the fill value of the object.  The attributes of the file are those of the object with title, source,
    reference and signature.  With dates the object itself becomes a series (of one field if it was a single one), its missing cells hold the fill value. *)
Theorem C122_written : forall k s o x a p fs, plain o -> good_names o -> free o fs p -> x_attrs x = Some a -> storable (root a) -> writable k (w_date o) (x_sp x) ->
  exists f g, write_file k s o x p fs = (put fs p f, g, Ok tt) /\
    (exists d, is_axis (slon (x_sp x)) d /\ holds f (w_lon o) d (Some "longitude"%string) (Some "degrees_east"%string) None) /\
    (exists d, is_axis (slat (x_sp x)) d /\ holds f (w_lat o) d (Some "latitude"%string) (Some "degrees_north"%string) None) /\
    (exists d, is_field (w_date o) (x_sp x) d /\ holds f (w_var o) d (w_longname o) (w_units o) (sfill (x_sp x))) /\
    (w_date o = true -> exists d, is_axis (times (x_sp x)) d /\ holds f (w_time o) d (Some (w_time_longname o)) (Some (w_time_units o)) None) /\
    (forall n, ~ In n (names o) -> dget n (g_vars f) = None) /\
    (forall n, dget n (g_root f) = root_spec s o (root a) n) /\
    (if w_date o then sexpand (x_sp x) = Ok (x_sp g) /\ depth (sdata (x_sp g)) <> None else x_sp g = x_sp x).
Proof.
  intros k s o x a p fs P N FR XA ST W. unfold write_file. rewrite XA, (opened_free _ _ _ _ FR), (attributes_ok o a P N). cbn [bind]. rewrite titled_ok.
  set (A := (("ROOT"%string, titles o (root a)) :: described o)).
  assert (DA : forall n, In n (names o) -> dget n A = dget n (described o)).
  { intros n I. destruct (good_apart o N) as ((R & _) & _). unfold A. cbn [NcModel.dget]. rewrite eqb_ne; [reflexivity|]. intros E. apply (R n I). now symmetry. }
  assert (NM : exists l, mapM (name_of (mapping o)) (dimensions (w_date o)) = Ok l).
  { rewrite (mapping_plain o P). destruct (w_date o); eexists; reflexivity. }
  destruct NM as (nl & NM).
  assert (K : forall g, regular k (w_date o) g -> is_field (w_date o) (x_sp x) (of_grid (sdata g)) -> slon g = slon (x_sp x) -> slat g = slat (x_sp x) -> sfill g = sfill (x_sp x) -> (w_date o = true -> stime g = TArr (times (x_sp x))) ->
    exists f, variables k (w_date o) g A (mapping o) empty_file = (f, Ok tt) /\ g_root f = [] /\
    (exists d, is_axis (slon (x_sp x)) d /\ holds f (w_lon o) d (Some "longitude"%string) (Some "degrees_east"%string) None) /\
    (exists d, is_axis (slat (x_sp x)) d /\ holds f (w_lat o) d (Some "latitude"%string) (Some "degrees_north"%string) None) /\
    (exists d, is_field (w_date o) (x_sp x) d /\ holds f (w_var o) d (w_longname o) (w_units o) (sfill (x_sp x))) /\
    (w_date o = true -> exists d, is_axis (times (x_sp x)) d /\ holds f (w_time o) d (Some (w_time_longname o)) (Some (w_time_units o)) None) /\
    (forall n, ~ In n (names o) -> dget n (g_vars f) = None)).
  { intros g RG IF E1 E2 E3 E4. assert (H : exists f, variables k (w_date o) g A (mapping o) empty_file = (f, Ok tt) /\ g_root f = [] /\ all_held o g f) by (destruct k; [now apply nc_ok|now apply h5_ok]).
    destruct H as (f & VF & RF & H1 & H2 & H3 & H4 & H5). exists f. split; [exact VF|]. split; [exact RF|]. rewrite E1 in H1. rewrite E2 in H2. rewrite E3 in H3.
    split; [eexists; split; [apply axis|exact H1]|]. split; [eexists; split; [apply axis|exact H2]|]. split; [eexists; split; [exact IF|exact H3]|].
    split; [|exact H5]. intros D. eexists; split; [|exact (H4 D)]. unfold time_list. rewrite (E4 D). apply axis. }
  assert (R : exists d, put_attrs (titles o (root a)) [] = (d, Ok tt) /\ forall n, dget n (sign_file s d) = root_spec s o (root a) n).
  { destruct (put_attrs_ok (titles o (root a)) [] (titles_storable o _ ST)) as (d & E & S & G). exists d. split; [exact E|]. intros n. apply root_get. intros q. rewrite G. cbn. now destruct (dget q (titles o (root a))). }
  destruct R as (d & ER & RS). assert (ROOT : dget "ROOT" A = Some (titles o (root a))) by reflexivity.
  destruct (w_date o) eqn:D.
  - destruct (expand_ok k _ W) as (g & EG & RG & E1 & E2 & E3 & E4 & IF & DG & _). rewrite EG, NM. destruct (K g RG IF E1 E2 E3 (fun _ => E4)) as (f & VF & RF & H1 & H2 & H3 & H4 & H5). cbv zeta. rewrite VF, ROOT, RF, ER. eexists. eexists. split; [reflexivity|].
    split; [exact H1|]. split; [exact H2|]. split; [exact H3|]. split; [exact H4|]. split; [exact H5|]. split; [exact RS|]. cbn [x_sp]. rewrite DG. split; [reflexivity|discriminate].
  - destruct (no_date k _ W) as (RG & IF). rewrite NM. destruct (K (x_sp x) RG IF eq_refl eq_refl eq_refl) as (f & VF & RF & H1 & H2 & H3 & H4 & H5); [discriminate|]. cbv zeta. rewrite VF, ROOT, RF, ER. eexists. eexists. split; [reflexivity|].
    split; [exact H1|]. split; [exact H2|]. split; [exact H3|]. split; [exact H4|]. split; [exact H5|]. split; [exact RS|]. reflexivity.
Qed.
