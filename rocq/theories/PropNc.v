(** C117: netCDF4 and HDF5 files of spherical harmonics. *)
From Coq Require Import Reals Lra String Bool.
From Verif Require Import Base TimeModel Arr HarmModel AdjustProofs HarmProofs HarmProofs2 HarmProofs3 NcModel.
Close Scope Z_scope.
Close Scope R_scope.
Open Scope nat_scope.
Open Scope list_scope.

(** ** specification *)
(** the object has dates: one month, or a series of several different months *)
Definition dated (h : harm) (ts : list R) (ms : list Z) : Prop :=
  wf h /\ mmax h <= lmax h /\ NoDup ms /\
  match depth (clm h) with
  | None => exists t mo, time h = TScalar t /\ month h = TScalar mo /\ ts = [t] /\ ms = [mo]
  | Some n => n <> 1 /\ time h = TArr ts /\ month h = TArr ms
  end.
(** the same field: degrees, dates, coefficients with order up to the degree (above it there are no coefficients) *)
Definition same_field (h r : harm) : Prop :=
  lmax r = lmax h /\ mmax r = mmax h /\ time r = time h /\ month r = month h /\ triangle_part (clm h) (clm r) /\ triangle_part (slm h) (slm r).
(** arguments without a mapping of names, without attributes, with texts that are not empty *)
Definition plain (o : opts) : Prop :=
  w_mapping o = [] /\ w_attrs o = None /\ Forall (fun s => s <> ""%string) [w_units o; w_time_units o; w_time_longname o; w_months_units o; w_months_longname o].
(** attributes of the file that can be stored: a dictionary without dictionaries in it *)
Definition storable (d : dict aval) : Prop := NoDup (map fst d) /\ Forall (fun e => bad (snd e) = false) d.
Definition root (x : obj) : dict aval := match dget "ROOT" (o_attrs x) with Some (ADict d) => d | _ => [] end.
(** may be written: a new file, or an existing one that is to be replaced *)
Definition free (o : opts) (fs : files) (p : string) : Prop := w_clobber o = true \/ fs p = None.
(** the attribute n of the file after writing, if the object had the attributes d *)
Definition given (v : option string) : option aval := match v with Some EmptyString | None => None | Some s => Some (AText s) end.
Definition or_else {A} (a b : option A) : option A := match a with Some _ => a | None => b end.
Definition root_spec (s : software) (o : opts) (d : dict aval) (n : string) : option aval :=
  if String.eqb n "date_created" then Some (AText (s_today s))
  else if String.eqb n "software_version" then Some (AText (s_version s))
  else if String.eqb n "software_reference" then Some (AText (s_name s))
  else if String.eqb n "title" then or_else (given (w_title o)) (dget n d)
  else if String.eqb n "source" then or_else (given (w_source o)) (dget n d)
  else if String.eqb n "reference" then or_else (given (w_reference o)) (dget n d)
  else dget n d.

(** ** dictionaries *)
Lemma dget_dset {A} k (v : A) n d : dget n (dset k v d) = if String.eqb k n then Some v else dget n d.
Proof.
  induction d as [|[k' w] d IH]; cbn; [reflexivity|]. destruct (String.eqb_spec k' k) as [->|NE]; cbn [dget].
  - now destruct (String.eqb k n).
  - rewrite IH. destruct (String.eqb_spec k n) as [->|]; [|reflexivity]. destruct (String.eqb_spec k' n); [congruence|reflexivity].
Qed.
Lemma dset_keys {A} k (v : A) d n : In n (map fst (dset k v d)) <-> n = k \/ In n (map fst d).
Proof.
  induction d as [|[k' w] d IH]; cbn; [intuition auto|]. destruct (String.eqb_spec k' k) as [->|NE]; cbn [map In fst]; [intuition congruence|]. rewrite IH. intuition.
Qed.
Lemma dset_nodup {A} k (v : A) d : NoDup (map fst d) -> NoDup (map fst (dset k v d)).
Proof.
  induction d as [|[k' w] d IH]; cbn; [constructor; [intros []|constructor]|]. intros H. inversion H as [|? ? NI ND]; subst.
  destruct (String.eqb_spec k' k) as [->|NE]; cbn [map fst]; [now constructor|]. constructor; [|now apply IH]. rewrite dset_keys. intuition congruence.
Qed.
Lemma dset_forall {A} (P : string * A -> Prop) k v d : Forall P d -> (forall k', P (k', v)) -> Forall P (dset k v d).
Proof. induction 1 as [|[k' w] d H F IH]; intros V; cbn; [repeat constructor; apply V|]. destruct (String.eqb k' k); constructor; auto. Qed.
Lemma dget_none {A} n (d : dict A) : dget n d = None <-> ~ In n (map fst d).
Proof. induction d as [|[k w] d IH]; cbn; [tauto|]. destruct (String.eqb_spec k n); [split; [discriminate|tauto]|]. rewrite IH. intuition. Qed.
Lemma put_attrs_ok l : forall d, storable l -> exists d', put_attrs l d = (d', Ok tt) /\ (storable d -> storable d') /\ forall n, dget n d' = or_else (dget n l) (dget n d).
Proof.
  induction l as [|[k v] l IH]; intros d (ND & F); cbn [put_attrs]; [exists d; split; [reflexivity|]; split; [trivial|reflexivity]|]. inversion ND as [|? ? NI ND']; inversion F as [|? ? B F']; subst. cbn [snd] in B. rewrite B.
  destruct (IH (dset k v d)) as (d' & E & S & G); [now split|]. exists d'. split; [exact E|].
  split; [intros (SN & SB); apply S; split; [now apply dset_nodup|apply dset_forall; [exact SB|intros; exact B]]|]. intros n. rewrite G, dget_dset. cbn [dget].
  destruct (String.eqb_spec k n) as [->|NE]; [|reflexivity]. rewrite (proj2 (dget_none n l)) by exact NI. reflexivity.
Qed.

Definition titles (o : opts) (d : dict aval) : dict aval :=
  let e n v d := match given v with Some a => dset n a d | None => d end in
  e "reference"%string (w_reference o) (e "source"%string (w_source o) (e "title"%string (w_title o) d)).
Lemma entry_ok n v d rest : entry n v (("ROOT"%string, d) :: rest) = Ok (("ROOT"%string, match given v with Some a => dset n a d | None => d end) :: rest).
Proof. destruct v as [[|a v]|]; reflexivity. Qed.
Lemma titled_ok o d rest : titled o (("ROOT"%string, d) :: rest) = Ok (("ROOT"%string, titles o d) :: rest).
Proof. unfold titled. rewrite entry_ok. cbn [bind]. rewrite entry_ok. cbn [bind]. now rewrite entry_ok. Qed.
Lemma titles_storable o d : storable d -> storable (titles o d).
Proof.
  assert (E : forall n v d, storable d -> storable (match given v with Some a => dset n a d | None => d end)).
  { intros n v d' (A & B). destruct v as [[|a v]|]; cbn; try now split. split; [now apply dset_nodup|]. apply dset_forall; [exact B|reflexivity]. }
  intros H. unfold titles. now repeat apply E.
Qed.
Lemma root_of_root x : match root_of x with Some d => d | None => [] end = root x.
Proof. unfold root_of, root. destruct (dget "ROOT" (o_attrs x)) as [[| | |[|e d]]|]; reflexivity. Qed.

(** names of the variables *)
Definition month_name (n : string) : Prop := ~ In n ["ROOT"; "l"; "m"; "clm"; "slm"; "time"]%string.
Definition label (long units : string) : dict aval := [("long_name", AText long); ("units", AText units)]%string.
Definition described (o : opts) : dict (dict aval) :=
  [("l", label "spherical_harmonic_degree" "Wavenumber"); ("m", label "spherical_harmonic_order" "Wavenumber");
   ("clm", label "cosine_spherical_harmonics" (w_units o)); ("slm", label "sine_spherical_harmonics" (w_units o))]%string ++
  (if w_date o then [("time"%string, label (w_time_longname o) (w_time_units o)); (w_months_name o, label (w_months_longname o) (w_months_units o))] else []).
Lemma eqb_ne a b : a <> b -> String.eqb a b = false.
Proof. intros. now destruct (String.eqb_spec a b). Qed.
Ltac names H := unfold month_name in H; cbn [In] in H; repeat (rewrite (eqb_ne _ (w_months_name _)) by tauto).
Lemma dset_new {A} k (v : A) d : dget k d = None -> dset k v d = d ++ [(k, v)].
Proof. induction d as [|[k' w] d IH]; cbn; [reflexivity|]. destruct (String.eqb k' k); [discriminate|]. intros H. now rewrite IH. Qed.
Lemma describe_ok m f key a b A : dget f m = Some key -> dget key A = None -> describe m f a b A = Ok (A ++ [(key, label a b)]).
Proof. intros H N. unfold describe. now rewrite H, dset_new. Qed.
Lemma attributes_ok o x : plain o -> month_name (w_months_name o) -> attributes o x = Ok (("ROOT"%string, root x) :: described o).
Proof.
  intros (M & A & _) N. unfold attributes, mapping. rewrite M, A, root_of_root. unfold described. destruct (w_date o).
  - set (mm := app _ _). replace (forallb _ mm) with false by reflexivity.
    do 5 (erewrite describe_ok; [|reflexivity|reflexivity]; cbn [bind app]). erewrite describe_ok; [reflexivity|reflexivity|].
    unfold month_name in N. cbn [In] in N. cbn [dget app]. repeat (rewrite (eqb_ne _ (w_months_name o)) by tauto). reflexivity.
  - set (mm := app _ _). replace (forallb _ mm) with false by reflexivity.
    do 4 (erewrite describe_ok; [|reflexivity|reflexivity]; cbn [bind app]). reflexivity.
Qed.
Lemma kept_label a b : a <> ""%string -> b <> ""%string -> put_attrs (filter kept (label a b)) [] = (label a b, Ok tt).
Proof. intros A B. destruct a; [congruence|]. destruct b; [congruence|]. reflexivity. Qed.

(** the file that is written *)
Definition dims (k : kind) (date : bool) : list string := match k with HDF5 => [] | NetCDF4 => app ["lm"]%string (if date then ["time"]%string else []) end.
Definition vars_of (o : opts) (t : flat) (tm : list R) (mo : list Z) : dict var :=
  [("l", mkvar (VIdx (f_l t)) (label "spherical_harmonic_degree" "Wavenumber")); ("m", mkvar (VIdx (f_m t)) (label "spherical_harmonic_order" "Wavenumber"));
   ("clm", mkvar (VCoef (f_depth t) (f_clm t)) (label "cosine_spherical_harmonics" (w_units o)));
   ("slm", mkvar (VCoef (f_depth t) (f_slm t)) (label "sine_spherical_harmonics" (w_units o)))]%string ++
  (if w_date o then [("time"%string, mkvar (VTime tm) (label (w_time_longname o) (w_time_units o))); (w_months_name o, mkvar (VMonth mo) (label (w_months_longname o) (w_months_units o)))] else []).
Lemma opened_free k o fs p : free o fs p -> opened k (w_clobber o) (fs p) = Ok empty_file.
Proof. unfold opened. intros [->| ->]; [reflexivity|]. destruct (w_clobber o), k; reflexivity. Qed.
Lemma make_dims_ok k date : make_dims k date empty_file = (mknfile (dims k date) [] [], Ok tt).
Proof. destruct k, date; reflexivity. Qed.
Lemma fill_step k date t (A : dict (dict aval)) field key rest f v (a : dict aval) : data_of k date t field = Ok v -> dget key (n_vars f) = None -> dget key A = Some a -> put_attrs (filter kept a) [] = (a, Ok tt) ->
  fill k date t A ((field, key) :: rest) f = fill k date t A rest (mknfile (n_dims f) (n_vars f ++ [(key, mkvar v a)]) (n_root f)).
Proof. intros D N G P. cbn [fill]. now rewrite D, N, G, P. Qed.
Lemma fill_ok k o t tm mo d : plain o -> month_name (w_months_name o) ->
  (if w_date o then f_time t = TArr tm /\ f_month t = TArr mo else k = HDF5 \/ f_depth t = None) ->
  fill k (w_date o) t (("ROOT"%string, d) :: described o) (mapping o) (mknfile (dims k (w_date o)) [] []) = (mknfile (dims k (w_date o)) (vars_of o t tm mo) [], Ok tt).
Proof.
  intros (M & _ & F) N H. unfold mapping. rewrite M. rewrite !Forall_cons_iff in F. destruct F as (U & TU & TL & MU & ML & _).
  assert (N' := N). unfold month_name in N'. cbn [In] in N'.
  unfold described, vars_of. destruct (w_date o) eqn:D.
  - destruct H as (HT & HM). cbn [app].
    do 4 (erewrite fill_step; [cbn [n_dims n_vars n_root app]|cbn; destruct k; reflexivity|cbn; reflexivity|cbn; reflexivity|apply kept_label; congruence]).
    erewrite fill_step; [cbn [n_dims n_vars n_root app]|cbn; rewrite HT; destruct k; reflexivity|cbn; reflexivity|cbn; reflexivity|now apply kept_label].
    erewrite fill_step; [cbn [n_dims n_vars n_root app]|cbn; rewrite HM; destruct k; reflexivity| | |apply kept_label; [exact ML|exact MU]].
    + reflexivity.
    + cbn [dget n_vars]. repeat (rewrite eqb_ne by tauto). reflexivity.
    + cbn [dget]. repeat (rewrite (eqb_ne _ (w_months_name o)) by tauto). now rewrite String.eqb_refl.
  - cbn [app].
    do 4 (erewrite fill_step; [cbn [n_dims n_vars n_root app]|cbn; destruct k; try reflexivity; (destruct H as [H|H]; [discriminate H|rewrite H; reflexivity])|cbn; reflexivity|cbn; reflexivity|apply kept_label; congruence]).
    reflexivity.
Qed.
Lemma write_main k s o x p fs t tm mo : plain o -> month_name (w_months_name o) -> free o fs p -> storable (root x) ->
  (if w_date o then to_nc (o_h x) else flatten false (o_h x)) = Ok t ->
  (if w_date o then f_time t = TArr tm /\ f_month t = TArr mo else k = HDF5 \/ f_depth t = None) ->
  exists d, write_file k s o x p fs = (put fs p (mknfile (dims k (w_date o)) (vars_of o t tm mo) d), keep o x (("ROOT"%string, titles o (root x)) :: described o), Ok tt) /\
    storable d /\ forall n, dget n d = root_spec s o (root x) n.
Proof.
  intros P N FR ST T H. unfold write_file. rewrite (opened_free _ _ _ _ FR), T, (attributes_ok o x P N). cbn [bind]. rewrite titled_ok. cbn iota. rewrite make_dims_ok. cbn iota.
  rewrite (fill_ok k o t tm mo (titles o (root x)) P N H). cbn iota. cbn [dget String.eqb Ascii.eqb Bool.eqb]. cbn [n_root n_dims n_vars].
  destruct (put_attrs_ok (titles o (root x)) [] (titles_storable o _ ST)) as (d & E & S & G). rewrite E. exists (sign_file s d). split; [reflexivity|].
  split; [destruct S as (S1 & S2); [split; constructor|]; unfold sign_file; split; [now repeat apply dset_nodup|repeat (apply dset_forall; [|reflexivity]); exact S2]|]. intros n. unfold sign_file, root_spec. rewrite !dget_dset, G. cbn [dget]. rewrite !(String.eqb_sym _ n).
  destruct (String.eqb n "date_created"); [reflexivity|]. destruct (String.eqb n "software_version"); [reflexivity|]. destruct (String.eqb n "software_reference"); [reflexivity|].
  assert (OE : forall o' : option aval, or_else o' None = o') by now intros []. rewrite OE. unfold titles.
  assert (GE : forall q v d', dget n (match given v with Some a => dset q a d' | None => d' end) = if String.eqb n q then or_else (given v) (dget n d') else dget n d').
  { intros q v d'. destruct v as [[|a v]|]; cbn; try (now destruct (String.eqb n q)). rewrite dget_dset, (String.eqb_sym q n). reflexivity. }
  rewrite !GE. destruct (String.eqb_spec n "reference") as [->|]; [reflexivity|]. destruct (String.eqb_spec n "source") as [->|]; [reflexivity|]. now destruct (String.eqb n "title").
Qed.
