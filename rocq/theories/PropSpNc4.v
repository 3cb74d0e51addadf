(** C122, continued: attributes and error fields given by the user, months, reading that fails, an example. *)
From Coq Require Import Reals Lra String Bool.
From Verif Require Import Base TimeModel Arr HarmModel AdjustProofs.
From Verif Require PropNc.
From Verif Require Import SpatialModel SpNcModel PropSpNc PropSpNc2 PropSpNc3.
Close Scope Z_scope.
Close Scope R_scope.
Open Scope nat_scope.
Open Scope list_scope.

(** ** attributes given by the user *)
(** if they leave out one of the variables, all of them get the default attributes, also those that were described *)
Lemma attributes_partial o a A n : w_mapping o = [] -> w_attrs o = Some A -> good_names o -> In n (names o) -> dget n A = None ->
  exists A', attributes o a = Ok A' /\ (forall q, In q (names o) -> dget q A' = dget q (described o)) /\ forall q, ~ In q (names o) -> dget q A' = dget q A.
Proof.
  intros M WA N I NA. destruct (good_apart o N) as ((_ & N1 & N2 & N3 & NT) & R1 & R2 & R3). unfold attributes. rewrite WA.
  assert (MP : mapping o = [("lon"%string, w_lon o); ("lat"%string, w_lat o); ("data"%string, w_var o)] ++ if w_date o then [("time"%string, w_time o)] else []) by (unfold mapping; rewrite M; destruct (w_date o); reflexivity).
  replace (forallb _ (mapping o)) with false.
  2:{ symmetry. apply not_true_iff_false. intros F. rewrite forallb_forall in F. assert (X : exists e, In e (mapping o) /\ snd e = n).
      { rewrite MP. unfold names in I. apply in_app_or in I as [I|I]; [cbn [In] in I; destruct I as [<-|[<-|[<-|[]]]]; [exists ("lon"%string, w_lon o)|exists ("lat"%string, w_lat o)|exists ("data"%string, w_var o)]; (split; [apply in_or_app; left; cbn [In]; tauto|reflexivity])|].
        destruct (w_date o); [|destruct I]. destruct I as [<-|[]]. eexists. split; [apply in_or_app; right; left; reflexivity|reflexivity]. }
      destruct X as (e & IE & <-). specialize (F e IE). rewrite NA in F. discriminate. }
  unfold describe. rewrite MP. unfold names, described in *. destruct (w_date o); cbn [app NcModel.dget String.eqb Ascii.eqb Bool.eqb bind].
  - destruct (NT eq_refl) as (T1 & T2 & T3 & T4). eexists. split; [reflexivity|]. split.
    + intros q IQ. rewrite !dget_dset. cbn [NcModel.dget In] in *. unfold pair_.
      destruct IQ as [<-|[<-|[<-|[<-|[]]]]]; rewrite ?String.eqb_refl; repeat match goal with |- context [String.eqb ?u ?v] => rewrite (eqb_ne u v) by congruence end; reflexivity.
    + intros q NI. cbn [In] in NI. rewrite !dget_dset, !(eqb_ne _ q) by tauto. reflexivity.
  - eexists. split; [reflexivity|]. split.
    + intros q IQ. rewrite !dget_dset. cbn [NcModel.dget In] in *. unfold pair_.
      destruct IQ as [<-|[<-|[<-|[]]]]; rewrite ?String.eqb_refl; repeat match goal with |- context [String.eqb ?u ?v] => rewrite (eqb_ne u v) by congruence end; reflexivity.
    + intros q NI. cbn [In] in NI. rewrite !dget_dset, !(eqb_ne _ q) by tauto. reflexivity.
Qed.
Lemma entry_get n v A d : dget "ROOT" A = Some d -> exists A', entry n v A = Ok A' /\ dget "ROOT" A' = Some (match given v with Some a => dset n a d | None => d end) /\ forall q, q <> "ROOT"%string -> dget q A' = dget q A.
Proof.
  intros R. unfold entry. destruct v as [[|c v]|]; cbn [given]; try (exists A; split; [reflexivity|split; [exact R|reflexivity]]). rewrite R. eexists. split; [reflexivity|]. rewrite dget_dset. split; [reflexivity|].
  intros q NQ. rewrite dget_dset, (eqb_ne _ q) by congruence. reflexivity.
Qed.
Lemma titled_get o A d : dget "ROOT" A = Some d -> exists A', titled o A = Ok A' /\ dget "ROOT" A' = Some (titles o d) /\ forall q, q <> "ROOT"%string -> dget q A' = dget q A.
Proof.
  intros R. unfold titled. destruct (entry_get "title" (w_title o) A d R) as (A1 & E1 & R1 & Q1). rewrite E1. cbn [bind]. destruct (entry_get "source" (w_source o) A1 _ R1) as (A2 & E2 & R2 & Q2). rewrite E2. cbn [bind].
  destruct (entry_get "reference" (w_reference o) A2 _ R2) as (A3 & E3 & R3 & Q3). exists A3. split; [exact E3|]. split; [exact R3|]. intros q NQ. rewrite Q3, Q2, Q1 by exact NQ. reflexivity.
Qed.
Theorem C122_partial_attributes : forall k s o x a p fs A d n, w_mapping o = [] -> w_attrs o = Some A -> good_names o -> In n (names o) -> dget n A = None -> dget "ROOT" A = Some d -> storable d -> free o fs p -> x_attrs x = Some a -> writable k (w_date o) (x_sp x) ->
  exists f g, write_file k s o x p fs = (put fs p f, g, Ok tt) /\
    (exists v, holds f (w_lon o) v (Some "longitude"%string) (Some "degrees_east"%string) None) /\ (exists v, holds f (w_lat o) v (Some "latitude"%string) (Some "degrees_north"%string) None) /\
    (exists v, is_field (w_date o) (x_sp x) v /\ holds f (w_var o) v (w_longname o) (w_units o) (sfill (x_sp x))) /\
    (w_date o = true -> exists v, holds f (w_time o) v (Some (w_time_longname o)) (Some (w_time_units o)) None) /\
    (forall q, dget q (g_root f) = root_spec s o d q) /\ x_attrs g = Some a.
Proof.
  intros k s o x a p fs A d n M WA N I NA RT ST FR XA W. unfold write_file. rewrite XA, (opened_free _ _ _ _ FR).
  destruct (attributes_partial o a A n M WA N I NA) as (A1 & E1 & I1 & O1). rewrite E1. cbn [bind]. destruct (good_apart o N) as ((R & _) & _).
  assert (NR : ~ In "ROOT"%string (names o)) by (intros X; now apply (R _ X)).
  destruct (titled_get o A1 d) as (A2 & E2 & R2 & Q2); [now rewrite O1|]. rewrite E2. cbv zeta.
  assert (KP : keep o a A2 = a) by (unfold keep; now rewrite WA). rewrite KP.
  assert (DA : forall q, In q (names o) -> dget q A2 = dget q (described o)) by (intros q IQ; rewrite (Q2 q (R q IQ)); now apply I1).
  assert (NM : exists l, mapM (name_of (mapping o)) (dimensions (w_date o)) = Ok l) by (unfold mapping; rewrite M; destruct (w_date o); eexists; reflexivity). destruct NM as (nl & NM).
  set (o' := mkopts (w_var o) (w_lon o) (w_lat o) (w_time o) [] None (w_units o) (w_longname o) (w_time_units o) (w_time_longname o) (w_title o) (w_source o) (w_reference o) (w_date o) (w_clobber o)).
  assert (P' : plain o') by (split; reflexivity). assert (MO : mapping o = mapping o') by (unfold mapping; rewrite M; reflexivity).
  assert (K : forall g, regular k (w_date o) g -> exists f, variables k (w_date o) g A2 (mapping o) empty_file = (f, Ok tt) /\ g_root f = [] /\ all_held o' g f).
  { intros g RG. rewrite MO. destruct k; [exact (nc_ok o' g A2 P' N DA RG)|exact (h5_ok o' g A2 P' N DA RG)]. }
  destruct (put_attrs_ok (titles o d) [] (titles_storable o _ ST)) as (dd & ER & _ & G).
  assert (RS : forall q, dget q (sign_file s dd) = root_spec s o d q) by (intros q; apply root_get; intros q'; rewrite G; cbn; now destruct (dget q' (titles o d))).
  destruct (w_date o) eqn:D.
  - destruct (expand_ok k _ W) as (g & EG & RG & F1 & F2 & F3 & F4 & IF & DG & _). rewrite EG, NM. destruct (K g RG) as (f & VF & RF & H1 & H2 & H3 & H4 & _). rewrite VF, R2, RF, ER. eexists. eexists. split; [reflexivity|]. rewrite F3 in H3.
    split; [eexists; exact H1|]. split; [eexists; exact H2|]. split; [eexists; split; [exact IF|exact H3]|]. split; [intros _; eexists; exact (H4 eq_refl)|]. split; [exact RS|reflexivity].
  - destruct (no_date k _ W) as (RG & IF). rewrite NM. destruct (K (x_sp x) RG) as (f & VF & RF & H1 & H2 & H3 & H4 & _). rewrite VF, R2, RF, ER. eexists. eexists. split; [reflexivity|].
    split; [eexists; exact H1|]. split; [eexists; exact H2|]. split; [eexists; split; [exact IF|exact H3]|]. split; [discriminate|]. split; [exact RS|reflexivity].
Qed.
(** title, source and reference stay in the attributes of the object, if it had attributes of the file before *)
Theorem C122_title_kept : forall k s o x a p fs, plain o -> good_names o -> free o fs p -> x_attrs x = Some a -> storable (root a) -> writable k (w_date o) (x_sp x) ->
  let '(_, g, _) := write_file k s o x p fs in
  exists a', x_attrs g = Some a' /\ if root_of a then dget "ROOT" a' = Some (Sub (titles o (root a))) else a' = a.
Proof.
  intros k s o x a p fs P N FR XA ST W. destruct (C122_written k s o x a p fs P N FR XA ST W) as (f & g & E & _). pose proof E as E'. rewrite E'.
  unfold write_file in E. rewrite XA, (opened_free _ _ _ _ FR), (attributes_ok o a P N) in E. cbn [bind] in E. rewrite titled_ok in E. cbv zeta in E.
  assert (NM : exists l, mapM (name_of (mapping o)) (dimensions (w_date o)) = Ok l) by (rewrite (mapping_plain o P); destruct (w_date o); eexists; reflexivity). destruct NM as (nl & NM).
  assert (KX : x_attrs g = Some (keep o a (("ROOT"%string, titles o (root a)) :: described o))).
  { destruct (if w_date o then sexpand (x_sp x) else Ok (x_sp x)) as [y|]; [|injection E as _ <-; reflexivity]. rewrite NM in E.
    destruct (variables _ _ _ _ _ _) as (f2 & [u|e]); [|injection E as _ <-; reflexivity]. cbn [NcModel.dget String.eqb Ascii.eqb Bool.eqb] in E. destruct (put_attrs _ _) as (d & [u'|e]); injection E as _ <-; reflexivity. }
  exists (keep o a (("ROOT"%string, titles o (root a)) :: described o)). split; [exact KX|]. unfold keep. destruct P as (_ & PA). rewrite PA. destruct (root_of a); [|reflexivity]. cbn [NcModel.dget String.eqb Ascii.eqb Bool.eqb]. rewrite dget_dset. reflexivity.
Qed.

(** ** months *)
(** the months are those of the dates, counted from January 2002 (month 1), if no two dates share one; the months of the object are not written *)
Theorem C122_months : forall k s o r x a p fs, plain o -> good_names o -> free o fs p -> x_attrs x = Some a -> storable (root a) -> writable k (w_date o) (x_sp x) -> same_names o r -> w_date o = true ->
  layout (List.length (slat (x_sp x))) (List.length (slon (x_sp x))) (nslice (sdata (x_sp x))) <> None ->
  let ms := map grace_month (times (x_sp x)) in NoDup ms ->
  let '(fs', _, _) := write_file k s o x p fs in exists y, read_file r p fs' = Ok y /\ q_month y = tsqueeze (TArr ms) /\
  Forall2 (fun t m => (IZR (m - 1) <= 12 * (t - 2002) < IZR m)%R) (times (x_sp x)) ms.
Proof.
  intros k s o r x a p fs P N FR XA ST W SN D LY ms ND. pose proof (C122_roundtrip k s o r x a p fs P N FR XA ST W SN) as RT. destruct (write_file k s o x p fs) as ((fs' & g) & u).
  destruct (layout _ _ _) as [(sh & pl)|]; [|congruence]. destruct RT as (y & RY & (_ & _ & _ & _ & _ & _ & _ & _ & QM & _)). exists y. split; [exact RY|]. rewrite D in QM. rewrite QM. fold ms. rewrite adjust_nodup by exact ND. split; [reflexivity|].
  unfold ms. generalize (times (x_sp x)). intros l. induction l as [|t l IH]; [constructor|]. constructor; [|exact IH]. unfold grace_month, Rfloor. replace (Int_part (12 * (t - 2002)) + 1 - 1)%Z with (Int_part (12 * (t - 2002))) by lia.
  destruct (base_Int_part (12 * (t - 2002))) as (B1 & B2). rewrite plus_IZR. lra.
Qed.

(** ** reading that fails *)
Theorem C122_no_file : forall r p fs, fs p = None -> read_file r p fs = Err FileNotFound.
Proof. intros r p fs H. unfold read_file. now rewrite H. Qed.
(** a file without one of the variables (all variables of the file have been written) *)
Theorem C122_no_variable : forall r p fs f n, fs p = Some f -> Forall (fun e => v_data (snd e) <> None) (g_vars f) -> In n (map snd (rmapping r)) -> dget n (g_vars f) = None -> read_file r p fs = Err KeyError.
Proof.
  intros r p fs f n F WR I NV. unfold read_file. rewrite F. enough (X : read_vars f (rmapping r) = Err KeyError) by (rewrite X; reflexivity).
  induction (rmapping r) as [|(field & key) m IH]; [destruct I|]. cbn [read_vars]. destruct (dget key (g_vars f)) as [[[v|] al]|] eqn:DK; [| |reflexivity].
  - destruct I as [E|I]; [cbn [snd] in E; congruence|]. rewrite (IH I). reflexivity.
  - exfalso. clear - DK WR. induction WR as [|(k0 & w) l H F IH]; [discriminate|]. cbn [NcModel.dget] in DK. destruct (String.eqb k0 key); [injection DK as ->; now apply H|auto].
Qed.
(** another format is no error: nothing is written, None is read *)
Theorem C122_formats : forall s format o r x p fs, ~ In format ["netCDF4"; "HDF5"]%string -> to_file s format o x p fs = (fs, x, Ok tt) /\ from_file format r p fs = Ok None.
Proof. intros s format o r x p fs H. cbn [In] in H. unfold to_file, from_file, kind_of. rewrite !(String.eqb_sym format), !eqb_ne by tauto. split; reflexivity. Qed.
