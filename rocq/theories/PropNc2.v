(** C117: what is written is read again; attributes; failures. *)
From Coq Require Import Reals Lra String Bool.
From Verif Require Import Base TimeModel Arr HarmModel AdjustProofs HarmProofs HarmProofs2 HarmProofs3 NcModel PropNc.
Close Scope Z_scope.
Close Scope R_scope.
Open Scope nat_scope.
Open Scope list_scope.

Lemma put_same fs p f : put fs p f p = Some f.
Proof. unfold put. now rewrite String.eqb_refl. Qed.
Lemma put_other fs p f q : q <> p -> put fs p f q = fs q.
Proof. intros H. unfold put. now rewrite (eqb_ne q p H). Qed.
Lemma dated_nc h ts ms : dated h ts ms -> exists t r, to_nc h = Ok t /\ f_time t = TArr ts /\ f_month t = TArr ms /\ from_nc t = Ok r /\ same_field h r.
Proof.
  intros (W & HM & ND & D).
  assert (A : match depth (clm h) with None => exists t mo, single h t mo /\ ms = [mo] | Some n => month h = TArr ms end).
  { destruct (depth (clm h)) as [n|] eqn:E; [tauto|]. destruct D as (t & mo & A & B & _ & C). exists t, mo. repeat split; assumption. }
  assert (N1 : depth (clm h) <> Some 1) by (destruct (depth (clm h)); [intros [= ->]; tauto|discriminate]).
  destruct (nc_roundtrip h ms W HM A ND N1) as (t & r & T & R & S). exists t, r. split; [exact T|].
  unfold to_nc in T. rewrite (flatten_ok h true) in T by lia. cbn [bind f_time f_month f_depth] in T. injection T as <-. cbn [f_time f_month].
  split; [|split; [|split; [exact R|exact S]]].
  - destruct (depth (clm h)); [destruct D as (_ & -> & _)|destruct D as (u & mo & -> & _ & -> & _)]; reflexivity.
  - destruct (depth (clm h)); [destruct D as (_ & _ & ->)|destruct D as (u & mo & _ & -> & _ & ->)]; reflexivity.
Qed.
Lemma same_dated h r ts ms : dated h ts ms -> same_field h r -> dated r ts ms.
Proof.
  intros (W & HM & ND & D) (A & B & T & M & ((C1 & C2 & C3) & _) & ((S1 & S2 & S3) & _)). unfold dated. destruct W as (W1 & W2 & (W3 & W4 & W5) & W6).
  split; [|split; [lia|split; [exact ND|rewrite C3, T, M; exact D]]]. repeat split; try congruence. rewrite C3, T, M. exact W6.
Qed.
(** the labels of the fields in an object read from a file *)
Definition labelled (o : opts) (y : obj) : Prop :=
  dget "l" (o_attrs y) = Some (AList ["Wavenumber"; "spherical_harmonic_degree"])%string /\
  dget "m" (o_attrs y) = Some (AList ["Wavenumber"; "spherical_harmonic_order"])%string /\
  dget "clm" (o_attrs y) = Some (AList [w_units o; "cosine_spherical_harmonics"])%string /\
  dget "slm" (o_attrs y) = Some (AList [w_units o; "sine_spherical_harmonics"])%string /\
  (w_date o = true -> dget "time" (o_attrs y) = Some (AList [w_time_units o; w_time_longname o]) /\ dget "month" (o_attrs y) = Some (AList [w_months_units o; w_months_longname o])).

(** ** C117: a field with dates that is written is read again with its attributes; other files are not touched *)
Theorem C117_roundtrip : forall k s o x p fs ts ms, dated (o_h x) ts ms -> plain o -> w_date o = true -> w_months_name o = "month"%string -> free o fs p -> storable (root x) ->
  exists fs' x' y, write_file k s o x p fs = (fs', x', Ok tt) /\ (forall q, q <> p -> fs' q = fs q) /\
    read_file true p fs' = Ok y /\ same_field (o_h x) (o_h y) /\ labelled o y /\ storable (root y) /\ forall n, dget n (root y) = root_spec s o (root x) n.
Proof.
  intros k s o x p fs ts ms D P DT MN FR ST. destruct (dated_nc _ _ _ D) as (t & r & T & FT & FM & R & S).
  destruct (write_main k s o x p fs t ts ms P) as (d & W & SD & G); [rewrite MN; unfold month_name; cbn; intuition discriminate|exact FR|exact ST|now rewrite DT|rewrite DT; now split|].
  rewrite DT in W. eexists _, _, _. split; [exact W|]. split; [intros q; apply put_other|]. unfold read_file. rewrite put_same. unfold vars_of. rewrite DT, MN.
  cbn [get_idx get_coef get_time get_month get_var dget n_vars app String.eqb Ascii.eqb Bool.eqb bind v_data fst snd n_root].
  replace (from_nc _) with (Ok r : res harm). 2: { rewrite <- R. destruct t. cbn in FT, FM. subst. reflexivity. }
  cbn [bind]. split; [reflexivity|]. cbn [o_h o_attrs]. split; [exact S|]. split; [repeat split; reflexivity|]. split; [exact SD|exact G].
Qed.
Print Assumptions C117_roundtrip.

(** the object itself: the coefficients and dates are not changed; if its attribute ROOT is a dictionary with entries, title, source and reference are added to it *)
Theorem C117_object_after : forall k s o x p fs ts ms, dated (o_h x) ts ms -> plain o -> w_date o = true -> month_name (w_months_name o) -> free o fs p -> storable (root x) ->
  exists fs' x', write_file k s o x p fs = (fs', x', Ok tt) /\ o_h x' = o_h x /\
    (root x = [] -> x' = x) /\ storable (root x') /\
    (root x <> [] -> forall n, dget n (root x') = or_else (if String.eqb n "title" then given (w_title o) else if String.eqb n "source" then given (w_source o) else if String.eqb n "reference" then given (w_reference o) else None) (dget n (root x))).
Proof.
  intros k s o x p fs ts ms D P DT MN FR ST. destruct (dated_nc _ _ _ D) as (t & r & T & FT & FM & R & S).
  destruct (write_main k s o x p fs t ts ms P MN FR ST) as (d & W & SD & G); [now rewrite DT|rewrite DT; now split|].
  eexists _, _. split; [exact W|]. unfold keep. destruct P as (_ & -> & _). cbn [dget String.eqb Ascii.eqb Bool.eqb].
  pose proof (root_of_root x) as RR. unfold root_of in *. destruct (dget "ROOT" (o_attrs x)) as [[| | |[|e dd]]|] eqn:RX; cbn iota in *; rewrite <- RR; cbn [o_h]; (split; [reflexivity|]).
  1-4,6: split; [reflexivity|]; split; [rewrite RR; exact ST|congruence].
  split; [discriminate|]. assert (RT : root {| o_h := o_h x; o_attrs := dset "ROOT" (ADict (titles o (e :: dd))) (o_attrs x) |} = titles o (e :: dd)).
  { unfold root. cbn [o_attrs]. now rewrite dget_dset. }
  rewrite RT. rewrite <- RR in ST. split; [now apply titles_storable|]. intros _ n. unfold titles.
  assert (GE : forall q v d', dget n (match given v with Some a => dset q a d' | None => d' end) = if String.eqb n q then or_else (given v) (dget n d') else dget n d').
  { intros q v d'. destruct v as [[|a v]|]; cbn; try (now destruct (String.eqb n q)). rewrite dget_dset, (String.eqb_sym q n). reflexivity. }
  rewrite !GE. destruct (String.eqb_spec n "reference") as [->|]; [reflexivity|]. destruct (String.eqb_spec n "source") as [->|]; [reflexivity|]. now destruct (String.eqb n "title").
Qed.
Print Assumptions C117_object_after.
