(** C104: regress_grace_maps; C105: piecewise_grace_maps.  Specification first. *)
From Coq Require Import Reals Lra String List Permutation Sorted.
From Verif Require Import Base DestripeModel DestripeProofs LinAlg RegressModel RegressProofs PropRegress PropRegress2 PropPiecewise TsModel.
From Verif Require PropTs TimeModel PropTime PropSlr PropSmooth SpatialModel SpatialSpec SpatialProofs PropSpatial Arr HarmModel.
From Verif Require Import TrendMapModel.
Import SpatialModel(sp, sdata, smask, serr, slon, slat, stime, smonth, sfill, mksp, sfrom_list). Import SpatialSpec(seen, single_grid).
Import Arr(rows, cols, get). Import HarmModel(TArr, TScalar).
Close Scope Z_scope.
Open Scope R_scope.

(** aliasing periods of the tides, in days *)
Definition alias_days : list (string * R) :=
  [("Q1", 91 / 10); ("O1", 136 / 10); ("P1", 1712 / 10); ("S1", 3221 / 10); ("K1", 27254 / 10); ("J1", 278 / 10); ("M2", 135 / 10); ("S2", 161); ("K2", 13627 / 10)]%string.
(** a period in years that stands for the aliasing period of d days *)
Definition stands_for (c d : R) : Prop := Rabs (c - d / (36525 / 100)) <= / 10 ^ 8 + / 10 ^ 5 * (d / (36525 / 100)).
(** what a label says: the function of the time x (in years, r: mean time of the maps) whose coefficient the map shows *)
Definition named (r x : R) : list (string * R) :=
  ([("x0"%string, 1); ("x1"%string, x - r); ("x2"%string, (x - r) ^ 2); ("SS"%string, sin (4 * PI * x)); ("SC"%string, cos (4 * PI * x)); ("AS"%string, sin (2 * PI * x)); ("AC"%string, cos (2 * PI * x))] ++
   flat_map (fun nd => let a := 2 * PI * (x * (36525 / 100)) / snd nd in let gfo := if Rlt_dec x 2018 then false else true in
     [((fst nd ++ "SGRC")%string, if gfo then 0 else sin a); ((fst nd ++ "CGRC")%string, if gfo then 0 else cos a); ((fst nd ++ "SGFO")%string, if gfo then sin a else 0);
      ((fst nd ++ "CGFO")%string, if gfo then cos a else 0)]) alias_days)%list.
Definition meaning (r : R) (l : string) (x : R) : R := match find (fun p => String.eqb (fst p) l) (named r x) with Some p => snd p | None => 0 end.
Definition Sum (l : list R) : R := fold_right Rplus 0 l.
(** the time series with coefficient c l for every label *)
Definition combined (r : R) (labels : list string) (c : string -> R) (x : R) : R := Sum (map (fun l => c l * meaning r l x) labels).
(** the labels that a polynomial degree and a list of periods ask for *)
Definition asked (ORDER : nat) (CYCLES : list R) (l : string) : Prop :=
  In l (firstn (ORDER + 1) ["x0"; "x1"; "x2"])%string \/ (In (1 / 2) CYCLES /\ In l ["SS"; "SC"]%string) \/ (In 1 CYCLES /\ In l ["AS"; "AC"]%string) \/
  exists c nd, In c CYCLES /\ In nd alias_days /\ stands_for c (snd nd) /\ In l [fst nd ++ "SGRC"; fst nd ++ "CGRC"; fst nd ++ "SGFO"; fst nd ++ "CGFO"]%string.
(** lists of periods with every label at its own coefficient: semi-annual and annual periods before all aliasing periods, and no others *)
Definition in_order (CYCLES : list R) : Prop := exists reg al, CYCLES = (reg ++ al)%list /\ (forall c, In c reg -> c = 1 / 2 \/ c = 1) /\
  (forall c, In c al -> exists nd, In nd alias_days /\ stands_for c (snd nd)).
(** the monthly maps: time tm m, value v m i j (None: no value), increasing times; masked cells have a fill value *)
Definition monthly (maps : Z -> res sp) (order : list nat) (months : list Z) (nlat nlon : nat) (fill : option (option R)) (tm : Z -> R) (v : Z -> nat -> nat -> option R) : Prop :=
  months <> [] /\ (exists eb, forall m, In m months -> exists o, maps m = Ok o /\ single_grid nlat nlon eb o /\ stime o = TScalar (tm m) /\ sfill o = fill /\
    forall i j, (i < nlat)%nat -> (j < nlon)%nat -> seen o i j 0 = v m i j /\ (v m i j = None -> exists f, fill = Some (Some f))) /\
  (forall m m', In m months -> In m' months -> (m < m')%Z -> tm m < tm m') /\
  Permutation order (seq 0 (List.length months)) /\ StronglySorted Rle (map (fun k => tm (nth k months 0%Z)) order).
(** the number the program sees in a cell *)
Definition stored (fill : option (option R)) (x : option R) : R := match x, fill with Some y, _ => y | None, Some (Some f) => f | None, _ => 0 end.

(** ** months *)
Lemma months_in START END MISSING m : In m (months_of START END MISSING) <-> (START <= m <= END)%Z /\ ~ In m MISSING.
Proof.
  unfold months_of. rewrite filter_In, in_map_iff, Bool.negb_true_iff. split.
  - intros ((k & <- & Hk) & H). apply in_seq in Hk. split; [lia|]. intros HI. assert (existsb (Z.eqb (START + Z.of_nat k)) MISSING = true); [|congruence]. apply existsb_exists. exists (START + Z.of_nat k)%Z. split; [exact HI|apply Z.eqb_refl].
  - intros (H & HN). split; [exists (Z.to_nat (m - START)); split; [lia|apply in_seq; lia]|]. apply Bool.not_true_is_false. intros E. apply existsb_exists in E. destruct E as (x & Hx & E). apply Z.eqb_eq in E. subst x. contradiction.
Qed.
Lemma sorted_filter (f : Z -> bool) l : StronglySorted Z.lt l -> StronglySorted Z.lt (filter f l).
Proof.
  induction 1 as [|a l S IH F]; cbn [filter]; [constructor|]. destruct (f a); [|exact IH]. constructor; [exact IH|]. rewrite Forall_forall in *. intros x Hx. apply filter_In in Hx. apply F. apply Hx.
Qed.
Lemma months_sorted START END MISSING : StronglySorted Z.lt (months_of START END MISSING).
Proof.
  unfold months_of. apply sorted_filter. generalize 0%nat as a. induction (Z.to_nat (END + 1 - START)) as [|n IH]; intros a; cbn [seq map]; [constructor|]. constructor; [apply IH|]. rewrite Forall_forall.
  intros x Hx. apply in_map_iff in Hx. destruct Hx as (k & <- & Hk). apply in_seq in Hk. lia.
Qed.
(** np.argsort of increasing numbers is the identity *)
Lemma sorted_perm_eq : forall l l' : list nat, Permutation l l' -> StronglySorted lt l -> StronglySorted lt l' -> l = l'.
Proof.
  induction l as [|a l IH]; intros l' P S S'; [apply Permutation_nil in P; subst; reflexivity|]. destruct l' as [|b l']; [symmetry in P; apply Permutation_nil in P; discriminate|].
  inversion S; subst. inversion S'; subst. rewrite Forall_forall in *. assert (a = b).
  { assert (Ia : In a (b :: l')) by (apply (Permutation_in _ P); left; reflexivity). assert (Ib : In b (a :: l)) by (apply (Permutation_in _ (Permutation_sym P)); left; reflexivity).
    destruct Ia as [|Ia]; [auto|]. destruct Ib as [|Ib]; [auto|]. apply H2 in Ib. apply H4 in Ia. lia. }
  subst b. f_equal. apply IH; [apply (Permutation_cons_inv P)|assumption|assumption].
Qed.
Lemma argsort_id (f : nat -> R) n order : (forall a b, (a < b < n)%nat -> f a < f b) -> Permutation order (seq 0 n) -> StronglySorted Rle (map f order) -> order = seq 0 n.
Proof.
  intros M P S. apply sorted_perm_eq; [exact P| |].
  - assert (ND : NoDup order) by (apply (Permutation_NoDup (Permutation_sym P)); apply seq_NoDup). assert (B : forall k, In k order -> (k < n)%nat) by (intros k Hk; apply (Permutation_in _ P) in Hk; apply in_seq in Hk; lia).
    clear P. induction order as [|a l IH]; [constructor|]. cbn [map] in S. inversion S; subst. inversion ND; subst. constructor; [apply IH; auto; intros k Hk; apply B; right; exact Hk|].
    rewrite Forall_forall in *. intros x Hx. destruct (lt_eq_lt_dec a x) as [[H|H]|H]; [exact H|subst; contradiction|]. exfalso. specialize (M x a (conj H (B a (or_introl eq_refl)))).
    specialize (H2 (f x) (in_map f _ _ Hx)). lra.
  - clear. generalize 0%nat. induction n as [|n IH]; intros a; cbn [seq]; constructor; [apply IH|]. rewrite Forall_forall. intros x Hx. apply in_seq in Hx. lia.
Qed.

(** ** reading the maps *)
Lemma mapM_map2 {A B C} (f : A -> res B) (g : B -> C) l out : mapM f l = Ok out -> mapM (fun a => do x <- f a; Ok (g x)) l = Ok (map g out).
Proof. revert out. induction l as [|a l IH]; intros out; cbn [mapM]; [intros E; injection E as <-; reflexivity|]. destruct (f a); cbn [bind]; [|discriminate]. destruct (mapM f l); cbn [bind]; [|discriminate]. intros E. injection E as <-. rewrite (IH _ eq_refl). reflexivity. Qed.
Lemma read_ok maps order months nlat nlon fill tm v : StronglySorted Z.lt months -> monthly maps order months nlat nlon fill tm v ->
  exists g, read_maps maps order months = Ok g /\ rows (sdata g) = nlat /\ cols (sdata g) = nlon /\ times g = map tm months /\ grid_months g = months /\
  forall i j, (i < nlat)%nat -> (j < nlon)%nat -> series g i j = Ok (map (fun m => stored fill (v m i j)) months).
Proof.
  intros SS (NE & (eb & HM) & HT & HP & HS).
  assert (INC : forall a b, (a < b < List.length months)%nat -> (nth a months 0 < nth b months 0)%Z).
  { clear - SS. induction SS as [|x l S IH F]; intros a b H; [cbn in H; lia|]. cbn [List.length] in H. rewrite Forall_forall in F. destruct a as [|a], b as [|b]; try lia; cbn [nth]; [apply F; apply nth_In; lia|apply IH; lia]. }
  assert (EO : order = seq 0 (List.length months)).
  { apply (argsort_id (fun k => tm (nth k months 0%Z))); [|exact HP|exact HS]. intros a b H. apply HT; [apply nth_In; lia|apply nth_In; lia|apply INC; exact H]. }
  destruct (PropSlr.mapM_ex (fun m => do o <- maps m; Ok (with_month o m)) months) as (objs & EO1).
  { intros m Hm. destruct (HM m Hm) as (o & E & _). rewrite E. eexists; reflexivity. }
  pose proof (PropSmooth.mapM_nth _ _ _ EO1) as (LO & NO).
  assert (OB : forall k, (k < List.length months)%nat -> exists o, maps (nth k months 0%Z) = Ok o /\ nth k objs SpatialSpec.sdummy = with_month o (nth k months 0%Z) /\ single_grid nlat nlon eb o /\ stime o = TScalar (tm (nth k months 0%Z)) /\ sfill o = fill /\
    forall i j, (i < nlat)%nat -> (j < nlon)%nat -> seen o i j 0 = v (nth k months 0%Z) i j /\ (v (nth k months 0%Z) i j = None -> exists f, fill = Some (Some f))).
  { intros k Hk. destruct (HM (nth k months 0%Z)) as (o & E & R1); [apply nth_In; exact Hk|]. exists o. split; [exact E|]. split; [|exact R1]. specialize (NO k 0%Z SpatialSpec.sdummy Hk). rewrite E in NO. cbn [bind] in NO. congruence. }
  destruct objs as [|o0 rest] eqn:EQ; [destruct months; [contradiction|discriminate LO]|]. rewrite <- EQ in *.
  assert (SG : forall o, In o objs -> single_grid nlat nlon eb o).
  { intros o Ho. apply (In_nth _ _ SpatialSpec.sdummy) in Ho. destruct Ho as (k & Hk & <-). rewrite LO in Hk. destruct (OB k Hk) as (o' & _ & -> & S1 & _). unfold with_month, single_grid in *. cbn [sdata smask serr slon slat stime smonth].
    destruct S1 as (W & R1 & C1 & D1 & (t1 & m1 & T1 & M1) & E1). split; [|split; [exact R1|split; [exact C1|split; [exact D1|split; [exists t1; eexists; split; [exact T1|reflexivity]|exact E1]]]]].
    unfold SpatialModel.swf in *. cbn [sdata smask serr slon slat stime smonth]. rewrite D1 in *. tauto. }
  pose proof (PropSpatial.C66_from_list objs order o0 rest nlat nlon eb EQ SG ltac:(rewrite LO; exact HP)) as F. cbv zeta in F. destruct F as (g & EG & CL & RG & CG & DG & _ & _ & FG & _ & TG & MG & VG).
  assert (SORT : map (fun k => nth k objs SpatialSpec.sdummy) order = objs).
  { rewrite EO, <- LO. clear. apply nth_ext with (d := SpatialSpec.sdummy) (d' := SpatialSpec.sdummy); [rewrite map_length, seq_length; reflexivity|]. intros n Hn. rewrite map_length, seq_length in Hn.
    rewrite (nth_indep _ SpatialSpec.sdummy (nth 0 objs SpatialSpec.sdummy)) by (rewrite map_length, seq_length; exact Hn). rewrite (map_nth (fun k => nth k objs SpatialSpec.sdummy)), seq_nth by exact Hn. reflexivity. }
  rewrite SORT in *. exists g.
  assert (TT : map SpatialSpec.stime_of objs = map tm months).
  { apply nth_ext with (d := SpatialSpec.stime_of SpatialSpec.sdummy) (d' := tm 0%Z); [rewrite !map_length; exact LO|]. intros n Hn. rewrite map_length, LO in Hn. rewrite !map_nth. destruct (OB n Hn) as (o & _ & -> & _ & T & _). unfold SpatialSpec.stime_of, with_month. cbn [stime]. rewrite T. reflexivity. }
  assert (MM : map SpatialSpec.smonth_of objs = months).
  { apply nth_ext with (d := SpatialSpec.smonth_of SpatialSpec.sdummy) (d' := 0%Z); [rewrite map_length; exact LO|]. intros n Hn. rewrite map_length, LO in Hn. rewrite map_nth. destruct (OB n Hn) as (o & _ & -> & _). reflexivity. }
  split. { unfold read_maps. rewrite EO1. cbn [bind]. exact EG. } split; [exact RG|]. split; [exact CG|]. split; [unfold times; rewrite TG, TT; reflexivity|]. split.
  { unfold grid_months. rewrite MG, MM, PropTime.C03_adjust_nodup. 2:{ clear - SS. induction SS as [|x l S IH F]; constructor; [|exact IH]. intros H. rewrite Forall_forall in F. specialize (F x H). lia. }
    unfold HarmModel.tsqueeze. destruct months as [|a [|b l]]; reflexivity. }
  intros i j Hi Hj. unfold series, times. rewrite TG, TT, map_length.
  rewrite (PropSlr.mapM_map _ (fun k => stored fill (v (nth k months 0%Z) i j))).
  { f_equal. apply nth_ext with (d := stored fill (v (nth 0 months 0%Z) i j)) (d' := stored fill (v 0%Z i j)); [rewrite !map_length, seq_length; reflexivity|]. intros n Hn. rewrite map_length, seq_length in Hn.
    rewrite (map_nth (fun k => stored fill (v (nth k months 0%Z) i j))), (map_nth (fun m => stored fill (v m i j))), seq_nth by exact Hn. reflexivity. }
  intros k Hk. apply in_seq in Hk. destruct (OB k ltac:(lia)) as (o & _ & ON & _ & _ & FO & VO). destruct (VO i j Hi Hj) as (V1 & V2). clear VO.
  destruct (VG i j k Hi Hj ltac:(rewrite LO; lia)) as (V3 & _). rewrite ON in V3. unfold SpatialSpec.seen in V3 at 2. unfold with_month in V3. cbn [smask sdata] in V3. fold (SpatialSpec.seen o i j 0) in V3. rewrite V1 in V3.
  assert (F0 : sfill o0 = fill). { destruct (OB 0%nat) as (o' & _ & ON' & _ & _ & FO' & _); [destruct months; [contradiction|cbn; lia]|]. rewrite EQ in ON'. cbn [nth] in ON'. rewrite ON'. exact FO'. }
  rewrite F0 in *. assert (HH : SpatialSpec.has g i j k) by (unfold SpatialSpec.has, Arr.inb, Arr.nslice; rewrite RG, CG, DG; lia).
  unfold SpatialSpec.seen in V3. destruct (get (smask g) i j k) eqn:EM.
  - destruct (v (nth k months 0%Z) i j) as [y|] eqn:EV; cbn [SpatialSpec.hide] in V3.
    + destruct fill as [[f|]|]; try discriminate V3. destruct (Req_EM_T y f) as [->|]; [|discriminate V3]. destruct (CL (Some f) FG i j k HH) as (C1 & _). destruct (C1 EM) as (-> & _). reflexivity.
    + destruct (V2 eq_refl) as (f & ->). destruct (CL (Some f) FG i j k HH) as (C1 & _). destruct (C1 EM) as (-> & _). reflexivity.
  - destruct (v (nth k months 0%Z) i j) as [y|] eqn:EV; cbn [SpatialSpec.hide] in V3.
    + destruct fill as [[f|]|]; try (rewrite V3; reflexivity). destruct (Req_EM_T y f) as [->|]; rewrite V3; [|reflexivity]. destruct (CL (Some f) FG i j k HH) as (_ & C1). destruct (C1 EM) as (C2 & _). rewrite V3 in C2. discriminate C2.
    + destruct (V2 eq_refl) as (f & ->). destruct (CL (Some f) FG i j k HH) as (_ & C1). destruct (C1 EM) as (C2 & _). rewrite V3 in C2. discriminate C2.
Qed.
Lemma cells_ok g fit cs : all_cells g fit = Ok cs -> forall i j, (i < rows (sdata g))%nat -> (j < cols (sdata g))%nat -> forall d, series g i j = Ok d -> fit d = Ok (at_cell cs i j).
Proof.
  intros E i j Hi Hj d Hd. unfold all_cells in E. destruct (PropSmooth.mapM_nth _ _ _ E) as (_ & N). specialize (N i 0%nat [] ltac:(rewrite seq_length; exact Hi)). rewrite seq_nth in N by exact Hi. cbn [Nat.add] in N.
  destruct (PropSmooth.mapM_nth _ _ _ N) as (_ & N2). specialize (N2 j 0%nat no_cell ltac:(rewrite seq_length; exact Hj)). rewrite seq_nth in N2 by exact Hj. cbn [Nat.add] in N2. rewrite Hd in N2. exact N2.
Qed.
Lemma cells_total g fit : (forall i j, (i < rows (sdata g))%nat -> (j < cols (sdata g))%nat -> exists d x, series g i j = Ok d /\ fit d = Ok x) -> exists cs, all_cells g fit = Ok cs.
Proof.
  intros H. unfold all_cells. apply PropSlr.mapM_ex. intros i Hi. apply in_seq in Hi. apply PropSlr.mapM_ex. intros j Hj. apply in_seq in Hj. destruct (H i j ltac:(lia) ltac:(lia)) as (d & x & -> & E). exists x. exact E.
Qed.

(** ** labels and columns *)
Lemma isclose_iff c d : 0 < d -> (isclose c (d / (36525 / 100)) = true <-> stands_for c d).
Proof.
  intros H. unfold isclose, stands_for. rewrite (Rabs_pos_eq (d / (36525 / 100))) by lra. destruct (Rle_dec _ _); split; intros; try tauto; discriminate.
Qed.
Lemma stands_bounds c d : stands_for c d -> d / (36525 / 100) - (/ 10 ^ 8 + / 10 ^ 5 * (d / (36525 / 100))) <= c <= d / (36525 / 100) + (/ 10 ^ 8 + / 10 ^ 5 * (d / (36525 / 100))).
Proof. unfold stands_for. intros H. pose proof (Rle_abs (c - d / (36525 / 100))). pose proof (Rle_abs (- (c - d / (36525 / 100)))) as H1. rewrite Rabs_Ropp in H1. lra. Qed.
Lemma days_pos nd : In nd alias_days -> 0 < snd nd.
Proof. intros H. repeat (destruct H as [<-|H]; [cbn [snd]; lra|]). destruct H. Qed.
Lemma not_alias c : c = 1 / 2 \/ c = 1 -> forall nd, In nd alias_days -> ~ stands_for c (snd nd).
Proof. intros E nd H S. apply stands_bounds in S. repeat (destruct H as [<-|H]; [cbn [snd] in S; destruct E; subst c; lra|]). destruct H. Qed.
Lemma alias_one c nd nd' : In nd alias_days -> In nd' alias_days -> stands_for c (snd nd) -> stands_for c (snd nd') -> nd = nd'.
Proof.
  intros H H' S S'. apply stands_bounds in S. apply stands_bounds in S'.
  repeat (destruct H as [<-|H]; [cbn [snd] in S; clear H || idtac; repeat (destruct H' as [<-|H']; [cbn [snd] in S'; first [reflexivity|exfalso; lra]|]); destruct H'|]). destruct H.
Qed.
Lemma tides_in c nd : In nd (tides_of c) <-> In nd alias_days /\ stands_for c (snd nd).
Proof. unfold tides_of. rewrite filter_In. change tidal_aliasing with alias_days. split; intros [H1 H2]; (split; [exact H1|]); apply (isclose_iff c (snd nd) (days_pos nd H1)); exact H2. Qed.
Lemma tides_none c : c = 1 / 2 \/ c = 1 -> tides_of c = [].
Proof. intros E. destruct (tides_of c) as [|nd l] eqn:T; [reflexivity|]. assert (H : In nd (tides_of c)) by (rewrite T; left; reflexivity). apply tides_in in H. destruct H as (H1 & H2). destruct (not_alias c E nd H1 H2). Qed.
Lemma tides_one c nd : In nd alias_days -> stands_for c (snd nd) -> tides_of c = [nd].
Proof.
  intros H S. assert (A : forall x, In x (tides_of c) -> x = nd) by (intros x Hx; apply tides_in in Hx; destruct Hx; apply (alias_one c); assumption).
  assert (ND : NoDup (tides_of c)).
  { unfold tides_of. apply NoDup_filter. apply (NoDup_map_inv fst). cbn [tidal_aliasing map fst]. repeat constructor; cbn [In]; intuition discriminate. }
  assert (I0 : In nd (tides_of c)) by (apply tides_in; auto). destruct (tides_of c) as [|a [|b l]].
  - destruct I0.
  - f_equal. apply A. left; reflexivity.
  - exfalso. inversion ND; subst. apply H2. left. rewrite (A a), (A b); cbn [In]; auto.
Qed.
Lemma alias_not c nd : In nd alias_days -> stands_for c (snd nd) -> is_half c = false /\ is_one c = false.
Proof. intros H S. unfold is_half, is_one. destruct (Req_EM_T c (1 / 2)) as [E|_]; [destruct (not_alias c (or_introl E) nd H S)|]. destruct (Req_EM_T c 1) as [E|_]; [destruct (not_alias c (or_intror E) nd H S)|]. auto. Qed.

(** a column of the fit is the function that the label names *)
Definition shows (r : R) (t : list R) (column : list R) (l : string) : Prop := forall i, (i < List.length t)%nat -> nth i column 0 = meaning r l (nth i t 0).
Lemma shows_map r t f l : (forall x, f x = meaning r l x) -> shows r t (map f t) l.
Proof. intros H i Hi. rewrite <- H. rewrite (nth_indep _ 0 (f 0)) by (rewrite map_length; exact Hi). apply map_nth. Qed.
Lemma poly_shows r t ORDER : (ORDER <= 2)%nat -> Forall2 (shows r t) (map (fun o => map (fun x => (x - r) ^ o) t) (seq 0 (ORDER + 1))) (poly_labels ORDER).
Proof.
  intros H. unfold poly_labels. destruct ORDER as [|[|[|n]]]; [..|lia]; cbn [Nat.add seq map nth]; repeat constructor; apply shows_map; intros x; unfold meaning; cbn [find named app fst snd String.eqb Ascii.eqb Bool.eqb]; ring.
Qed.
Lemma reg_shows r t reg : (forall c, In c reg -> c = 1 / 2 \/ c = 1) -> Forall2 (shows r t) (cycle_cols t reg) (flat_map labels_of reg).
Proof.
  induction reg as [|c reg IH]; intros H; [constructor|]. unfold cycle_cols. cbn [flat_map]. apply Forall2_app; [|apply IH; intros x Hx; apply H; right; exact Hx].
  unfold labels_of. rewrite (tides_none c) by (apply H; left; reflexivity). cbn [flat_map]. rewrite app_nil_r. unfold is_half, is_one. destruct (Req_EM_T c (1 / 2)) as [->|N].
  - repeat constructor; apply shows_map; intros x; unfold meaning; cbn [find named app fst snd String.eqb Ascii.eqb Bool.eqb]; f_equal; field.
  - destruct (H c (or_introl eq_refl)) as [E| ->]; [contradiction|]. destruct (Req_EM_T 1 1); [|contradiction].
    repeat constructor; apply shows_map; intros x; unfold meaning; cbn [find named app fst snd String.eqb Ascii.eqb Bool.eqb]; f_equal; field.
Qed.
Lemma alias_shows r t nd : In nd alias_days -> Forall2 (shows r t) (aliasing_terms t (snd nd)) [fst nd ++ "SGRC"; fst nd ++ "CGRC"; fst nd ++ "SGFO"; fst nd ++ "CGFO"]%string.
Proof.
  intros H. assert (A : forall x, PI * x * (7305 / 10) / snd nd = 2 * PI * (x * (36525 / 100)) / snd nd) by (intros x; pose proof (days_pos nd H); field; lra). unfold aliasing_terms.
  assert (M : forall x, let a := 2 * PI * (x * (36525 / 100)) / snd nd in let gfo := if Rlt_dec x 2018 then false else true in
    meaning r (fst nd ++ "SGRC") x = (if gfo then 0 else sin a) /\ meaning r (fst nd ++ "CGRC") x = (if gfo then 0 else cos a) /\ meaning r (fst nd ++ "SGFO") x = (if gfo then sin a else 0) /\ meaning r (fst nd ++ "CGFO") x = (if gfo then cos a else 0)).
  { intros x. repeat (destruct H as [<-|H]; [repeat split; reflexivity|]). destruct H. }
  repeat constructor; apply shows_map; intros x; destruct (M x) as (M1 & M2 & M3 & M4); rewrite ?M1, ?M2, ?M3, ?M4, A; destruct (Rlt_dec x 2018), (Rle_dec 2018 x); try reflexivity; exfalso; lra.
Qed.
Lemma al_shows r t al : (forall c, In c al -> exists nd, In nd alias_days /\ stands_for c (snd nd)) -> Forall2 (shows r t) (flat_map (terms_of t) al) (flat_map labels_of al).
Proof.
  induction al as [|c al IH]; intros H; [constructor|]. cbn [flat_map]. apply Forall2_app; [|apply IH; intros x Hx; apply H; right; exact Hx].
  destruct (H c (or_introl eq_refl)) as (nd & H1 & H2). unfold terms_of, labels_of. rewrite (tides_one c nd H1 H2). destruct (alias_not c nd H1 H2) as (-> & ->). cbn [flat_map app]. rewrite !app_nil_r. apply alias_shows. exact H1.
Qed.
Lemma reg_terms t reg : (forall c, In c reg -> c = 1 / 2 \/ c = 1) -> flat_map (terms_of t) reg = [] /\ filter stays reg = reg.
Proof.
  induction reg as [|c reg IH]; intros H; [split; reflexivity|]. destruct IH as (I1 & I2); [intros x Hx; apply H; right; exact Hx|]. cbn [flat_map filter]. unfold terms_of at 1, stays at 1. rewrite (tides_none c) by (apply H; left; reflexivity). cbn [flat_map app]. rewrite I1, I2. split; reflexivity.
Qed.
Lemma al_stays al : (forall c, In c al -> exists nd, In nd alias_days /\ stands_for c (snd nd)) -> filter stays al = [].
Proof. induction al as [|c al IH]; intros H; [reflexivity|]. cbn [filter]. unfold stays at 1. destruct (H c (or_introl eq_refl)) as (nd & H1 & H2). rewrite (tides_one c nd H1 H2). apply IH. intros x Hx. apply H. right; exact Hx. Qed.
Definition all_labels (ORDER : nat) (CYCLES : list R) : list string := (poly_labels ORDER ++ flat_map labels_of CYCLES)%list.
Lemma rest_shows r t CYCLES : in_order CYCLES -> Forall2 (shows r t) (cycle_cols t (filter stays CYCLES) ++ flat_map (terms_of t) CYCLES) (flat_map labels_of CYCLES).
Proof.
  intros (reg & al & -> & HR & HA). rewrite filter_app, !flat_map_app. destruct (reg_terms t reg HR) as (-> & ->). rewrite (al_stays al HA), app_nil_r. cbn [app]. apply Forall2_app; [apply reg_shows; exact HR|apply al_shows; exact HA].
Qed.
Lemma design_shows r t ORDER CYCLES : (ORDER <= 2)%nat -> in_order CYCLES -> Forall2 (shows r t) (design ORDER r t (filter stays CYCLES) (flat_map (terms_of t) CYCLES)) (all_labels ORDER CYCLES).
Proof. intros H A. unfold design, all_labels. apply Forall2_app; [apply poly_shows; exact H|apply rest_shows; exact A]. Qed.
Lemma labels_asked ORDER CYCLES l : (ORDER <= 2)%nat -> In l (all_labels ORDER CYCLES) <-> asked ORDER CYCLES l.
Proof.
  intros H. unfold all_labels, asked. rewrite in_app_iff. assert (P : poly_labels ORDER = firstn (ORDER + 1) ["x0"; "x1"; "x2"]%string) by (destruct ORDER as [|[|[|n]]]; [reflexivity..|lia]). rewrite P. apply or_iff_compat_l. rewrite in_flat_map. split.
  - intros (c & Hc & Hl). unfold labels_of in Hl. apply in_app_iff in Hl. destruct Hl as [Hl|Hl].
    + unfold is_half, is_one in Hl. destruct (Req_EM_T c (1 / 2)) as [->|]; [left; auto|]. destruct (Req_EM_T c 1) as [->|]; [right; left; auto|destruct Hl].
    + apply in_flat_map in Hl. destruct Hl as (nd & Hn & Hl). apply tides_in in Hn. right; right. exists c, nd. tauto.
  - intros [(Hc & Hl)|[(Hc & Hl)|(c & nd & Hc & Hn & Hs & Hl)]].
    + exists (1 / 2). split; [exact Hc|]. unfold labels_of, is_half. destruct (Req_EM_T (1 / 2) (1 / 2)); [|contradiction]. apply in_app_iff. left; exact Hl.
    + exists 1. split; [exact Hc|]. unfold labels_of, is_half, is_one. destruct (Req_EM_T 1 (1 / 2)); [exfalso; lra|]. destruct (Req_EM_T 1 1); [|contradiction]. apply in_app_iff. left; exact Hl.
    + exists c. split; [exact Hc|]. unfold labels_of. apply in_app_iff. right. apply in_flat_map. exists nd. split; [apply tides_in; auto|exact Hl].
Qed.

(** ** the fit of one cell *)
Definition months_are (START END : Z) (MISSING : list Z) (months : list Z) : Prop := StronglySorted Z.lt months /\ forall m, In m months <-> (START <= m <= END)%Z /\ ~ In m MISSING.
(** sum of squared differences between the values and the series with coefficients c *)
Definition squares (r : R) (labels : list string) (months : list Z) (tm g : Z -> R) (c : string -> R) : R := Sum (map (fun m => (g m - combined r labels c (tm m)) ^ 2) months).
Definition mean_time (months : list Z) (tm : Z -> R) : R := Sum (map tm months) / INR (List.length months).

Fixpoint posn (l : string) (L : list string) : nat := match L with [] => 0%nat | x :: r => if String.eqb x l then 0%nat else S (posn l r) end.
Lemma posn_in l L : In l L -> (posn l L < List.length L)%nat /\ nth (posn l L) L EmptyString = l.
Proof. induction L as [|x L IH]; [intros []|]. cbn [posn]. destruct (String.eqb_spec x l) as [->|N]; [intros _; cbn; split; [lia|reflexivity]|]. intros [E|H]; [contradiction|]. destruct (IH H). cbn [List.length nth]. split; [lia|assumption]. Qed.
Lemma posn_nth L k : NoDup L -> (k < List.length L)%nat -> posn (nth k L EmptyString) L = k.
Proof. intros ND Hk. destruct (posn_in (nth k L EmptyString) L) as (H1 & H2); [apply nth_In; exact Hk|]. apply (proj1 (NoDup_nth L EmptyString) ND); assumption. Qed.
Lemma Sum_rsum {A} (f : A -> R) l d : Sum (map f l) = rsum (List.length l) (fun i => f (nth i l d)).
Proof. induction l as [|x l IH]; [reflexivity|]. cbn [List.length]. rewrite rsum_head. cbn [map Sum fold_right nth]. unfold Sum in IH. rewrite IH. reflexivity. Qed.
Lemma nth_map {A B} (f : A -> B) l k d d' : (k < List.length l)%nat -> nth k (map f l) d' = f (nth k l d).
Proof. intros H. rewrite (nth_indep _ d' (f d)) by (rewrite map_length; exact H). apply map_nth. Qed.
Lemma combined_comb r t D L c i : Forall2 (shows r t) D L -> (i < List.length t)%nat -> combined r L c (nth i t 0) = comb (List.length D) (col D) (fun k => c (nth k L EmptyString)) i.
Proof.
  intros F Hi. unfold combined, comb. rewrite (Sum_rsum _ L EmptyString). assert (LL : List.length D = List.length L) by (clear - F; induction F; cbn; congruence). rewrite LL. apply rsum_ext. intros k Hk. f_equal.
  unfold col, at_. assert (S1 : shows r t (nth k D []) (nth k L EmptyString)); [|symmetry; apply S1; exact Hi]. clear - F LL Hk. revert k Hk. induction F as [|a b D L F1 F IH]; intros k Hk; [cbn in Hk; lia|]. destruct k; cbn [nth]; [exact F1|apply IH; cbn in *; lia].
Qed.
Lemma squares_misfit r L months tm g c sig : (forall i, (i < List.length months)%nat -> combined r L c (nth i (map tm months) 0) = sig i) ->
  squares r L months tm g c = misfit (List.length (map tm months)) (weights false (Scalar 0)) (val (map g months)) sig.
Proof.
  intros H. unfold squares, misfit. rewrite (Sum_rsum _ months 0%Z), map_length. apply rsum_ext. intros i Hi. unfold weights, val. rewrite <- H by exact Hi. rewrite (nth_map tm months i 0%Z), (nth_map g months i 0%Z) by exact Hi. ring.
Qed.
Lemma identifiable_nodup r t D L p : Forall2 (shows r t) D L -> List.length D = p -> independent p (List.length t) (col D) -> NoDup L.
Proof.
  intros F LD ID. assert (LL : List.length D = List.length L) by (clear - F; induction F; cbn; congruence). apply (NoDup_nth L EmptyString). intros a b Ha Hb E. destruct (Nat.eq_dec a b) as [|N]; [assumption|]. exfalso.
  assert (Z : 1 = 0); [|lra]. set (x := fun k => (if (k =? a)%nat then 1 else 0) - (if (k =? b)%nat then 1 else 0)). replace 1 with (x a) by (unfold x; rewrite Nat.eqb_refl; destruct (Nat.eqb_spec a b); [contradiction|ring]). apply (ID x); [|lia].
  assert (COL : forall k i, (k < List.length L)%nat -> (i < List.length t)%nat -> col D k i = meaning r (nth k L EmptyString) (nth i t 0)).
  { intros k i Hk Hi. unfold col, at_. assert (S1 : shows r t (nth k D []) (nth k L EmptyString)); [|apply S1; exact Hi]. clear - F LL Hk. revert k Hk. induction F as [|u w D L F1 F IH]; intros k Hk; [cbn in Hk; lia|]. destruct k; cbn [nth]; [exact F1|apply IH; cbn in *; lia]. }
  intros i Hi. unfold comb, x. rewrite (rsum_ext p _ (fun j => delta j a * col D j i + (-1) * (delta j b * col D j i))) by (intros j _; unfold delta; rewrite (Nat.eqb_sym j a), (Nat.eqb_sym j b); rewrite ?(Nat.eqb_sym a j), ?(Nat.eqb_sym b j); ring).
  rewrite rsum_plus, rsum_scal, !rsum_delta by lia. rewrite !COL by lia. rewrite E. ring.
Qed.
Lemma cell_regress erf tppf months tm g ORDER CYCLES x : (ORDER <= 2)%nat -> in_order CYCLES -> regress_cell erf tppf (map tm months) ORDER CYCLES (map g months) = Ok x ->
  let r := mean_time months tm in let L := all_labels ORDER CYCLES in let c := fun l => at_ (c_beta x) (posn l L) in let n := INR (List.length months) in let p := INR (List.length L) in let S := squares r L months tm g c in
  NoDup L /\ (List.length L < List.length months)%nat /\
  (forall c', S <= squares r L months tm g c') /\ (forall c', squares r L months tm g c' = S -> forall l, In l L -> c' l = c l) /\
  (exists cov : string -> string -> R, (forall l l', In l L -> In l' L -> Sum (map (fun k => Sum (map (fun m => meaning r l (tm m) * meaning r k (tm m)) months) * cov k l') L) = if String.eqb l l' then 1 else 0) /\
     forall l, In l L -> at_ (c_error x) (posn l L) = tppf (1 - (1 - 95 / 100) / 2) (Z.of_nat (List.length months) - Z.of_nat (List.length L))%Z * sqrt (S / (n - p) * cov l l)) /\
  at_ (c_stats x) 0 = S /\
  at_ (c_stats x) 1 = n * (ln (2 * PI) + 1 - ln n + ln S) + 2 * (p + 1) + 2 * (p + 1) * (p + 2) / (n - p - 2) /\
  at_ (c_stats x) 2 = n * (ln (2 * PI) + 1 - ln n + ln S) + ln n * (p + 1) /\
  at_ (c_stats x) 3 = 1 - S / Sum (map (fun m => (g m - Sum (map g months) / n) ^ 2) months) * ((n - 1) / (n - p)).
Proof.
  intros HO HA E. cbv zeta. unfold regress_cell in E. set (t := map tm months) in *. set (d := map g months) in *. set (cs := filter stays CYCLES) in *. set (Ts := flat_map (terms_of t) CYCLES) in *.
  destruct (regress erf tppf t d ORDER cs Ts (Scalar 0) false RelAll 0 (95 / 100) true) as [q|] eqn:Q; cbn [bind] in E; [|discriminate E]. injection E as <-. cbn [c_beta c_error c_stats].
  set (L := all_labels ORDER CYCLES). set (r := mean_time months tm). assert (Er : epoch RelAll t r). { unfold epoch, r, mean_time, mean_of, t. rewrite map_length. reflexivity. }
  pose proof (design_shows r t ORDER CYCLES HO HA) as F. fold cs Ts L in F. assert (LL : List.length L = nterms ORDER cs Ts) by (rewrite <- (design_length ORDER r t cs Ts); clear - F; induction F; cbn; congruence).
  destruct (regress_core _ _ _ _ _ _ _ _ _ _ _ _ _ _ Q) as (r' & s & Er' & _ & FC & C & _). assert (r' = r) by (cbn [epoch] in Er, Er'; congruence). subst r'.
  assert (ID : independent (nterms ORDER cs Ts) (List.length t) (col (design ORDER r t cs Ts))) by (rewrite <- (design_length ORDER r t cs Ts); apply (core_independent _ _ _ _ _ _ _ C)).
  assert (ND : NoDup L) by (apply (identifiable_nodup r t _ L _ F (design_length ORDER r t cs Ts) ID)).
  destruct (dof_pos _ _ _ _ _ _ _ _ _ _ _ _ _ _ Q) as (DP & DF). assert (LT : List.length t = List.length months) by (unfold t; apply map_length).
  set (c := fun l => at_ (f_beta (r_fit q)) (posn l L)).
  assert (SG : forall c' i, (i < List.length months)%nat -> combined r L c' (nth i t 0) = signal ORDER r cs Ts t (fun k => c' (nth k L EmptyString)) i).
  { intros c' i Hi. rewrite (combined_comb r t _ L c' i F) by lia. rewrite design_length. apply design_signal. lia. }
  assert (SE : forall b b' i, (forall j, (j < nterms ORDER cs Ts)%nat -> b j = b' j) -> (i < List.length t)%nat -> signal ORDER r cs Ts t b i = signal ORDER r cs Ts t b' i).
  { intros b b' i H Hi. rewrite <- !(design_signal ORDER r t cs Ts _ i Hi). unfold comb. apply rsum_ext. intros j Hj. rewrite H by exact Hj. reflexivity. }
  assert (CB : forall j, (j < nterms ORDER cs Ts)%nat -> c (nth j L EmptyString) = val (f_beta (r_fit q)) j) by (intros j Hj; unfold c; rewrite posn_nth by (try exact ND; lia); reflexivity).
  assert (SM : forall c', squares r L months tm g c' = misfit (List.length t) (weights false (Scalar 0)) (val d) (signal ORDER r cs Ts t (fun k => c' (nth k L EmptyString)))) by (intros c'; apply squares_misfit; intros i Hi; apply SG; exact Hi).
  destruct (C53_least_squares _ _ _ _ _ _ _ _ _ _ _ _ _ _ Q Logic.I) as (r2 & Er2 & LB & LM & LR & _ & _ & VAL & MIN & UNI). assert (r2 = r) by (cbn [epoch] in Er, Er2; congruence). subst r2.
  assert (SC : squares r L months tm g c = misfit (List.length t) (weights false (Scalar 0)) (val d) (signal ORDER r cs Ts t (val (f_beta (r_fit q))))).
  { rewrite SM. unfold misfit. apply rsum_ext. intros i Hi. rewrite (SE (fun k => c (nth k L EmptyString)) (val (f_beta (r_fit q))) i) by (try exact CB; lia). reflexivity. }
  assert (RS : rsum (List.length t) (fun i => val (f_residual (r_fit q)) i ^ 2) = squares r L months tm g c).
  { rewrite SC. unfold misfit. apply rsum_ext. intros i Hi. destruct (VAL i Hi) as (V1 & V2 & _). unfold weights. rewrite <- V1. replace (val (f_residual (r_fit q)) i) with (val d i - val (f_model (r_fit q)) i) by lra. ring. }
  destruct (C53_errors _ _ _ _ _ _ _ _ _ _ _ _ _ _ r Q Logic.I Er) as (CV & CP & LE & ERR). cbv zeta in CV, CP, LE, ERR.
  assert (DN : IZR (f_dof (r_fit q)) = INR (List.length months) - INR (List.length L)) by (rewrite DF, minus_IZR, <- !INR_IZR_INZ, LL, LT; reflexivity).
  assert (DNZ : IZR (f_dof (r_fit q)) <> 0) by (rewrite DF; apply not_0_IZR; lia).
  assert (MSE : r_mse q * IZR (f_dof (r_fit q)) = squares r L months tm g c).
  { destruct (ERR 0%nat ltac:(unfold nterms; lia)) as (_ & _ & X). destruct (X eq_refl eq_refl) as (st & _ & -> & _). rewrite RS. field. exact DNZ. }
  split; [exact ND|]. split; [lia|]. split; [intros c'; rewrite SC, SM; apply MIN|]. split.
  { intros c' H l Hl. rewrite SC, SM in H. destruct (posn_in l L Hl) as (P1 & P2). specialize (UNI _ H (posn l L) ltac:(lia)). cbv beta in UNI. rewrite P2 in UNI. rewrite UNI. reflexivity. }
  split.
  { exists (fun l l' => f_cov (r_fit q) (posn l L) (posn l' L)). split.
    - intros l l' Hl Hl'. destruct (posn_in l L Hl) as (P1 & P2). destruct (posn_in l' L Hl') as (P3 & P4). specialize (CV (posn l L) (posn l' L) ltac:(lia) ltac:(lia)).
      replace (if String.eqb l l' then 1 else 0) with (if (posn l L =? posn l' L)%nat then 1 else 0) by (destruct (String.eqb_spec l l') as [->|N]; [rewrite Nat.eqb_refl; reflexivity|destruct (Nat.eqb_spec (posn l L) (posn l' L)) as [E|]; [exfalso; apply N; rewrite <- P2, <- P4, E; reflexivity|reflexivity]]).
      rewrite <- CV, (Sum_rsum _ L EmptyString), LL. apply rsum_ext. intros k Hk. rewrite posn_nth by (try exact ND; lia). f_equal. unfold normal. rewrite (Sum_rsum _ months 0%Z), LT. apply rsum_ext. intros i Hi.
      assert (B : forall a, (a < nterms ORDER cs Ts)%nat -> basis ORDER r cs Ts t a i = meaning r (nth a L EmptyString) (tm (nth i months 0%Z))).
      { intros a Ha. unfold basis. rewrite <- (SE (fun k => (fun l => if (posn l L =? a)%nat then 1 else 0) (nth k L EmptyString)) (fun k => if (k =? a)%nat then 1 else 0) i); [|intros b Hb; cbv beta; rewrite posn_nth by (try exact ND; lia); reflexivity|lia].
        rewrite <- (SG (fun l => if (posn l L =? a)%nat then 1 else 0) i) by lia. unfold combined. rewrite (Sum_rsum _ L EmptyString), LL. rewrite (rsum_ext _ _ (fun k => delta k a * meaning r (nth k L EmptyString) (nth i t 0))).
        2:{ intros b Hb. rewrite posn_nth by (try exact ND; lia). reflexivity. }
        rewrite rsum_delta by exact Ha. unfold t. rewrite (nth_map tm months i 0%Z) by exact Hi. reflexivity. }
      rewrite !B by lia. rewrite P2. unfold weights. ring.
    - intros l Hl. destruct (posn_in l L Hl) as (P1 & P2). destruct (ERR (posn l L) ltac:(lia)) as (_ & _ & X). destruct (X eq_refl eq_refl) as (st & _ & EM & ES & EE). change (at_ (r_error q) (posn l L)) with (val (r_error q) (posn l L)). rewrite EE, ES.
      unfold t_star. destruct (Req_EM_T 0 0); [|contradiction]. destruct (Req_EM_T (95 / 100) 0); [exfalso; lra|]. rewrite EM, RS, DN, DF. rewrite LL, LT. reflexivity. }
  destruct (core_ok _ _ _ _ _ _ _ FC) as (s' & C' & (_ & R2A) & (LK & AI & BI)). cbv zeta in R2A, LK, AI, BI. rewrite design_length, <- LL in AI, BI.
  assert (W : rsum (List.length t) (fun i => f_w (r_fit q) i * at_ (f_residual (r_fit q)) i ^ 2) = squares r L months tm g c).
  { rewrite <- RS. apply rsum_ext. intros i Hi. destruct (core_weights _ _ _ _ _ _ _ C Logic.I i Hi) as (-> & _). unfold weights, val, at_. ring. }
  split; [exact MSE|]. rewrite W, ln_1, LT in LK. unfold at_. cbn [nth]. split; [rewrite AI, LK, LT; replace (INR (List.length L) + 1 + 1) with (INR (List.length L) + 2) by ring; replace (INR (List.length months) - (INR (List.length L) + 1) - 1) with (INR (List.length months) - INR (List.length L) - 2) by ring; lra|].
  split; [rewrite BI, LK, LT; lra|]. rewrite R2A, DN, LT. f_equal. f_equal. f_equal.
  - rewrite <- RS, LT. apply rsum_ext. intros i Hi. unfold val, at_. ring.
  - rewrite (Sum_rsum _ months 0%Z). apply rsum_ext. intros i Hi. unfold d at 1 3, at_. rewrite (nth_map g months i 0%Z) by exact Hi. unfold mean_, sum_, d. rewrite map_length. unfold Sum. ring.
Qed.

(** ** C104: the programs *)
Lemma sortedZ_eq : forall l l' : list Z, StronglySorted Z.lt l -> StronglySorted Z.lt l' -> (forall x, In x l <-> In x l') -> l = l'.
Proof.
  induction l as [|a l IH]; intros l' S S' H. { destruct l' as [|b l']; [reflexivity|]. destruct (proj2 (H b) (or_introl eq_refl)). }
  destruct l' as [|b l']; [destruct (proj1 (H a) (or_introl eq_refl))|]. inversion S; subst. inversion S'; subst. rewrite Forall_forall in *. assert (a = b).
  { destruct (proj1 (H a) (or_introl eq_refl)) as [|Ha]; [auto|]. destruct (proj2 (H b) (or_introl eq_refl)) as [|Hb]; [auto|]. apply H3 in Hb. apply H5 in Ha. lia. }
  subst b. f_equal. apply IH; [assumption|assumption|]. intros x. split; intros Hx.
  - destruct (proj1 (H x) (or_intror Hx)) as [<-|]; [|assumption]. apply H3 in Hx. lia.
  - destruct (proj2 (H x) (or_intror Hx)) as [<-|]; [|assumption]. apply H5 in Hx. lia.
Qed.
Lemma months_unique START END MISSING months : months_are START END MISSING months -> months_of START END MISSING = months.
Proof. intros (S & H). apply sortedZ_eq; [apply months_sorted|exact S|]. intros x. rewrite months_in, H. reflexivity. Qed.

Lemma coef_in labels first last cs k : (k < List.length labels)%nat ->
  In (mkomap (nth k labels EmptyString) (first k) (last k) (fun i j => at_ (c_beta (at_cell cs i j)) k) (Some (fun i j => at_ (c_error (at_cell cs i j)) k)) unmasked) (coef_maps labels first last cs).
Proof. intros H. unfold coef_maps. apply in_map_iff. exists k. split; [reflexivity|apply in_seq; lia]. Qed.

(** everything a user reads off the output files of regress_grace_maps, in one cell: [file l x e] says that the file with label l shows x with error e there *)
Definition file (out : list omap) (l : string) (a b : Z) (i j : nat) (x : R) : Prop := exists f, In f out /\ o_name f = l /\ o_first f = a /\ o_last f = b /\ o_data f i j = x /\ o_mask f i j = false.
Definition file_error (out : list omap) (l : string) (i j : nat) (e : R) : Prop := exists f g, In f out /\ o_name f = l /\ o_error f = Some g /\ g i j = e.

Lemma regress_run erf tppf maps order START END MISSING ORDER CYCLES months nlat nlon fill tm v out :
  months_are START END MISSING months -> monthly maps order months nlat nlon fill tm v ->
  regress_grace_maps erf tppf maps order START END MISSING ORDER CYCLES = Ok out ->
  (ORDER <= 2)%nat /\ exists cs, out = (coef_maps (all_labels ORDER CYCLES) (fun _ => START) (fun _ => END) cs ++ amp_maps (1 + ORDER) "_AMPL" START END (flat_map amps_of CYCLES) cs ++ stat_maps (nth ORDER (all_labels ORDER CYCLES) EmptyString) START END cs)%list /\
  forall i j, (i < nlat)%nat -> (j < nlon)%nat -> regress_cell erf tppf (map tm months) ORDER CYCLES (map (fun m => stored fill (v m i j)) months) = Ok (at_cell cs i j).
Proof.
  intros HM HI E. unfold regress_grace_maps in E. rewrite (months_unique _ _ _ _ HM) in E. destruct (read_ok maps order months nlat nlon fill tm v (proj1 HM) HI) as (g & EG & RG & CG & TG & _ & SG). rewrite EG in E. cbn [bind] in E.
  destruct (Nat.ltb_spec 2 ORDER); [discriminate E|]. split; [lia|]. fold (all_labels ORDER CYCLES) in E. destruct (all_cells g _) as [cs|] eqn:EC in E; cbn [bind] in E; [|discriminate E]. exists cs. split; [congruence|].
  intros i j Hi Hj. rewrite <- TG. apply (cells_ok g _ cs EC i j); [lia|lia|]. apply SG; assumption.
Qed.
Theorem C104_fit : forall erf tppf maps order START END MISSING ORDER CYCLES months nlat nlon fill tm v out,
  months_are START END MISSING months -> monthly maps order months nlat nlon fill tm v -> in_order CYCLES -> (0 < nlat)%nat -> (0 < nlon)%nat ->
  regress_grace_maps erf tppf maps order START END MISSING ORDER CYCLES = Ok out ->
  exists labels, NoDup labels /\ (forall l, In l labels <-> asked ORDER CYCLES l) /\ (List.length labels < List.length months)%nat /\
  forall i j, (i < nlat)%nat -> (j < nlon)%nat -> let r := mean_time months tm in let g := fun m => stored fill (v m i j) in
  exists c : string -> R, (forall l, In l labels -> file out l START END i j (c l)) /\
    (forall c', squares r labels months tm g c <= squares r labels months tm g c') /\
    (forall c', squares r labels months tm g c' = squares r labels months tm g c -> forall l, In l labels -> c' l = c l).
Proof.
  intros erf tppf maps order START END MISSING ORDER CYCLES months nlat nlon fill tm v out HM HI HA Hn Hm E.
  destruct (regress_run _ _ _ _ _ _ _ _ _ _ _ _ _ _ _ _ HM HI E) as (HO & cs & -> & CF). exists (all_labels ORDER CYCLES).
  destruct (cell_regress _ _ _ _ _ _ _ _ HO HA (CF 0%nat 0%nat Hn Hm)) as (ND & LT & _). split; [exact ND|]. split; [intros l; apply labels_asked; exact HO|]. split; [exact LT|]. intros i j Hi Hj. cbv zeta.
  destruct (cell_regress _ _ _ _ _ _ _ _ HO HA (CF i j Hi Hj)) as (_ & _ & MIN & UNI & _). eexists. split; [|split; [exact MIN|exact UNI]]. intros l Hl. destruct (posn_in l _ Hl) as (P1 & P2).
  eexists. split; [apply in_or_app; left; apply (coef_in _ (fun _ => START) (fun _ => END) cs _ P1)|]. cbn [o_name o_first o_last o_data o_mask]. rewrite P2. repeat split; reflexivity.
Qed.
Print Assumptions C104_fit.
(** a cell whose series is exactly a combination of the functions asked for: every map shows the coefficient its label names *)
Theorem C104_exact : forall erf tppf maps order START END MISSING ORDER CYCLES months nlat nlon fill tm v out i j c,
  months_are START END MISSING months -> monthly maps order months nlat nlon fill tm v -> in_order CYCLES -> (i < nlat)%nat -> (j < nlon)%nat ->
  regress_grace_maps erf tppf maps order START END MISSING ORDER CYCLES = Ok out ->
  (exists labels, NoDup labels /\ (forall l, In l labels <-> asked ORDER CYCLES l) /\ forall m, In m months -> v m i j = Some (combined (mean_time months tm) labels c (tm m))) ->
  forall l, asked ORDER CYCLES l -> file out l START END i j (c l).
Proof.
  intros erf tppf maps order START END MISSING ORDER CYCLES months nlat nlon fill tm v out i j c HM HI HA Hi Hj E (L & ND & HL & HV) l Hl.
  destruct (C104_fit _ _ _ _ _ _ _ _ _ _ _ _ _ _ _ _ HM HI HA ltac:(lia) ltac:(lia) E) as (L' & ND' & HL' & _ & H). destruct (H i j Hi Hj) as (c' & F & MIN & UNI). cbv zeta in MIN, UNI.
  assert (P : Permutation L L') by (apply NoDup_Permutation; [exact ND|exact ND'|]; intros x; rewrite HL, HL'; reflexivity).
  assert (CB : forall x, combined (mean_time months tm) L c x = combined (mean_time months tm) L' c x). { intros x. unfold combined, Sum. clear - P. induction P; cbn [map fold_right]; [reflexivity|rewrite IHP; reflexivity|ring|congruence]. }
  assert (Z : squares (mean_time months tm) L' months tm (fun m => stored fill (v m i j)) c = 0).
  { unfold squares. enough (G : forall l0, (forall m, In m l0 -> In m months) -> Sum (map (fun m => (stored fill (v m i j) - combined (mean_time months tm) L' c (tm m)) ^ 2) l0) = 0) by (apply G; auto).
    induction l0 as [|a l0 IH]; intros HI0; [reflexivity|]. cbn [map Sum fold_right]. unfold Sum in IH. rewrite IH by (intros m Hm; apply HI0; right; exact Hm). rewrite (HV a) by (apply HI0; left; reflexivity). cbn [stored]. rewrite CB. ring. }
  assert (NN : 0 <= squares (mean_time months tm) L' months tm (fun m => stored fill (v m i j)) c').
  { unfold squares. generalize months at 2. induction months0 as [|a l0 IH]; cbn [map Sum fold_right]; [lra|]. unfold Sum in IH. match goal with |- 0 <= ?a ^ 2 + _ => pose proof (pow2_ge_0 a) end. lra. }
  rewrite <- HL' in *. rewrite (UNI c) by (try exact Hl; specialize (MIN c); lra). apply HL' in Hl. apply F. apply HL'. exact Hl.
Qed.
Print Assumptions C104_exact.
(** errors (95 percent: Student quantile times standard error) and the maps of the fit statistics: S is the least sum of squares, n the number of months, p that of coefficients *)
Theorem C104_statistics : forall erf tppf maps order START END MISSING ORDER CYCLES months nlat nlon fill tm v out i j,
  months_are START END MISSING months -> monthly maps order months nlat nlon fill tm v -> in_order CYCLES -> (i < nlat)%nat -> (j < nlon)%nat ->
  regress_grace_maps erf tppf maps order START END MISSING ORDER CYCLES = Ok out ->
  exists labels (c : string -> R) (cov : string -> string -> R) last, NoDup labels /\ (forall l, In l labels <-> asked ORDER CYCLES l) /\ (forall l, In l labels -> file out l START END i j (c l)) /\
  last = nth ORDER ["x0"; "x1"; "x2"]%string EmptyString /\
  let r := mean_time months tm in let g := fun m => stored fill (v m i j) in let n := INR (List.length months) in let p := INR (List.length labels) in let S := squares r labels months tm g c in
  (forall c', S <= squares r labels months tm g c') /\
  (forall l l', In l labels -> In l' labels -> Sum (map (fun k => Sum (map (fun m => meaning r l (tm m) * meaning r k (tm m)) months) * cov k l') labels) = if String.eqb l l' then 1 else 0) /\
  (forall l, In l labels -> file_error out l i j (tppf (975 / 1000) (Z.of_nat (List.length months) - Z.of_nat (List.length labels))%Z * sqrt (S / (n - p) * cov l l))) /\
  file out ("SSE_" ++ last)%string START END i j S /\
  file out ("AIC_" ++ last)%string START END i j (n * (ln (2 * PI) + 1 - ln n + ln S) + 2 * (p + 1) + 2 * (p + 1) * (p + 2) / (n - p - 2)) /\
  file out ("BIC_" ++ last)%string START END i j (n * (ln (2 * PI) + 1 - ln n + ln S) + ln n * (p + 1)) /\
  file out ("R2Adj_" ++ last)%string START END i j (1 - S / Sum (map (fun m => (g m - Sum (map g months) / n) ^ 2) months) * ((n - 1) / (n - p))).
Proof.
  intros erf tppf maps order START END MISSING ORDER CYCLES months nlat nlon fill tm v out i j HM HI HA Hi Hj E.
  destruct (regress_run _ _ _ _ _ _ _ _ _ _ _ _ _ _ _ _ HM HI E) as (HO & cs & -> & CF). destruct (cell_regress _ _ _ _ _ _ _ _ HO HA (CF i j Hi Hj)) as (ND & LT & MIN & UNI & (cov & CV & CE) & S0 & S1 & S2 & S3).
  exists (all_labels ORDER CYCLES), (fun l => at_ (c_beta (at_cell cs i j)) (posn l (all_labels ORDER CYCLES))), cov, (nth ORDER ["x0"; "x1"; "x2"]%string EmptyString).
  assert (LST : nth ORDER (all_labels ORDER CYCLES) EmptyString = nth ORDER ["x0"; "x1"; "x2"]%string EmptyString) by (unfold all_labels; destruct ORDER as [|[|[|k]]]; [reflexivity..|lia]).
  split; [exact ND|]. split; [intros l; apply labels_asked; exact HO|]. split.
  { intros l Hl. destruct (posn_in l _ Hl) as (P1 & P2). eexists. split; [apply in_or_app; left; apply (coef_in _ (fun _ => START) (fun _ => END) cs _ P1)|]. cbn [o_name o_first o_last o_data o_mask]. rewrite P2. repeat split; reflexivity. }
  split; [reflexivity|]. cbv zeta. split; [exact MIN|]. split; [exact CV|]. split.
  { intros l Hl. destruct (posn_in l _ Hl) as (P1 & P2). eexists. eexists. split; [apply in_or_app; left; apply (coef_in _ (fun _ => START) (fun _ => END) cs _ P1)|]. cbn [o_name o_error]. split; [exact P2|]. split; [reflexivity|]. cbv beta. rewrite (CE l Hl). replace (1 - (1 - 95 / 100) / 2) with (975 / 1000) by field. reflexivity. }
  assert (ST : forall k nm x, In (k, nm) [(0%nat, "SSE"); (1%nat, "AIC"); (2%nat, "BIC"); (3%nat, "R2Adj")]%string -> at_ (c_stats (at_cell cs i j)) k = x ->
    file (coef_maps (all_labels ORDER CYCLES) (fun _ => START) (fun _ => END) cs ++ amp_maps (1 + ORDER) "_AMPL" START END (flat_map amps_of CYCLES) cs ++ stat_maps (nth ORDER (all_labels ORDER CYCLES) EmptyString) START END cs)%list
      (nm ++ "_" ++ nth ORDER ["x0"; "x1"; "x2"] EmptyString)%string START END i j x).
  { intros k nm x Hk Hx. unfold file. eexists. split; [apply in_or_app; right; apply in_or_app; right; unfold stat_maps; apply in_map_iff; exists (k, nm); split; [reflexivity|exact Hk]|]. cbn [o_name o_first o_last o_data o_mask fst snd]. rewrite LST. repeat split; try reflexivity. exact Hx. }
  split; [|split; [|split]]; [refine (ST 0%nat "SSE"%string _ _ S0)|refine (ST 1%nat "AIC"%string _ _ S1)|refine (ST 2%nat "BIC"%string _ _ S2)|refine (ST 3%nat "R2Adj"%string _ _ S3)]; cbn [In]; auto.
Qed.
Print Assumptions C104_statistics.
(** ** amplitude and phase; the labels of the sine and cosine coefficients they belong to.  For all lists of periods *)
Definition tide_pairs (n : string) : list (string * (string * string)) := [(n ++ "GRC", (n ++ "SGRC", n ++ "CGRC")); (n ++ "GFO", (n ++ "SGFO", n ++ "CGFO"))]%string.
Definition wanted (CYCLES : list R) (p : string * (string * string)) : Prop :=
  (In (1 / 2) CYCLES /\ p = ("SEMI", ("SS", "SC"))%string) \/ (In 1 CYCLES /\ p = ("ANN", ("AS", "AC"))%string) \/ exists c nd, In c CYCLES /\ In nd alias_days /\ stands_for c (snd nd) /\ In p (tide_pairs (fst nd)).
Definition pairs_of (c : R) : list (string * (string * string)) :=
  ((if is_half c then [("SEMI", ("SS", "SC"))] else if is_one c then [("ANN", ("AS", "AC"))] else [])%string ++ flat_map (fun np => tide_pairs (fst np)) (tides_of c))%list.
Definition both (ps : list (string * (string * string))) : list string := flat_map (fun p => [fst (snd p); snd (snd p)]) ps.
Lemma amps_pairs CYCLES : flat_map amps_of CYCLES = map fst (flat_map pairs_of CYCLES) /\ flat_map labels_of CYCLES = both (flat_map pairs_of CYCLES).
Proof.
  induction CYCLES as [|c l (A & B)]; [split; reflexivity|]. cbn [flat_map]. unfold both in *. rewrite A, B, map_app, flat_map_app.
  assert (T : amps_of c = map fst (pairs_of c) /\ labels_of c = flat_map (fun p => [fst (snd p); snd (snd p)]) (pairs_of c)); [|destruct T as (-> & ->); split; reflexivity].
  unfold amps_of, labels_of, pairs_of. rewrite map_app, flat_map_app. assert (T2 : forall l, flat_map (fun np : string * R => let n := fst np in [n ++ "GRC"; n ++ "GFO"]%string) l = map fst (flat_map (fun np : string * R => tide_pairs (fst np)) l) /\
    flat_map (fun np : string * R => let n := fst np in [n ++ "SGRC"; n ++ "CGRC"; n ++ "SGFO"; n ++ "CGFO"]%string) l = flat_map (fun p => [fst (snd p); snd (snd p)]) (flat_map (fun np : string * R => tide_pairs (fst np)) l)).
  { cbv zeta. induction l0 as [|x l0 (I1 & I2)]; [split; reflexivity|]. cbn [flat_map]. rewrite I1, I2, map_app, flat_map_app. split; reflexivity. }
  cbv zeta in *. destruct (T2 (tides_of c)) as (-> & ->). destruct (is_half c), (is_one c); split; reflexivity.
Qed.
Lemma wanted_in CYCLES p : wanted CYCLES p <-> In p (flat_map pairs_of CYCLES).
Proof.
  unfold wanted. rewrite in_flat_map. unfold pairs_of, is_half, is_one. split.
  - intros [(H & ->)|[(H & ->)|(c & nd & H1 & H2 & H3 & H4)]].
    + exists (1 / 2). split; [exact H|]. destruct (Req_EM_T (1 / 2) (1 / 2)); [left; reflexivity|contradiction].
    + exists 1. split; [exact H|]. destruct (Req_EM_T 1 (1 / 2)); [exfalso; lra|]. destruct (Req_EM_T 1 1); [left; reflexivity|contradiction].
    + exists c. split; [exact H1|]. apply in_or_app. right. apply in_flat_map. exists nd. split; [apply tides_in; auto|exact H4].
  - intros (c & Hc & H). apply in_app_iff in H. destruct H as [H|H].
    + destruct (Req_EM_T c (1 / 2)) as [->|]; [left; destruct H as [<-|[]]; auto|]. destruct (Req_EM_T c 1) as [->|]; [right; left; destruct H as [<-|[]]; auto|destruct H].
    + apply in_flat_map in H. destruct H as (nd & Hn & H). apply tides_in in Hn. right; right. exists c, nd. tauto.
Qed.
Lemma pair_nth (ps : list (string * (string * string))) n d : (n < List.length ps)%nat ->
  nth (2 * n) (both ps) EmptyString = fst (snd (nth n ps d)) /\ nth (2 * n + 1) (both ps) EmptyString = snd (snd (nth n ps d)) /\
  (2 * n + 1 < List.length (both ps))%nat.
Proof.
  unfold both. revert n. induction ps as [|p ps IH]; intros n H; [cbn in H; lia|]. destruct n as [|n]; [cbn; repeat split; lia|]. destruct (IH n ltac:(cbn in H; lia)) as (A & B & C). replace (2 * S n)%nat with (S (S (2 * n))) by lia. cbn [flat_map app nth Nat.add List.length]. repeat split; [exact A|exact B|lia].
Qed.
(** the phase is in degrees, between 0 and 360; the errors are those of first order propagation *)
Definition wave (A ph s c : R) : Prop := 0 <= A /\ 0 <= ph < 360 /\ forall x, A * sin (x + ph * PI / 180) = s * sin x + c * cos x.
Definition wave_errors (s c es ec : R) (ea ep : R) : Prop :=
  (forall dAs dAc, derivable_pt_lim (fun x => sqrt (x ^ 2 + c ^ 2)) s dAs -> derivable_pt_lim (fun x => sqrt (s ^ 2 + x ^ 2)) c dAc -> ea = sqrt ((es * dAs) ^ 2 + (ec * dAc) ^ 2)) /\
  (forall dPs dPc, s <> 0 -> derivable_pt_lim (fun x => 180 / PI * atan (c / x)) s dPs -> derivable_pt_lim (fun x => 180 / PI * atan (x / s)) c dPc -> ep = sqrt ((es * dPs) ^ 2 + (ec * dPc) ^ 2)).
Lemma phase_wave s c : let A := fst (amplitude s c) in let p := snd (amplitude s c) in wave A (if Rlt_dec p 0 then p + 360 else p) s c.
Proof.
  cbv zeta. destruct (PropTs.C55_amplitude s c) as (A0 & PH & _ & _ & _ & W). unfold wave. split; [exact A0|]. split; [destruct (Rlt_dec _ 0); lra|]. intros x. rewrite <- W. destruct (Rlt_dec _ 0); [|reflexivity].
  replace (x + (snd (amplitude s c) + 360) * PI / 180) with (x + snd (amplitude s c) * PI / 180 + 2 * PI) by field. rewrite sin_2PI_shift || rewrite (sin_plus _ (2 * PI)), sin_2PI, cos_2PI; ring.
Qed.
Lemma d_amp s c : 0 < s ^ 2 + c ^ 2 -> derivable_pt_lim (fun x => sqrt (x ^ 2 + c ^ 2)) s (s / sqrt (s ^ 2 + c ^ 2)).
Proof.
  intros H. replace (s / sqrt (s ^ 2 + c ^ 2)) with (/ (2 * sqrt (s ^ 2 + c ^ 2)) * (INR 2 * s ^ pred 2 + 0)) by (cbn [INR pred pow]; field; apply Rgt_not_eq; apply sqrt_lt_R0; exact H).
  apply (derivable_pt_lim_comp (fun x => x ^ 2 + c ^ 2) sqrt).
  - apply (derivable_pt_lim_plus (fun x => x ^ 2) (fun _ => c ^ 2)); [apply derivable_pt_lim_pow|apply derivable_pt_lim_const].
  - apply derivable_pt_lim_sqrt. exact H.
Qed.
Lemma lim_ext f g x l : (forall y, f y = g y) -> derivable_pt_lim f x l -> derivable_pt_lim g x l.
Proof. intros E H e He. destruct (H e He) as (d & Hd). exists d. intros h Hh Hl. rewrite <- !E. apply Hd; assumption. Qed.
Lemma d_phase_s s c : s <> 0 -> derivable_pt_lim (fun x => 180 / PI * atan (c / x)) s (- (180 / PI * (c / (s ^ 2 + c ^ 2)))).
Proof.
  intros H. assert (0 < s ^ 2) by nra. pose proof (pow2_ge_0 c). replace (- (180 / PI * (c / (s ^ 2 + c ^ 2)))) with (180 / PI * (/ (1 + (c / s) ^ 2) * ((0 * s - 1 * c) / s ^ 2))) by (field; repeat split; try nra; apply PI_neq0).
  apply (derivable_pt_lim_scal (fun x => atan (c / x))). apply (derivable_pt_lim_comp (fun x => c / x) atan).
  - replace (s ^ 2) with (Rsqr s) by (unfold Rsqr; ring). apply (derivable_pt_lim_div (fun _ => c) (fun x => x)); [apply derivable_pt_lim_const|apply derivable_pt_lim_id|exact H].
  - apply derivable_pt_lim_atan.
Qed.
Lemma d_phase_c s c : s <> 0 -> derivable_pt_lim (fun x => 180 / PI * atan (x / s)) c (180 / PI * (s / (s ^ 2 + c ^ 2))).
Proof.
  intros H. assert (0 < s ^ 2) by nra. pose proof (pow2_ge_0 c). replace (180 / PI * (s / (s ^ 2 + c ^ 2))) with (180 / PI * (/ (1 + (c / s) ^ 2) * / s)) by (field; repeat split; try nra; apply PI_neq0).
  apply (derivable_pt_lim_scal (fun x => atan (x / s))). apply (derivable_pt_lim_comp (fun x => x / s) atan).
  - apply (lim_ext (fun x => / s * x)); [intros y; field; exact H|]. pose proof (derivable_pt_lim_scal (fun x => x) (/ s) c 1 (derivable_pt_lim_id c)) as D. rewrite Rmult_1_r in D. exact D.
  - apply derivable_pt_lim_atan.
Qed.
Lemma errors_ok s c es ec : let A := fst (amplitude s c) in A <> 0 -> wave_errors s c es ec (sqrt ((es * s / A) ^ 2 + (ec * c / A) ^ 2)) (180 / PI * sqrt ((es * c / A ^ 2) ^ 2 + (ec * s / A ^ 2) ^ 2)).
Proof.
  cbv zeta. unfold amplitude. cbn [fst]. intros HA. pose proof (pow2_ge_0 s). pose proof (pow2_ge_0 c). assert (P : 0 < s ^ 2 + c ^ 2). { destruct (Req_dec (s ^ 2 + c ^ 2) 0) as [E|]; [rewrite E, sqrt_0 in HA; contradiction|lra]. }
  split.
  - intros d1 d2 H1 H2. rewrite (uniqueness_limite _ _ _ _ H1 (d_amp s c P)). assert (d2 = c / sqrt (s ^ 2 + c ^ 2)) as ->.
    { apply (uniqueness_limite _ _ _ _ H2). rewrite (Rplus_comm (s ^ 2)). apply (lim_ext (fun x => sqrt (x ^ 2 + s ^ 2))); [intros y; rewrite Rplus_comm; reflexivity|]. apply d_amp. lra. }
    f_equal. f_equal; f_equal; field; exact HA.
  - intros d1 d2 H1 H2 H3. rewrite (uniqueness_limite _ _ _ _ H2 (d_phase_s s c H1)), (uniqueness_limite _ _ _ _ H3 (d_phase_c s c H1)). replace (sqrt (s ^ 2 + c ^ 2) ^ 2) with (s ^ 2 + c ^ 2) by (rewrite pow2_sqrt; lra).
    pose proof PI_RGT_0. replace (180 / PI) with (sqrt ((180 / PI) ^ 2)) at 1 by (apply sqrt_pow2; apply Rlt_le; apply Rdiv_lt_0_compat; lra). rewrite <- sqrt_mult; [|apply pow2_ge_0|pose proof (pow2_ge_0 (es * c / (s ^ 2 + c ^ 2))); pose proof (pow2_ge_0 (ec * s / (s ^ 2 + c ^ 2))); lra].
    f_equal. field. split; [lra|apply PI_neq0].
Qed.
Theorem C104_amplitude : forall erf tppf maps order START END MISSING ORDER CYCLES months nlat nlon fill tm v out i j flag sl cl,
  months_are START END MISSING months -> monthly maps order months nlat nlon fill tm v -> (i < nlat)%nat -> (j < nlon)%nat ->
  regress_grace_maps erf tppf maps order START END MISSING ORDER CYCLES = Ok out -> wanted CYCLES (flag, (sl, cl)) ->
  exists s c A ph es ec ea ep, file out sl START END i j s /\ file out cl START END i j c /\ file out (flag ++ "_AMPL")%string START END i j A /\ file out (flag ++ "_PHASE")%string START END i j ph /\
    wave A ph s c /\ file_error out sl i j es /\ file_error out cl i j ec /\ file_error out (flag ++ "_AMPL")%string i j ea /\ file_error out (flag ++ "_PHASE")%string i j ep /\ (A <> 0 -> wave_errors s c es ec ea ep).
Proof.
  intros erf tppf maps order START END MISSING ORDER CYCLES months nlat nlon fill tm v out i j flag sl cl HM HI Hi Hj E HW.
  destruct (regress_run _ _ _ _ _ _ _ _ _ _ _ _ _ _ _ _ HM HI E) as (HO & cs & -> & _). apply wanted_in in HW. destruct (amps_pairs CYCLES) as (AP & LP). set (ps := flat_map pairs_of CYCLES) in *.
  apply (In_nth _ _ (EmptyString, (EmptyString, EmptyString))) in HW. destruct HW as (n & Hn & EN). destruct (pair_nth ps n (EmptyString, (EmptyString, EmptyString)) Hn) as (N1 & N2 & N3). rewrite EN in N1, N2. cbn [fst snd] in N1, N2. unfold all_labels. rewrite AP, LP.
  assert (LPo : List.length (poly_labels ORDER) = (1 + ORDER)%nat) by (unfold poly_labels; rewrite map_length, seq_length; lia).
  set (labels := (poly_labels ORDER ++ both ps)%list). set (x := at_cell cs i j). set (j0 := (1 + ORDER + 2 * n)%nat).
  assert (K1 : (j0 < List.length labels)%nat /\ nth j0 labels EmptyString = sl). { unfold labels, j0. rewrite app_length, app_nth2 by lia. split; [lia|]. rewrite <- N1. f_equal. lia. }
  assert (K2 : (j0 + 1 < List.length labels)%nat /\ nth (j0 + 1) labels EmptyString = cl). { unfold labels, j0. rewrite app_length, app_nth2 by lia. split; [lia|]. rewrite <- N2. f_equal. lia. }
  assert (NA : nth n (map fst ps) EmptyString = flag). { rewrite (nth_map fst ps n (EmptyString, (EmptyString, EmptyString))) by exact Hn. rewrite EN. reflexivity. }
  assert (LA : (n < List.length (map fst ps))%nat) by (rewrite map_length; exact Hn).
  set (s := at_ (c_beta x) j0). set (c := at_ (c_beta x) (j0 + 1)). set (es := at_ (c_error x) j0). set (ec := at_ (c_error x) (j0 + 1)).
  exists s, c, (fst (amplitude s c)), (let p := snd (amplitude s c) in if Rlt_dec p 0 then p + 360 else p), es, ec. eexists. eexists.
  assert (CI : forall k, (k < List.length labels)%nat -> file (coef_maps labels (fun _ => START) (fun _ => END) cs ++ amp_maps (1 + ORDER) "_AMPL" START END (map fst ps) cs ++ stat_maps (nth ORDER labels EmptyString) START END cs) (nth k labels EmptyString) START END i j (at_ (c_beta x) k) /\
    file_error (coef_maps labels (fun _ => START) (fun _ => END) cs ++ amp_maps (1 + ORDER) "_AMPL" START END (map fst ps) cs ++ stat_maps (nth ORDER labels EmptyString) START END cs) (nth k labels EmptyString) i j (at_ (c_error x) k)).
  { intros k Hk. split; [eexists|eexists; eexists]; (split; [apply in_or_app; left; apply (coef_in _ (fun _ => START) (fun _ => END) cs _ Hk)|]); cbn [o_name o_first o_last o_data o_mask o_error]; repeat split; reflexivity. }
  destruct K1 as (K1 & K1'). destruct K2 as (K2 & K2'). destruct (CI _ K1) as (F1 & F2). destruct (CI _ K2) as (F3 & F4). rewrite K1' in F1, F2. rewrite K2' in F3, F4.
  split; [exact F1|]. split; [exact F3|]. split; [|split; [|split; [apply phase_wave|split; [exact F2|split; [exact F4|split; [|split]]]]]].
  - eexists. split; [apply in_or_app; right; apply in_or_app; left; unfold amp_maps; apply in_flat_map; exists n; split; [apply in_seq; lia|left; reflexivity]|]. cbn [o_name o_first o_last o_data o_mask]. rewrite NA. repeat split; reflexivity.
  - eexists. split; [apply in_or_app; right; apply in_or_app; left; unfold amp_maps; apply in_flat_map; exists n; split; [apply in_seq; lia|right; left; reflexivity]|]. cbn [o_name o_first o_last o_data o_mask]. rewrite NA. repeat split; reflexivity.
  - eexists. eexists. split; [apply in_or_app; right; apply in_or_app; left; unfold amp_maps; apply in_flat_map; exists n; split; [apply in_seq; lia|left; reflexivity]|]. cbn [o_name o_error]. rewrite NA. repeat split; reflexivity.
  - eexists. eexists. split; [apply in_or_app; right; apply in_or_app; left; unfold amp_maps; apply in_flat_map; exists n; split; [apply in_seq; lia|right; left; reflexivity]|]. cbn [o_name o_error]. rewrite NA. repeat split; reflexivity.
  - intros HA. apply (errors_ok s c es ec HA).
Qed.
Print Assumptions C104_amplitude.
