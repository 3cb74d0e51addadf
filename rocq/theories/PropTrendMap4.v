(** C105, second part: names of the files, masked cells, example. *)
From Coq Require Import Reals Lra String List Permutation Sorted.
From Verif Require Import Base DestripeModel LinAlg RegressModel RegressProofs PropRegress PropRegress2 PropPiecewise TsModel.
From Verif Require PropSlr PropSmooth SpatialModel SpatialSpec Arr HarmModel.
From Verif Require Import TrendMapModel PropTrendMap PropTrendMap2 PropTrendMap3.
Import SpatialModel(sp, sdata, smask, serr, slon, slat, stime, smonth, sfill, mksp, sfrom_list). Import SpatialSpec(seen, single_grid).
Import Arr(rows, cols, get). Import HarmModel(TArr, TScalar).
Close Scope Z_scope.
Open Scope R_scope.

(** what distinguishes the files of a run: label, first and last month *)
Definition file_name (f : omap) : string * (Z * Z) := (o_name f, (o_first f, o_last f)).
(** no two files of a run have the same name; the labels, and the months in the names *)
Theorem C105_names : forall erf tppf maps order START END BREAK MISSING CYCLES months nlat nlon fill tm v out,
  months_are START END MISSING months -> monthly maps order months nlat nlon fill tm v -> in_order CYCLES -> distinct CYCLES -> (0 < nlat)%nat -> (0 < nlon)%nat ->
  piecewise_grace_maps erf tppf maps order START END BREAK MISSING CYCLES = Ok out ->
  NoDup (map file_name out) /\
  forall n a b, In (n, (a, b)) (map file_name out) <->
    (n = "px1"%string /\ a = START /\ b = BREAK) \/ (n = "px1"%string /\ a = BREAK /\ b = END) \/
    (a = START /\ b = END /\ (n = "x0"%string \/ periodic CYCLES n \/ (exists flag sl cl, wanted CYCLES (flag, (sl, cl)) /\ (n = flag \/ n = flag ++ "_PHASE")%string) \/ In n (stat_names "px1"))).
Proof.
  intros erf tppf maps order START END BREAK MISSING CYCLES months nlat nlon fill tm v out HM HI HA HD Hn Hm E.
  destruct (C105_inner _ _ _ _ _ _ _ _ _ _ _ _ _ _ _ _ HM HI HA Hn Hm E) as (m1 & m2 & _ & _ & B1 & B2).
  destruct (piecewise_run _ _ _ _ _ _ _ _ _ _ _ _ _ _ _ _ HM HI E) as (k0 & cs & _ & _ & -> & _). clear k0.
  set (w := fun l : string => (l, (START, END))). set (L := flat_map labels_of CYCLES).
  assert (N1 : map file_name (coef_maps (["x0"; "px1"; "px1"]%string ++ L) (fun k => if (k =? 2)%nat then BREAK else START) (fun k => if (k =? 1)%nat then BREAK else END) cs) = (w "x0" :: ("px1", (START, BREAK)) :: ("px1", (BREAK, END)) :: map w L)%string).
  { unfold coef_maps. rewrite map_map. unfold file_name. cbn [o_name o_first o_last]. rewrite app_length. cbn [List.length Nat.add]. cbn [seq map]. cbn [Nat.eqb app nth]. do 3 f_equal. rewrite <- !seq_shift, !map_map. cbn [Nat.eqb app nth].
    clear. induction L as [|a l IH]; [reflexivity|]. cbn [List.length]. rewrite <- cons_seq, <- seq_shift. cbn [map nth]. f_equal. rewrite map_map. exact IH. }
  set (F := flat_map (fun p => [fst p; fst p ++ "_PHASE"]%string) (flat_map pairs_of CYCLES)).
  assert (SF : forall z : string, (z ++ "")%string = z) by (induction z as [|a z IH]; [reflexivity|cbn; rewrite IH; reflexivity]).
  assert (N2 : map file_name (amp_maps 3 "" START END (flat_map amps_of CYCLES) cs) = map w F).
  { unfold F, amp_maps. rewrite (proj1 (amps_pairs CYCLES)), map_length. generalize (flat_map pairs_of CYCLES). clear - SF. intros ps.
    transitivity (map w (flat_map (fun n => [nth n (map fst ps) EmptyString; nth n (map fst ps) EmptyString ++ "_PHASE"]%string) (seq 0 (List.length ps)))).
    - generalize (seq 0 (List.length ps)). induction l as [|k l IH]; [reflexivity|]. cbn [flat_map]. rewrite !map_app, IH. f_equal. unfold file_name, w. cbn [map o_name o_first o_last]. rewrite SF. reflexivity.
    - f_equal. induction ps as [|p ps IH]; [reflexivity|]. cbn [List.length]. rewrite <- cons_seq, <- seq_shift. cbn [flat_map map nth app]. f_equal. f_equal. rewrite <- IH. clear. generalize (seq 0 (List.length ps)). induction l as [|k l IH]; [reflexivity|]. cbn [map flat_map app]. rewrite IH. reflexivity. }
  assert (N3 : map file_name (stat_maps "px1" START END cs) = map w (stat_names "px1")) by reflexivity.
  rewrite !map_app, N1, N2, N3. split.
  - assert (NW : forall l, NoDup l -> NoDup (map w l)). { induction 1 as [|x l NI ND IH]; [constructor|]. cbn [map]. constructor; [|exact IH]. intros HX. apply in_map_iff in HX. destruct HX as (y & EY & HY). unfold w in EY. injection EY as ->. contradiction. }
    destruct (kinds_of CYCLES HA HD) as (ks & ND & B & EK).
    assert (EA : F = flat_map (fun k => nth k (amp_groups "") []) ks).
    { unfold F. rewrite EK. clear - SF. induction ks as [|k ks IH]; [reflexivity|]. cbn [flat_map]. rewrite flat_map_app, IH. f_equal. unfold amp_groups. set (f := fun g : list (string * (string * string)) => flat_map (fun p => [fst p ++ ""; fst p ++ "_PHASE"]%string) g). change (@nil string) with (f []). rewrite map_nth. unfold f. apply flat_map_ext. intros p. rewrite SF. reflexivity. }
    assert (B' : forall k, In k ks -> (k < List.length (amp_groups ""))%nat) by (intros k Hk; unfold amp_groups; rewrite map_length; auto).
    assert (IL : forall x, In x L -> In x (List.concat label_groups)). { intros x Hx. unfold L in Hx. rewrite (labels_of_kinds _ _ EK) in Hx. apply (in_groups _ ks); [intros k Hk; unfold label_groups; rewrite map_length; auto|exact Hx]. }
    assert (IF' : forall x, In x F -> In x (List.concat (amp_groups ""))) by (intros x Hx; rewrite EA in Hx; apply (in_groups _ _ _ B') in Hx; exact Hx).
    assert (NA : NoDup ("x0"%string :: L ++ F ++ stat_names "px1")).
    { constructor.
      - rewrite !in_app_iff. intros [HX|[HX|HX]]; [apply IL in HX|apply IF' in HX|]; refine (disjointb_ok _ ["x0"%string] _ "x0"%string HX (or_introl eq_refl)); vm_compute; reflexivity.
      - apply nodup_app; [apply rest_nodup; assumption|apply nodup_app; [rewrite EA; apply groups_nodup; [vm_compute; reflexivity|exact ND|exact B']|apply nodupb_ok; reflexivity|]|].
        + intros x H1 H2. apply IF' in H1. refine (disjointb_ok _ _ _ x H1 H2). vm_compute. reflexivity.
        + intros x H1 H2. apply IL in H1. apply in_app_iff in H2. destruct H2 as [H2|H2]; [apply IF' in H2|]; refine (disjointb_ok _ _ _ x H1 H2); vm_compute; reflexivity. }
    apply NW in NA. cbn [map] in NA. rewrite !map_app in NA. cbn [app].
    assert (NP : forall a b, (a, b) <> (START, END) -> ~ In ("px1"%string, (a, b)) (w "x0"%string :: map w L ++ map w F ++ map w (stat_names "px1"))).
    { intros a b NE HX. rewrite <- !map_app in HX. rewrite <- map_cons in HX. apply in_map_iff in HX. destruct HX as (y & EY & _). unfold w in EY. injection EY as _ -> ->. apply NE; reflexivity. }
    pose proof (NP START BREAK ltac:(intros X; injection X as X; lia)) as P1. pose proof (NP BREAK END ltac:(intros X; injection X as X; lia)) as P2. inversion NA as [|? ? NX NR]; subst.
    constructor; [intros [HX|[HX|HX]]; [unfold w in HX; discriminate HX..|contradiction]|]. constructor; [intros [HX|HX]; [injection HX as X1 X2; lia|apply P1; right; exact HX]|]. constructor; [intros HX; apply P2; right; exact HX|exact NR].
  - intros n a b. cbn [app In]. rewrite !in_app_iff.
    assert (WI : forall l, In (n, (a, b)) (map w l) <-> a = START /\ b = END /\ In n l).
    { intros l. rewrite in_map_iff. unfold w. split; [intros (y & EY & HY); injection EY as -> <- <-; auto|intros (-> & -> & H); exists n; auto]. }
    rewrite !WI. assert (FE : In n F <-> exists flag sl cl, wanted CYCLES (flag, (sl, cl)) /\ (n = flag \/ n = flag ++ "_PHASE")%string).
    { unfold F. rewrite in_flat_map. split.
      + intros ((flag & sl & cl) & Hp & Hq). exists flag, sl, cl. split; [apply wanted_in; exact Hp|]. cbn [fst In] in Hq. intuition.
      + intros (flag & sl & cl & Hp & Hq). exists (flag, (sl, cl)). split; [apply wanted_in; exact Hp|]. cbn [fst In]. intuition. }
    rewrite FE. unfold L. rewrite periodic_labels. unfold w. rewrite !pair_equal_spec. set (X := exists flag sl cl, _). clearbody X. set (Y := In n (stat_names "px1")). clearbody Y.
    split; [intros [(<- & <- & <-)|[(<- & <- & <-)|[(<- & <- & <-)|[H|[H|H]]]]]; tauto|].
    intros [(-> & -> & ->)|[(-> & -> & ->)|(-> & -> & [->|[H|[H|H]]])]]; tauto.
Qed.
Print Assumptions C105_names.

(** ** refuted: a cell that is masked in every month gets a value and a mask that says it is valid *)
Theorem C105_mask_refuted : forall erf tppf maps order START END BREAK MISSING CYCLES months nlat nlon f tm v out i j,
  months_are START END MISSING months -> monthly maps order months nlat nlon (Some (Some f)) tm v -> in_order CYCLES -> (i < nlat)%nat -> (j < nlon)%nat ->
  piecewise_grace_maps erf tppf maps order START END BREAK MISSING CYCLES = Ok out -> (forall m, In m months -> v m i j = None) ->
  file out "x0" START END i j f /\ file out "px1" START BREAK i j 0 /\ file out "px1" BREAK END i j 0.
Proof.
  intros erf tppf maps order START END BREAK MISSING CYCLES months nlat nlon f tm v out i j HM HI HA Hi Hj E HV.
  destruct (C105_fit _ _ _ _ _ _ _ _ _ _ _ _ _ _ _ _ HM HI HA ltac:(lia) ltac:(lia) E) as (_ & L & ND & HL & _ & H). destruct (H i j Hi Hj) as (e0 & e1 & e2 & c & F0 & F1 & F2 & FL & MIN & UNI). cbv zeta in MIN, UNI.
  assert (Z : bent_squares (tm BREAK) L months tm (fun m => stored (Some (Some f)) (v m i j)) f 0 0 (fun _ => 0) = 0).
  { unfold bent_squares. enough (G : forall l0, (forall m, In m l0 -> In m months) -> Sum (map (fun m => (stored (Some (Some f)) (v m i j) - (bent (tm BREAK) f 0 0 (tm m) + combined 0 L (fun _ => 0) (tm m))) ^ 2) l0) = 0) by (apply G; auto).
    induction l0 as [|a l0 IH]; intros HI0; [reflexivity|]. cbn [map Sum fold_right]. unfold Sum in IH. rewrite IH by (intros m Hm; apply HI0; right; exact Hm). rewrite (HV a) by (apply HI0; left; reflexivity). cbn [stored]. rewrite combined_zero. rewrite bent_ramp. ring. }
  assert (NN : 0 <= bent_squares (tm BREAK) L months tm (fun m => stored (Some (Some f)) (v m i j)) e0 e1 e2 c).
  { unfold bent_squares. generalize months. induction months0 as [|a l0 IH]; cbn [map Sum fold_right]; [lra|]. unfold Sum in IH. match goal with |- 0 <= ?a ^ 2 + _ => pose proof (pow2_ge_0 a) end. lra. }
  destruct (UNI f 0 0 (fun _ => 0)) as (-> & <- & <- & _); [specialize (MIN f 0 0 (fun _ => 0)); lra|]. split; [exact F0|]. split; [exact F1|exact F2].
Qed.
Print Assumptions C105_mask_refuted.
(** ** example: maps with arbitrary values every quarter of a year, with a break in the fifth month and an annual cycle *)
Definition ex_quarter (m : Z) : R := IZR m / 4.
Definition ex_months9 : list Z := [4; 5; 6; 7; 8; 9; 10; 11; 12]%Z.
Theorem C105_example : forall erf tppf nlat nlon f v, (0 < nlat)%nat -> (0 < nlon)%nat ->
  months_are 4 12 [] ex_months9 /\ monthly (ex_maps nlat nlon f ex_quarter v) (seq 0 9) ex_months9 nlat nlon (Some (Some f)) ex_quarter v /\ in_order [1] /\ distinct [1] /\
  (exists out, piecewise_grace_maps erf tppf (ex_maps nlat nlon f ex_quarter v) (seq 0 9) 4 12 8 [] [1] = Ok out) /\
  piecewise_grace_maps erf tppf (ex_maps nlat nlon f ex_quarter v) (seq 0 9) 4 12 13 [] [1] = Err ValueError.
Proof.
  intros erf tppf nlat nlon f v Hn Hm. 
  assert (HM : months_are 4 12 [] ex_months9). { split; [repeat constructor|]. intros m. cbn [ex_months9 In]. split; [intros H; split; [lia|tauto]|intros (H & _); lia]. }
  assert (HI : monthly (ex_maps nlat nlon f ex_quarter v) (seq 0 9) ex_months9 nlat nlon (Some (Some f)) ex_quarter v).
  { apply (ex_monthly nlat nlon f ex_quarter v ex_months9); [discriminate|exact (proj1 HM)|]. intros m m' H H' L. unfold ex_quarter. apply IZR_lt in L. lra. }
  assert (HA : in_order [1]). { exists [1], []. split; [reflexivity|]. split; [intros c [<-|[]]; auto|intros c []]. }
  assert (HD : distinct [1]) by (unfold distinct; constructor; constructor).
  split; [exact HM|]. split; [exact HI|]. split; [exact HA|]. split; [exact HD|]. split.
  - apply (C105_returns erf tppf _ _ _ _ _ _ _ _ _ _ _ _ _ HM HI HA HD Hn Hm). split; [cbn; tauto|]. exists ["AS"; "AC"]%string. split; [apply nodupb_ok; reflexivity|]. split.
    { intros l. unfold periodic. split; [intros Hl; right; left; split; [left; reflexivity|exact Hl]|]. intros [([HC|[]] & _)|[(_ & Hl)|(c & nd & [<-|[]] & H1 & H2 & _)]]; [exfalso; lra|exact Hl|exfalso; apply (not_alias 1 (or_intror eq_refl) nd H1 H2)]. }
    split; [cbn; lia|]. intros b0 b1 b2 c H. destruct quarters as ((q0 & q0') & (q1 & q1') & (q2 & q2') & (q3 & q3')).
    assert (EV : forall m n q s c', In m ex_months9 -> (0 <= n)%Z -> IZR m / 4 = IZR n + q -> sin (2 * PI * q) = s -> cos (2 * PI * q) = c' -> bent 2 b0 b1 b2 (IZR m / 4) + (c "AS"%string * s + c "AC"%string * c') = 0).
    { intros m n q s c' Im Hq EQ Es Ec. specialize (H m Im). unfold ex_quarter, combined in H. cbn [map Sum fold_right] in H. change (meaning 0 "AS" (IZR m / 4)) with (sin (2 * PI * (IZR m / 4))) in H. change (meaning 0 "AC" (IZR m / 4)) with (cos (2 * PI * (IZR m / 4))) in H.
      destruct (turns (2 * PI * (IZR m / 4)) n q Hq ltac:(rewrite EQ; reflexivity)) as (T1 & T2). rewrite T1, T2, Es, Ec in H. replace (8 / 4) with 2 in H by lra. lra. }
    pose proof (EV 4%Z 1%Z 0 _ _ ltac:(cbn; tauto) ltac:(lia) ltac:(lra) q0 q0') as E4. pose proof (EV 5%Z 1%Z (1 / 4) _ _ ltac:(cbn; tauto) ltac:(lia) ltac:(lra) q1 q1') as E5. pose proof (EV 6%Z 1%Z (1 / 2) _ _ ltac:(cbn; tauto) ltac:(lia) ltac:(lra) q2 q2') as E6.
    pose proof (EV 8%Z 2%Z 0 _ _ ltac:(cbn; tauto) ltac:(lia) ltac:(lra) q0 q0') as E8. pose proof (EV 12%Z 3%Z 0 _ _ ltac:(cbn; tauto) ltac:(lia) ltac:(lra) q0 q0') as E12. unfold bent in *.
    destruct (Rlt_dec (4 / 4) 2); [|lra]. destruct (Rlt_dec (5 / 4) 2); [|lra]. destruct (Rlt_dec (6 / 4) 2); [|lra]. destruct (Rlt_dec (8 / 4) 2); [lra|]. destruct (Rlt_dec (12 / 4) 2); [lra|].
    split; [lra|]. split; [lra|]. split; [lra|]. intros l [<-|[<-|[]]]; lra.
  - apply (C105_returns erf tppf _ _ _ _ _ _ _ _ _ _ _ _ _ HM HI HA HD Hn Hm). cbn [ex_months9 In]. lia.
Qed.
Print Assumptions C105_example.
